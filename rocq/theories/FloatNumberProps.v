(** Property C140: the floating-point numbers of a JSON document that is read. *)
From Coq Require Import String List NArith ZArith QArith Qabs Lqa Lia Bool.
From Verif Require Import Outcome CharModel StrModel SpecInt SpecStr SpecStrUtil SpecJson SpecJsonText Double JsonData JsonParse JsonParseProofs JsonGrammar JsonProps
  FloatText SpecFloatRead FloatNumber.
Import ListNotations.
Local Open Scope list_scope.
Local Open Scope Q_scope.

Section Real.
Context {F : Type}.
Variables (whole : list N) (real real' : Str -> F -> Prop).
Hypothesis R : forall t x, real t x -> real' t x.
Let S1 := lib_simple whole hex_of real.
Let S2 := lib_simple whole hex_of real'.
Lemma simple_real p t v : S1 p t v -> S2 p t v.
Proof. intros H. destruct H; [eapply lp_string|apply lp_true|apply lp_false|apply lp_null|apply lp_int|apply lp_real]; eauto. Qed.
Lemma text_real :
  (forall p t v, value_text lib_ws lib_key S1 p t v -> value_text lib_ws lib_key S2 p t v) /\
  (forall p t m, member_text lib_ws lib_key S1 p t m -> member_text lib_ws lib_key S2 p t m) /\
  (forall p t ms, members_text lib_ws lib_key S1 p t ms -> members_text lib_ws lib_key S2 p t ms) /\
  (forall p t vs, elements_text lib_ws lib_key S1 p t vs -> elements_text lib_ws lib_key S2 p t vs).
Proof.
  apply text_mutind; intros; try (now constructor; auto using simple_real).
Qed.
End Real.
Lemma document_real {F} (real real' : Str -> F -> Prop) s v : (forall t x, real t x <-> real' t x) ->
  lib_document hex_of real s v <-> lib_document hex_of real' s v.
Proof.
  intros E. split; intros (w & o & r & H & W & V & Ty & Re); exists w, o, r; (split; [exact H|]); (split; [exact W|]); (split; [|auto]).
  - apply (proj1 (text_real (concat s) real real' (fun t x => proj1 (E t x)))). exact V.
  - apply (proj1 (text_real (concat s) real' real (fun t x => proj2 (E t x)))). exact V.
Qed.

(** C140.  A document is read exactly if it is one of the library's documents whose numbers with an exponent or plus sign
    are decimal numbers of the C library in the range of double, and each of these becomes the float nearest to the double
    that is nearest to its value, or infinite. *)
Theorem C140_accepted : forall zero s v, text s ->
  (doc_parse zero stod_float s = Ok {| root := v; error := NoError |} <-> lib_document hex_of lib_real s v).
Proof.
  intros zero s v T. rewrite (C62_accepted_partial dbl zero stod_float s v T). apply document_real. intros t x. unfold real_of, lib_real. apply stod_exact.
Qed.
Print Assumptions C140_accepted.
(** Each number has one value. *)
Theorem C140_one_value : forall t x y, lib_real t x -> lib_real t y -> x = y.
Proof. intros t x y H H'. unfold lib_real in *. apply stod_exact in H, H'. congruence. Qed.
Print Assumptions C140_one_value.
(** What is no decimal number is invalid; what is out of the range of double is reported as such. *)
Theorem C140_refused : forall s,
  (stod_float s = ConvInvalid <-> forall neg v, ~ c_decimal s neg v) /\
  (stod_float s = ConvRange <-> exists neg v m e, c_decimal s neg v /\ 0 < v /\ rounded 53 (-1074) v m e /\ ~ in_range v m e).
Proof. exact stod_refused. Qed.
Print Assumptions C140_refused.

(** 1.0000000596046447753906250001e0: rounding twice gives 1, though 1 + 2^-23 is nearer. *)
Ltac all_digits := vm_compute; repeat first [apply Forall_nil|apply Forall_cons; [split; discriminate|]].
Lemma C140_decimal : c_decimal (lit "1.0000000596046447753906250001e0") false (10000000596046447753906250001 # 10000000000000000000000000000).
Proof.
  apply (c_decimal_text [] [] (lit "1") (lit ".0000000596046447753906250001") (lit "0000000596046447753906250001") (lit "e0") false 0).
  - constructor.
  - constructor.
  - all_digits.
  - intros d r' [= <- _]. unfold ascii_digit. lia.
  - right. split; [reflexivity|]. split; [all_digits|]. intros d r' [= <- _]. unfold ascii_digit. lia.
  - discriminate.
  - apply (ce_some 101 [] [48%N] [] false); [now left|constructor|discriminate|all_digits|discriminate].
  - vm_compute. reflexivity.
Qed.
Theorem C140_nearest_refuted : exists s neg v m e m' e', c_decimal s neg v /\ stod_float s = Converted (Finite neg (Z.to_N m) e) /\
  normal 24 (-149) m' e' /\ Qabs (v - scaled2 m' e') < Qabs (v - scaled2 m e).
Proof.
  exists (lit "1.0000000596046447753906250001e0"), false, (10000000596046447753906250001 # 10000000000000000000000000000), (2 ^ 23)%Z, (-23)%Z, (2 ^ 23 + 1)%Z, (-23)%Z.
  split; [exact C140_decimal|]. split; [vm_compute; reflexivity|]. split; [unfold normal; lia|]. vm_compute. reflexivity.
Qed.
Print Assumptions C140_nearest_refuted.
Example C140_ex : lib_real (chars_of (lit "1.0000000596046447753906250001e0")) (Finite false (2 ^ 23) (-23)) /\
  doc_parse (Finite false 0 0) stod_float (str "{""a"":1e5,""b"":25E-1,""c"":-1.e39,""d"":+7}") =
    Ok {| root := JObj [(str "a", JFloat (Finite false 12800000 (-7))); (str "b", JFloat (Finite false 10485760 (-22))); (str "c", JFloat (Infinite true)); (str "d", JFloat (Finite false 14680064 (-21)))]; error := NoError |} /\
  stod_float (lit "1e400") = ConvRange /\ stod_float (lit "-e5") = ConvInvalid.
Proof.
  split; [|vm_compute; auto]. apply stod_exact. vm_compute. reflexivity.
Qed.
