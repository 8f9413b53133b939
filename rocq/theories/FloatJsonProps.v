(** Property C137: floating-point numbers in JSON documents. *)
From Coq Require Import String List NArith ZArith QArith Qabs Lqa Lia Bool.
From Verif Require Import Outcome CharModel StrModel SpecInt SpecStr SpecJson SpecJsonText Double JsonData JsonParse JsonParseProofs JsonPrintProofs JsonProps
  FloatText SpecFloatText SpecFloatJson FloatQ FloatTextProofs FloatRead FloatJson FloatSmall FloatDoc.
Import ListNotations.
Local Open Scope list_scope.
Local Open Scope Q_scope.

(** The text of a number that is not zero shows the nearest number with six digits (of two the one with an even last
    digit): with an exponent below 0.00009999995 and from 999999.5, as a plain decimal otherwise. *)
Theorem C137_text : forall neg m e, m <> 0%N ->
  exists d x t, float_to_stream (Finite neg m e) = (if neg then [45%N] else []) ++ t /\ best_six (binary m e) d x /\
  (with_exponent (binary m e) /\ exponent_text t d x \/ ~ with_exponent (binary m e) /\ decimal_text t (six d x)).
Proof.
  intros neg m e M. destruct (text_of neg m e M) as (d & x & t & B & T & S & _). exists d, x, t. split; [exact T|]. split; [exact B|].
  pose proof (notation_chosen _ _ _ B) as W. destruct S as [[X S]|[X S]]; [right|left]; split; auto; tauto.
Qed.
Print Assumptions C137_text.
(** Zeros keep their sign, whatever the exponent; infinities and what is not a number. *)
Theorem C137_zero : forall (neg : bool) (e : Z), let sign : list N := if neg then [45%N] else [] in
  float_to_stream (Finite neg 0 e) = sign ++ [48%N] /\ decimal_text [48%N] (binary 0 e) /\
  float_to_stream (Infinite neg) = sign ++ lit "inf" /\ float_to_stream (NotANumber neg) = sign ++ lit "nan".
Proof.
  intros neg e sign. split; [reflexivity|]. split; [|split; reflexivity]. exists [48%N], []. split; [discriminate|].
  split; [repeat constructor; discriminate|]. split; [now left|]. split; [constructor|]. split; [now left|].
  unfold binary. cbn. unfold Qeq. cbn. reflexivity.
Qed.
Print Assumptions C137_zero.
Example C137_text_ex : float_to_stream (Finite true 0xFFFFFF 104) = lit "-3.40282e+38" /\ float_to_stream (Finite false 3 (-1)) = lit "1.5" /\
  float_to_stream (Finite false 9999995 (-3)) = lit "1.25e+06" /\ float_to_stream (Finite false 1999999 (-1)) = lit "1e+06" /\
  float_to_stream (Finite false 1 (-149)) = lit "1.4013e-45" /\ with_exponent (binary 1999999 (-1)) /\ ~ with_exponent (binary 3 (-1)).
Proof.
  do 5 (split; [vm_compute; reflexivity|]). split; [right; vm_compute; discriminate|]. intros [H|H]; vm_compute in H; [discriminate H|now apply H].
Qed.

(** Saving a document and loading it: the same document with every float replaced - a number written with exponent by a
    float nearby, any other number by the integer part of its six digits.  Saving and loading that once more changes
    nothing.  (Strings, keys and literals as in C58.) *)
Theorem C137_reload_partial : forall zero pretty indent v, savable finite_float v -> j_type v = CObject -> literals_in_ascii (parts v) ->
  exists v' t t', replaced float_back v v' /\
  to_string float_to_stream pretty indent v = Ok t /\ doc_parse zero stod_float t = Ok {| root := v'; error := NoError |} /\
  to_string float_to_stream pretty indent v' = Ok t' /\ doc_parse zero stod_float t' = Ok {| root := v'; error := NoError |}.
Proof.
  intros zero pretty indent v S Ty A. destruct (document v S) as (v' & R & C & Y & Q). exists v'.
  destruct (reload zero _ _ pretty indent v v' C Ty A) as (t & T1 & _ & T2).
  destruct (round_trip zero _ _ pretty indent v' Y) as (t' & T3 & _ & T4).
  - destruct C; try discriminate Ty; reflexivity.
  - now rewrite Q.
  - exists t, t'. auto.
Qed.
Print Assumptions C137_reload_partial.
(** A float that is written without exponent comes back as an integer, whatever its fraction. *)
Theorem C137_fraction_refuted : forall zero k neg m e, text k -> ~ In (ch 0x22%N) k -> float32 m e -> m <> 0%N -> ~ with_exponent (binary m e) ->
  exists t d x z, to_string float_to_stream false 4 (JObj [(k, JFloat (Finite neg m e))]) = Ok t /\ best_six (binary m e) d x /\
  inject_Z z <= six d x < inject_Z (z + 1) /\
  doc_parse zero stod_float t = Ok {| root := JObj [(k, JInt (if neg then - z else z)%Z)]; error := NoError |}.
Proof.
  intros zero k neg m e Tk Nk F M W. set (v := JObj [(k, JFloat (Finite neg m e))]).
  assert (S : savable finite_float v).
  { constructor; [repeat constructor; intros []|]. constructor; [|constructor]. cbn [fst snd]. split; [assumption|]. split; [assumption|]. constructor. exists neg, m, e. auto. }
  assert (A : literals_in_ascii (parts v)).
  { intros a b H. exfalso. cbn in H. destruct a as [|? [|? a]]; cbn in H; discriminate H. }
  destruct (C137_reload_partial zero false 4 v S eq_refl A) as (v' & t & t' & R & T1 & T2 & _).
  inversion R as [| | | | | |ms ms' R']; subst. inversion R' as [|? [k' w] ? l' [K Rw] Rl]; subst. inversion Rl; subst. cbn [fst snd] in *. subst k'.
  inversion Rw as [| | |? ? B| | |]; subst. destruct B as (neg' & m1 & e1 & [= <- <- <-] & [[B _]|[(d & x & z & _ & _ & B & Z & ->)|(m' & e' & _ & B & _)]]); try contradiction.
  exists t, d, x, z. auto.
Qed.
Print Assumptions C137_fraction_refuted.
(** Documents with infinities and NaNs can be saved, but not loaded. *)
Theorem C137_special_refuted : forall zero neg, let saved f := t <- to_string float_to_stream false 4 (JObj [(str "k", JFloat f)]) ;; doc_parse zero stod_float t in
  saved (Infinite neg) = Ok {| root := JNull; error := UnexpectedCharacter |} /\ saved (NotANumber neg) = Ok {| root := JNull; error := UnexpectedCharacter |}.
Proof. intros zero [|]; split; vm_compute; reflexivity. Qed.
Print Assumptions C137_special_refuted.
Definition C137_doc : json dbl :=
  JObj [(str "a", JArr [JFloat (Finite false 3 (-1)); JFloat (Finite false 10000000 10); JNull]); (str "b", JFloat (Finite true 1 (-2))); (str "c", JFloat (Finite true 0x8637BD (-45)))].
Example C137_ex : savable finite_float C137_doc /\ j_type C137_doc = CObject /\ literals_in_ascii (parts C137_doc) /\
  to_string float_to_stream false 4 C137_doc = Ok (str "{""a"":[1.5,1.024e+10,null],""b"":-0.25,""c"":-2.5e-07}") /\
  doc_parse (Finite false 0 0) stod_float (str "{""a"":[1.5,1.024e+10,null],""b"":-0.25,""c"":-2.5e-07}") =
    Ok {| root := JObj [(str "a", JArr [JInt 1; JFloat (Finite false 10000000 10); JNull]); (str "b", JInt 0); (str "c", JFloat (Finite true 0x8637BD (-45)))]; error := NoError |}.
Proof.
  assert (G : forall neg m e, (m < 2 ^ 24)%N -> (-149 <= e)%Z -> (binary m e < 2 ^ 128) -> savable finite_float (JFloat (Finite neg m e))).
  { intros. constructor. exists neg, m, e. unfold float32. auto. }
  assert (T : forall b, (0 < b < 128)%N -> text [ch b]) by (intros; constructor; [now apply JsonDocProofs.ascii_text_char|constructor]).
  split; [|split; [reflexivity|split; [|split; vm_compute; reflexivity]]].
  - constructor.
    + repeat constructor; cbn; intuition discriminate.
    + apply Forall_cons; [split; [apply (T 97%N); lia|split; [cbn; intuition discriminate|]]|].
      { constructor. apply Forall_cons; [apply G; vm_compute; congruence|]. apply Forall_cons; [apply G; vm_compute; congruence|]. repeat constructor. }
      apply Forall_cons; [split; [apply (T 98%N); lia|split; [cbn; intuition discriminate|apply G; vm_compute; congruence]]|].
      apply Forall_cons; [split; [apply (T 99%N); lia|split; [cbn; intuition discriminate|apply G; vm_compute; congruence]]|constructor].
  - intros a b H. cbn in H. destruct a as [|p1 [|p2 a]]; [discriminate|injection H as <- _; repeat constructor; exists 97%N; split; [reflexivity|lia]|].
    exfalso. injection H as _ _ H. destruct a as [|p3 [|p4 a]]; [discriminate|discriminate|]. injection H as _ _ H. destruct a; discriminate.
Qed.
(** The smallest float and a subnormal one that is rounded *)
Example C137_subnormal_ex : let saved f := t <- to_string float_to_stream false 4 (JObj [(str "k", JFloat f)]) ;; doc_parse (Finite false 0 0) stod_float t in
  saved (Finite true 1 (-149)) = Ok {| root := JObj [(str "k", JFloat (Finite true 1 (-149)))]; error := NoError |} /\
  saved (Finite false 8000003 (-149)) = Ok {| root := JObj [(str "k", JFloat (Finite false 8000009 (-149)))]; error := NoError |} /\
  saved (Finite false 8000009 (-149)) = Ok {| root := JObj [(str "k", JFloat (Finite false 8000009 (-149)))]; error := NoError |}.
Proof. vm_compute. auto. Qed.
