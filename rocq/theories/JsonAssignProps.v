(** Final theorems: C122 assigning C++ values to JSON values and reading them back. *)
From Coq Require Import List NArith ZArith Bool Lia.
From Verif Require Import Outcome CharModel StrModel SpecUtf8 SpecStr StrProofs FileProofs JsonData.
Import ListNotations.
Local Open Scope Z_scope.

(** [w] is the value of type Int64 that differs from [z] by a multiple of 2^64. *)
Definition wraps_to (z w : Z) : Prop := - 2 ^ 63 <= w < 2 ^ 63 /\ exists k, w = z + k * 2 ^ 64.
Lemma to_int64_wraps z : wraps_to z (to_int64 z).
Proof.
  unfold wraps_to, to_int64. pose proof (Z.mod_pos_bound (z + 9223372036854775808) 18446744073709551616 ltac:(lia)).
  split; [lia|]. exists (- ((z + 9223372036854775808) / 18446744073709551616)).
  pose proof (Z.div_mod (z + 9223372036854775808) 18446744073709551616 ltac:(lia)). lia.
Qed.
Lemma wraps_unique z w w' : wraps_to z w -> wraps_to z w' -> w = w'.
Proof. intros [H [k E]] [H' [k' E']]. assert (k = k') by lia. subst. reflexivity. Qed.

(** ** C122 *)
(** Whatever the value held before: the type and what the getter gives afterwards; the other getters give
    their defaults. *)
Theorem C122_scalars_partial : forall (F : Type) (zero : F) (v : json F),
  (forall b, let w := assign_bool zero v b in j_type w = CBoolean /\ get_boolean w = b /\ get_integral w = 0 /\ get_floating zero w = zero /\ get_string w = []) /\
  (forall z, - 2 ^ 63 <= z < 2 ^ 63 -> let w := assign_int zero v z in
     j_type w = CIntegral /\ get_integral w = z /\ get_boolean w = false /\ get_floating zero w = zero /\ get_string w = []) /\
  (forall f, let w := assign_float zero v f in j_type w = CFloating /\ get_floating zero w = f /\ get_integral w = 0 /\ get_boolean w = false /\ get_string w = []) /\
  (forall s, text s -> exists w, assign_std zero v (concat s) = (w, Ok tt) /\ j_type w = CString /\ get_string w = s /\
     get_integral w = 0 /\ get_boolean w = false /\ get_floating zero w = zero).
Proof.
  intros F zero v. split; [|split; [|split]].
  - intro b. destruct v; repeat split.
  - intros z R. assert (E : to_int64 z = z).
    { apply (wraps_unique z); [apply to_int64_wraps|]. split; [assumption|]. exists 0. lia. }
    destruct v; cbn; rewrite E; repeat split.
  - intro f. destruct v; repeat split.
  - intros s T. exists (JStr s). unfold assign_std. rewrite FileProofs.string_of_std_text by assumption. repeat split.
Qed.
Print Assumptions C122_scalars_partial.
(** A constructor gives what assigning to a new value gives. *)
Theorem C122_constructors : forall (F : Type) (zero : F) (v : json F),
  (forall b, j_of_bool b = assign_bool zero v b) /\ (forall z, j_of_int z = assign_int zero v z) /\
  (forall f, j_of_float f = assign_float zero v f) /\
  (forall b w, j_of_std b = Ok w <-> assign_std zero v b = (w, Ok tt)).
Proof.
  intros F zero v. split; [|split; [|split]]; try (intro; now destruct v).
  intros b w. unfold j_of_std, assign_std. destruct (string_of_std b); cbn; split; intros [=]; subst; reflexivity.
Qed.
Print Assumptions C122_constructors.
(** An integer that is not an Int64 (an UInt64 from 2^63 on) is stored reduced by 2^64: it reads back negative. *)
Theorem C122_integers_refuted : forall (F : Type) (zero : F) (v : json F) z,
  wraps_to z (get_integral (assign_int zero v z)) /\
  (2 ^ 63 <= z < 2 ^ 64 -> get_integral (assign_int zero v z) = z - 2 ^ 64).
Proof.
  intros F zero v z. assert (E : get_integral (assign_int zero v z) = to_int64 z) by now destruct v.
  rewrite E. split; [apply to_int64_wraps|]. intro R. apply (wraps_unique z); [apply to_int64_wraps|].
  split; [lia|]. exists (-1). lia.
Qed.
Print Assumptions C122_integers_refuted.
(** A text that is refused still takes the previous value away: what is left is an empty String, unless the
    value was a String before. *)
Theorem C122_refused_text_refuted : forall (F : Type) (zero : F) (v : json F) b e, string_of_std b = Throw e ->
  snd (assign_std zero v b) = Throw e /\
  (j_type v <> CString -> fst (assign_std zero v b) = JStr []) /\ (j_type v = CString -> fst (assign_std zero v b) = v).
Proof.
  intros F zero v b e H. unfold assign_std. rewrite H. split; [reflexivity|]. split; intro T; destruct v; try reflexivity; try discriminate.
  now destruct T.
Qed.
Print Assumptions C122_refused_text_refuted.
(** IsNull() ... IsBoolean(): each is true of exactly one type, the one GetType() gives. *)
Theorem C122_predicates : forall (F : Type) (v : json F) c, is_class v c = true <-> j_type v = c.
Proof. intros F v c. unfold is_class. destruct v, c; cbn; split; (reflexivity || discriminate). Qed.
Print Assumptions C122_predicates.
Lemma update_key_object F (zero : F) v k f : j_type (update_key zero v k f) = CObject.
Proof. unfold update_key, index_key. destruct (find_key _ k); cbn; destruct (nth_error _ _) as [[]|]; reflexivity. Qed.
Lemma doc_run_object F (zero : F) os : forall d d' : document, j_type (root d) = CObject -> error d = NoError ->
  doc_run zero d os = Ok d' -> j_type (root d') = CObject /\ error d' = NoError.
Proof.
  induction os as [|o os IH]; intros d d' T E R; cbn [doc_run] in R; [injection R as <-; auto|].
  destruct (doc_step zero d o) as [d1| | |] eqn:S; try discriminate. cbn [bind] in R.
  enough (j_type (root d1) = CObject /\ error d1 = NoError) as [T1 E1] by exact (IH d1 d' T1 E1 R).
  destruct o as [k x|k|k f|k]; cbn [doc_step] in S; try (injection S as <-; split; [apply update_key_object|exact E]).
  unfold doc_remove in S. destruct (has_member (root d) k); [|injection S as <-; auto].
  destruct (get_data (root d)); try discriminate. injection S as <-. auto.
Qed.
(** A new document, edited in any way, is an Object without an error and says so; and for every error GetErrorString
    gives the text of the message. *)
Theorem C122_document : forall (F : Type) (zero : F) os d,
  (doc_run zero (doc_default zero) os = Ok d -> doc_type d = CObject /\ doc_has_error d = false /\ error d = NoError) /\
  (exists s, doc_error_string d = Ok s /\ text s /\ s_str s = get_error_string (error d)) /\
  (doc_has_error d = true <-> error d <> NoError).
Proof.
  intros F zero os d. split; [|split].
  - intro R. destruct (doc_run_object F zero os (doc_default zero) d eq_refl eq_refl R) as [T E].
    unfold doc_type, doc_has_error. rewrite E. auto.
  - exists (map (fun b => [b]) (get_error_string (error d))).
    assert (A : Forall (fun b => 0 < b < 128)%N (get_error_string (error d))) by (destruct (error d); cbn; repeat constructor).
    assert (T : text (map (fun b => [b]) (get_error_string (error d)))).
    { apply Forall_map. eapply Forall_impl; [|exact A]. intros b H. cbn beta in H. split; [apply unit1; lia|intros [=]; lia]. }
    assert (C : concat (map (fun b => [b]) (get_error_string (error d))) = get_error_string (error d)).
    { clear. induction (get_error_string (error d)) as [|b l IH]; [reflexivity|]. cbn. now rewrite IH. }
    split; [|split; [assumption|]].
    + unfold doc_error_string. rewrite <- C at 1. now apply FileProofs.string_of_std_text.
    + now rewrite s_str_text.
  - unfold doc_has_error. destruct (error d); split; (discriminate || congruence || reflexivity).
Qed.
Print Assumptions C122_document.
Example C122_ex : get_integral (assign_int 0 (JStr [[97%N]] : json Z) (-5)) = -5 /\
  get_integral (assign_int 0 (JNull : json Z) (2 ^ 64 - 1)) = -1 /\
  assign_std 0 (JInt 7 : json Z) [0xFF%N] = (JStr [], Throw ERuntimeError) /\
  assign_std 0 (JInt 7 : json Z) [0xC3; 0xA9]%N = (JStr [[0xC3; 0xA9]%N], Ok tt) /\
  is_class (JBool true : json Z) CBoolean = true /\
  doc_run 0 (doc_default 0) [OpAdd [[97%N]] (JInt 1)] = Ok {| root := JObj [([[97%N]], JInt 1)]; error := NoError |}.
Proof. repeat split. Qed.
