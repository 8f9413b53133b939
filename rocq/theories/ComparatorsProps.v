(** Property C83: safe integer comparison. *)
From Coq Require Import ZArith Bool Lia ZifyBool.
From Verif Require Import Comparators.
Local Open Scope Z_scope.
Ltac Zify.zify_post_hook ::= Z.to_euclidean_division_equations.

Lemma convert_id t z : value_of_type t z -> convert t z = z.
Proof.
  destruct t as [[] []]; unfold value_of_type, convert; cbn -[Z.modulo Z.ltb Z.leb]; intros H;
  try (rewrite Z.mod_small by lia; reflexivity);
  match goal with |- (if ?b then _ else _) = _ => destruct b eqn:E end; lia.
Qed.

Ltac conv_ids :=
  repeat match goal with
  | |- context [convert ?T ?z] =>
      lazymatch z with context [convert] => fail | _ => idtac end;
      rewrite (convert_id T z) by (unfold value_of_type; cbn; lia)
  end.

(** The tests against the literal 0 are exact. *)
Lemma ge0 T t : is_signed T = true -> value_of_type T t -> op_ge T t_int t 0 = (t >=? 0).
Proof.
  destruct T as [[] []]; intros S; try discriminate S; unfold value_of_type, op_ge;
  cbn -[convert Z.geb]; intros H; conv_ids; reflexivity.
Qed.
Lemma lt0 T t : is_signed T = true -> value_of_type T t -> op_lt T t_int t 0 = (t <? 0).
Proof.
  destruct T as [[] []]; intros S; try discriminate S; unfold value_of_type, op_lt;
  cbn -[convert Z.ltb]; intros H; conv_ids; reflexivity.
Qed.

Lemma to_unsigned T t : value_of_type T t -> 0 <= t -> value_of_type (make_unsigned T) t.
Proof. destruct T as [[] []]; unfold value_of_type; cbn; lia. Qed.

(** Two types of the same signedness, or values that are not negative in unsigned types. *)
Lemma same_sign_ops T U t u : is_signed T = is_signed U -> value_of_type T t -> value_of_type U u ->
  op_eq T U t u = (t =? u) /\ op_lt T U t u = (t <? u).
Proof.
  destruct T as [[] []], U as [[] []]; intros S; try discriminate S; unfold value_of_type, op_eq, op_lt;
  cbn -[convert Z.ltb Z.eqb]; intros Ht Hu; conv_ids; split; reflexivity.
Qed.

Lemma cmp_exact T U t u : value_of_type T t -> value_of_type U u ->
  cmp_eq T U t u = (t =? u) /\ cmp_less T U t u = (t <? u).
Proof.
  intros Ht Hu. unfold cmp_eq, cmp_less.
  destruct (Bool.eqb (is_signed T) (is_signed U)) eqn:S.
  - apply same_sign_ops; [now apply eqb_prop|assumption|assumption].
  - destruct (is_signed T) eqn:ST; destruct (is_signed U) eqn:SU; try discriminate S.
    + rewrite ge0, lt0 by assumption.
      assert (0 <= u) by (unfold value_of_type in Hu; rewrite SU in Hu; lia).
      destruct (Z_lt_le_dec t 0) as [N|P].
      * replace (t >=? 0) with false by lia. replace (t <? 0) with true by lia. cbn. lia.
      * pose proof (to_unsigned T t Ht P) as Ht'. rewrite (convert_id _ _ Ht').
        destruct (same_sign_ops (make_unsigned T) U t u) as [-> ->]; [now rewrite SU|assumption|assumption|].
        lia.
    + rewrite ge0 by assumption.
      assert (0 <= t) by (unfold value_of_type in Ht; rewrite ST in Ht; lia).
      destruct (Z_lt_le_dec u 0) as [N|P].
      * replace (u >=? 0) with false by lia. cbn. lia.
      * pose proof (to_unsigned U u Hu P) as Hu'. rewrite (convert_id _ _ Hu').
        destruct (same_sign_ops T (make_unsigned U) t u) as [-> ->]; [now rewrite ST|assumption|assumption|].
        lia.
Qed.

(** The ranges of the integer types, from the standard *)
Definition least_value (T : ity) : Z :=
  match T with
  | Ity W8 true => -128 | Ity W16 true => -32768 | Ity W32 true => -2147483648 | Ity W64 true => -9223372036854775808
  | Ity _ false => 0
  end.
Definition greatest_value (T : ity) : Z :=
  match T with
  | Ity W8 true => 127 | Ity W16 true => 32767 | Ity W32 true => 2147483647 | Ity W64 true => 9223372036854775807
  | Ity W8 false => 255 | Ity W16 false => 65535 | Ity W32 false => 4294967295 | Ity W64 false => 18446744073709551615
  end.
Definition ranges (T : ity) (z : Z) : Prop := least_value T <= z <= greatest_value T.
Lemma ranges_value T z : ranges T z <-> value_of_type T z.
Proof. destruct T as [[] []]; unfold ranges, value_of_type; cbn; lia. Qed.

(** C83.  Every pair of integer types, every pair of their values. *)
Theorem C83_cmp_exact : forall T U t u, ranges T t -> ranges U u ->
  cmp_eq T U t u = (t =? u) /\ cmp_less T U t u = (t <? u).
Proof. intros T U t u A B. apply cmp_exact; now apply ranges_value. Qed.
Print Assumptions C83_cmp_exact.
(** -1 of type int and 4294967295 of type unsigned int: the plain operators get these wrong. *)
Example C83_ex : let T := Ity W32 true in let U := Ity W32 false in
  ranges T (-1) /\ ranges U 4294967295 /\
  cmp_less T U (-1) 4294967295 = true /\ plain_less T U (-1) 4294967295 = false /\
  cmp_eq T U (-1) 4294967295 = false /\ op_eq T U (-1) 4294967295 = true /\
  cmp_less (Ity W8 true) (Ity W64 false) (-128) 0 = true.
Proof. unfold ranges. cbn. lia. Qed.
