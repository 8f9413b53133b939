(** Property C132: the limits of the number types. *)
From Coq Require Import List NArith ZArith Bool Lia.
From Verif Require Import CxxTypes Limits.
Local Open Scope Z_scope.

(** The values of a type: what the conversion of integers gives; of a floating type, significand and exponent: IEEE 754
    binary32 (24 digits, exponents -126 to 127), binary64 (53 digits, -1022 to 1023), x87 (64 digits, -16382 to 16383) *)
Definition significand (b : base) : Z := match b with BFloat => 24 | BDouble => 53 | _ => 64 end.
Definition exponents (b : base) : Z := match b with BFloat => 127 - -126 | BDouble => 1023 - -1022 | _ => 16383 - -16382 end.
Definition value_in (b : base) (z : Z) : Prop :=
  match number_of b with
  | Some (NInt _ _) => exists x, convert_int b x = Some z
  | Some (NFloat _) => exists m k, z = m * 2 ^ k /\ Z.abs m < 2 ^ significand b /\ 0 <= k <= exponents b
  | None => False
  end.
Lemma format_of b n : number_of b = Some (NFloat n) -> format n = (significand b, exponents b).
Proof. destruct b; try discriminate; intros [= <-]; reflexivity. Qed.
Definition floating (b : base) : bool := match number_of b with Some (NFloat _) => true | _ => false end.

(** C132.  MaxValue<T>() is the greatest and MinValue<T>() the least finite value of T. *)
Theorem C132_integer_partial : forall b m n, floating b = false -> ValueRange b = Some (m, n) ->
  MinValue b = Some m /\ MaxValue b = Some n /\ value_in b m /\ value_in b n /\ (forall z, value_in b z -> m <= z <= n).
Proof.
  intros b m n F H.
  assert (S : forall k z, 0 < k -> 0 < 2 ^ k /\ (- 2 ^ (k - 1) <= z <= 2 ^ (k - 1) - 1 <-> exists x, (x + 2 ^ k / 2) mod 2 ^ k - 2 ^ k / 2 = z)).
  { intros k z K. assert (P : 0 < 2 ^ (k - 1)) by (apply Z.pow_pos_nonneg; lia).
    assert (T : 2 ^ k = 2 * 2 ^ (k - 1)) by (rewrite <- Z.pow_succ_r by lia; f_equal; lia).
    assert (D : 2 ^ k / 2 = 2 ^ (k - 1)) by (rewrite T, Z.mul_comm; now apply Z.div_mul).
    split; [lia|]. rewrite D. split.
    - intros B. exists z. rewrite Z.mod_small; lia.
    - intros (x & <-). pose proof (Z.mod_pos_bound (x + 2 ^ (k - 1)) (2 ^ k)). lia. }
  assert (U : forall k z, 0 < k -> (0 <= z <= 2 ^ k - 1 <-> exists x, x mod 2 ^ k = z)).
  { intros k z K. pose proof (Z.pow_pos_nonneg 2 k). split.
    - intros B. exists z. apply Z.mod_small. lia.
    - intros (x & <-). pose proof (Z.mod_pos_bound x (2 ^ k)). lia. }
  assert (J : forall (f : Z -> Z) z, (exists x, Some (f x) = Some z) <-> exists x, f x = z).
  { intros f z. split; intros (x & X); exists x; [now injection X|now rewrite X]. }
  unfold ValueRange in H. unfold value_in.
  destruct b; try discriminate F; cbn [number_of floating MinValue MaxValue option_map limits_min limits_max convert_int] in *; unfold MinValue, MaxValue in *; cbn [number_of option_map limits_min limits_max] in *;
    try discriminate; injection H as <- <-; (split; [reflexivity|]); (split; [reflexivity|]);
    try (rewrite !J; first
      [ rewrite <- !(fun k z K => proj2 (S k z K)) by reflexivity | rewrite <- !U by reflexivity ]; (split; [cbn; lia|]); (split; [cbn; lia|]);
      intros z; rewrite J; first [ rewrite <- (fun K => proj2 (S _ z K)) by reflexivity | rewrite <- U by reflexivity ]; cbn; lia).
  all: split; [exists 0; reflexivity|]; split; [exists 1; reflexivity|]; intros z (x & X); destruct (x =? 0); injection X as <-; cbn; lia.
Qed.
Print Assumptions C132_integer_partial.
Theorem C132_floating_max_partial : forall b n, floating b = true -> MaxValue b = Some n ->
  value_in b n /\ forall z, value_in b z -> z <= n.
Proof.
  intros b n F H. unfold MaxValue, value_in, floating in *. destruct (number_of b) as [[sg k|k]|] eqn:B; try discriminate. injection H as <-. cbn [limits_max].
  rewrite (format_of b k B). cbn [fst snd].
  assert (P : 0 < 2 ^ significand b /\ 0 <= exponents b) by (destruct b; split; first [reflexivity|discriminate]).
  generalize dependent (significand b). generalize dependent (exponents b). intros K p [P Kp]. split.
  - exists (2 ^ p - 1), K. lia.
  - intros z (m & e & -> & M & E). pose proof (Z.pow_le_mono_r 2 e K ltac:(lia) ltac:(lia)). pose proof (Z.pow_pos_nonneg 2 e ltac:(lia) ltac:(lia)). nia.
Qed.
Print Assumptions C132_floating_max_partial.
(** MinValue of a floating type is positive: every such type has smaller values, even smaller positive ones. *)
Theorem C132_floating_min_refuted : forall b m, floating b = true -> MinValue b = Some m ->
  0 < m /\ value_in b (- m) /\ (exists z, value_in b z /\ 0 < z < m).
Proof.
  intros b m F H. unfold MinValue, value_in, floating in *. destruct (number_of b) as [[sg k|k]|] eqn:B; try discriminate. injection H as <-. cbn [limits_min].
  rewrite (format_of b k B). cbn [fst snd].
  assert (P : 1 < significand b /\ 0 <= exponents b) by (destruct b; split; first [reflexivity|discriminate]).
  generalize dependent (significand b). generalize dependent (exponents b). intros K p [P Kp].
  assert (Q : 0 < 2 ^ (p - 1)) by (apply Z.pow_pos_nonneg; lia).
  assert (T : 2 ^ p = 2 * 2 ^ (p - 1)) by (rewrite <- Z.pow_succ_r by lia; f_equal; lia).
  assert (Q2 : 2 ^ 1 <= 2 ^ (p - 1)) by (apply Z.pow_le_mono_r; lia). change (2 ^ 1) with 2 in Q2.
  split; [exact Q|]. split.
  - exists (- 2 ^ (p - 1)), 0. rewrite Z.pow_0_r. lia.
  - exists 1. split; [|lia]. exists 1, 0. rewrite Z.pow_0_r. lia.
Qed.
Print Assumptions C132_floating_min_refuted.
Example C132_ex : ValueRange BInt = Some (-2147483648, 2147483647) /\ ValueRange BBool = Some (0, 1) /\ floating BInt = false /\
  floating BDouble = true /\ MinValue BFloat = Some 8388608.
Proof. repeat split; vm_compute; reflexivity. Qed.
