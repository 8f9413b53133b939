(** Specification of decimal numerals with a fraction, independent of the model. *)
From Coq Require Import List NArith ZArith.
From Verif Require Import SpecInt.
Import ListNotations.
Local Open Scope Z_scope.

(** [decimal t m k]: the text [t] is a decimal numeral and denotes the number m / 10^k. *)
Inductive decimal : list N -> Z -> nat -> Prop :=
| dec_whole t z : int_numeral t z -> decimal t z 0
| dec_plain ds fs : ds <> [] -> fs <> [] -> Forall ascii_digit ds -> Forall ascii_digit fs ->
    decimal (ds ++ 46%N :: fs) (digits_value (ds ++ fs)) (length fs)
| dec_minus ds fs : ds <> [] -> fs <> [] -> Forall ascii_digit ds -> Forall ascii_digit fs ->
    decimal (45%N :: ds ++ 46%N :: fs) (- digits_value (ds ++ fs)) (length fs).

(** m / 10^k and m' / 10^k' are the same number. *)
Definition same_number (m : Z) (k : nat) (m' : Z) (k' : nat) : Prop :=
  m * 10 ^ Z.of_nat k' = m' * 10 ^ Z.of_nat k.

(** The number of decimal digits of [p], none for zero. *)
Definition num_digits (p : Z) (k : nat) : Prop :=
  p = 0 /\ k = 0%nat \/ (1 <= k)%nat /\ 10 ^ Z.of_nat (k - 1) <= p < 10 ^ Z.of_nat k.

(** The fraction 0.000ddd with [k] digits after the point does not begin with a zero, or is zero. *)
Definition no_lost_zero (p : Z) (k : nat) : Prop := p = 0 \/ 10 ^ Z.of_nat (k - 1) <= p.

(** The numeral of [x] followed by the [k] digits of [p], read as one integer. *)
Definition joined (x p : Z) (k : nat) : Z :=
  if x <? 0 then x * 10 ^ Z.of_nat k - p else x * 10 ^ Z.of_nat k + p.

(** At most 2^55 digits: no size computed from such numbers wraps around. *)
Definition small (x : Z) : Prop := exists k, num_digits (Z.abs x) k /\ Z.of_nat k <= 2 ^ 55.
