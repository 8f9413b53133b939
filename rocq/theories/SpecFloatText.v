(** What the text of a floating-point number should be, over the rationals and independent of the model. *)
From Coq Require Import List NArith ZArith QArith Qabs.
From Verif Require Import SpecInt.
Import ListNotations.
Local Open Scope Q_scope.

(** The number m * 2^e; the numbers with six significant digits: d * 10^(x - 5), 1 <= d / 10^5 < 10 *)
Definition binary (m : N) (e : Z) : Q := inject_Z (Z.of_N m) * 2 ^ e.
Definition six (d x : Z) : Q := inject_Z d * 10 ^ (x - 5).
Definition six_digits (d : Z) : Prop := (100000 <= d < 1000000)%Z.

(** [six d x] is the number with six digits nearest to [v]; of two, the one with an even last digit. *)
Definition best_six (v : Q) (d x : Z) : Prop :=
  six_digits d /\
  forall d' x', six_digits d' -> (d', x') <> (d, x) ->
    Qabs (v - six d x) < Qabs (v - six d' x') \/ Qabs (v - six d x) == Qabs (v - six d' x') /\ Z.even d = true.

(** A decimal: digits without superfluous zeros, and a point only if digits follow, of which the last is no zero *)
Definition decimal_text (t : list N) (v : Q) : Prop :=
  exists i f, i <> [] /\ Forall ascii_digit i /\ (i = [48%N] \/ hd 0%N i <> 48%N) /\ Forall ascii_digit f /\
  (f = [] /\ t = i \/ last f 48%N <> 48%N /\ t = i ++ 46%N :: f) /\
  v == inject_Z (digits_value i) + inject_Z (digits_value f) / 10 ^ Z.of_nat (length f).

(** d.ddddde+XX: an exponent of two digits at least *)
Definition exponent_text (t : list N) (d x : Z) : Prop :=
  exists u s ds, t = u ++ 101%N :: s :: ds /\ decimal_text u (inject_Z d / inject_Z 100000) /\
  ((x < 0)%Z /\ s = 45%N \/ (0 <= x)%Z /\ s = 43%N) /\ Forall ascii_digit ds /\ digits_value ds = Z.abs x /\
  (length ds = 2%nat \/ (2 < length ds)%nat /\ hd 0%N ds <> 48%N).

(** A finite float: a significand of 24 bits, exponents from -149, below 2^128 *)
Definition float32 (m : N) (e : Z) : Prop := (m < 2 ^ 24)%N /\ (-149 <= e)%Z /\ binary m e < 2 ^ 128.
(** The numbers that six digits show with an exponent: below 0.0001 or from 1000000, after rounding *)
Definition with_exponent (v : Q) : Prop := v < 9999995 # 100000000000 \/ 9999995 # 10 <= v.
