(** Model of __Core/Utility/Random.h 75-94: Random<T>(min, max) for Float, Double and Decimal, with std::generate_canonical
    and std::uniform_real_distribution of libstdc++.
    Simplifications: the reading of the steady clock is given; a finite number is an integer times a power of two, the sign of
    a zero in the result is left out here (see RandomSign.v); the current rounding direction is the default one; expressions are evaluated in their
    own type (no fused multiplication and addition, FLT_EVAL_METHOD 0); Decimal is the x87 long double. *)
From Coq Require Import List NArith ZArith Bool.
From Verif Require Import Outcome Double Random.
Import ListNotations.
Local Open Scope Z_scope.

(** The floating types: digits of the significand, least and greatest exponent of its last digit (__Caitlyn/Types.h 114-116; IEEE 754
    binary32 and binary64; x87). *)
Inductive ftype := FFloat | FDouble | FDecimal.
Definition digits (t : ftype) : Z := match t with FFloat => 24 | FDouble => 53 | FDecimal => 64 end.
Definition least (t : ftype) : Z := match t with FFloat => -149 | FDouble => -1074 | FDecimal => -16445 end.
Definition greatest (t : ftype) : Z := match t with FFloat => 104 | FDouble => 971 | FDecimal => 16320 end.

(** m * 2^e *)
Definition num := (Z * Z)%type.
(** Exact operations *)
Definition n_opp (x : num) : num := (- fst x, snd x).
Definition n_add (x y : num) : num :=
  let e := Z.min (snd x) (snd y) in (fst x * 2 ^ (snd x - e) + fst y * 2 ^ (snd y - e), e).
Definition n_mul (x y : num) : num := (fst x * fst y, snd x + snd y).
Definition n_leb (x y : num) : bool :=
  let e := Z.min (snd x) (snd y) in fst x * 2 ^ (snd x - e) <=? fst y * 2 ^ (snd y - e).
(** Rounding to nearest, ties to even *)
Definition round (t : ftype) (x : num) : num :=
  let '(m, e) := x in
  let k := Z.max (least t) (Z.log2 (Z.abs m) + e - (digits t - 1)) in
  if k <=? e then (m, e) else (nearest_even m (2 ^ (k - e)), k).
(** std::numeric_limits<T>::max() and min() *)
Definition largest (t : ftype) : num := (2 ^ digits t - 1, greatest t).
Definition smallest_normal (t : ftype) : num := (1, least t + digits t - 1).

(** std::generate_canonical<T, digits>(engine): one word, converted to T, over 2^64; the number before 1 instead of 1 *)
Definition canonical_real (t : ftype) (w : N) : num :=
  let '(m, e) := round t (Z.of_N w, 0) in
  if n_leb (1, 0) (m, e - 64) then (2 ^ digits t - 1, - digits t) else (m, e - 64).

(** An argument as a finite number *)
Definition finite (d : dbl) : option num :=
  match d with Finite neg m e => Some (if neg then - Z.of_N m else Z.of_N m, e) | _ => None end.

(** uniform_real_distribution<T>{min, max}(engine): canonical * (max - min) + min; min <= max and
    max - min <= numeric_limits<T>::max() are preconditions *)
Definition uniform_real (t : ftype) (w : N) (min max : dbl) : outcome num :=
  match finite min, finite max with
  | Some a, Some b =>
      if negb (n_leb a b) then UB else
      let d := round t (n_add b (n_opp a)) in
      if negb (n_leb d (largest t)) then UB else
      Ok (round t (n_add (round t (n_mul (canonical_real t w) d)) a))
  | _, _ => UB
  end.

(** Random.h 75-80, 82-87, 89-94 Random<T>(min, max) *)
Definition random_real (t : ftype) (now : Z) (min max : dbl) : outcome num :=
  uniform_real t (output (u64 now) 0) min max.
(** Random.h 29-30: the default arguments *)
Definition random_default (t : ftype) (now : Z) : outcome num :=
  random_real t now (Finite false 1 (snd (smallest_normal t))) (Finite false (Z.to_N (fst (largest t))) (greatest t)).
