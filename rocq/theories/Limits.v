(** Model of __Core/Numeric/Utility/Limits.h (28-44) on x86-64 Linux: MinValue<T>, MaxValue<T>, ValueRange<T>, which
    return the constants of std::numeric_limits.  A finite value of a floating type is counted in units of its smallest
    positive value. *)
From Coq Require Import List NArith ZArith Bool.
From Verif Require Import CxxTypes.
Local Open Scope Z_scope.

(** Digits of the significand and number of binades: IEEE single and double, x87 extended *)
Definition format (bits : N) : Z * Z :=
  match bits with 32%N => (24, 253) | 64%N => (53, 2045) | _ => (64, 32765) end.
(** numeric_limits<T>::min() (line 31): of a floating type, the smallest positive normal number *)
Definition limits_min (t : number) : Z :=
  match t with NInt true n => - 2 ^ (Z.of_N n - 1) | NInt false _ => 0 | NFloat n => 2 ^ (fst (format n) - 1) end.
(** numeric_limits<T>::max() (line 37) *)
Definition limits_max (t : number) : Z :=
  match t with
  | NInt true n => 2 ^ (Z.of_N n - 1) - 1
  | NInt false n => 2 ^ Z.of_N n - 1
  | NFloat n => (2 ^ fst (format n) - 1) * 2 ^ (snd (format n))
  end.
Definition MinValue (b : base) : option Z := option_map limits_min (number_of b).
Definition MaxValue (b : base) : option Z := option_map limits_max (number_of b).
Definition ValueRange (b : base) : option (Z * Z) :=
  match MinValue b, MaxValue b with Some m, Some n => Some (m, n) | _, _ => None end.
