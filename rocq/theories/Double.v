(** Model of the conversion double -> text that BigFloat(double) (__Numeric/Types/BigFloat.h 33-35) and
    JsonData::MakeFloating (__Serializing/Json/Types/JsonData.h 655-658) ask for: std::to_string(double), the C library's
    printf with "%f".
    Simplifications: a finite double is its sign, an integer significand and a binary exponent, of any size; the
    current rounding direction is the default one (to nearest, ties to even) and the decimal point of the locale is '.'. *)
From Coq Require Import String List NArith ZArith Bool.
From Verif Require Import Outcome CharModel StrModel Dec JsonData BigInt BigFloat.
Import ListNotations.
Local Open Scope list_scope.
Local Open Scope Z_scope.

(** (-1)^neg * m * 2^e; infinities; NaNs *)
Inductive dbl := Finite (neg : bool) (m : N) (e : Z) | Infinite (neg : bool) | NotANumber (neg : bool).

(** [a / b] rounded to the nearest integer, ties to even ([b] > 0) *)
Definition nearest_even (a b : Z) : Z :=
  let q := a / b in
  let r := a mod b in
  match 2 * r ?= b with
  | Lt => q
  | Gt => q + 1
  | Eq => if Z.even q then q else q + 1
  end.

(** The magnitude in millionths, rounded *)
Definition millionths (m : N) (e : Z) : Z :=
  if 0 <=? e then Z.of_N m * 2 ^ e * 10 ^ 6 else nearest_even (Z.of_N m * 10 ^ 6) (2 ^ (- e)).

(** The six digits after the decimal point *)
Definition six_digits (q : Z) : list N :=
  map (fun i => Z.to_N (48 + q / 10 ^ i mod 10)) [5; 4; 3; 2; 1; 0].

(** std::to_string(double), i.e. printf("%f") *)
Definition double_to_string (d : dbl) : list N :=
  let sign (neg : bool) : list N := if neg then [45%N] else [] in
  match d with
  | Finite neg m e => let q := millionths m e in sign neg ++ dec_of_Z (q / 10 ^ 6) ++ 46%N :: six_digits (q mod 10 ^ 6)
  | Infinite neg => sign neg ++ lit "inf"
  | NotANumber neg => sign neg ++ lit "nan"
  end.

(** BigFloat.h 33-35 BigFloat(double): the std::string becomes a String, then 41-68 *)
Definition bf_of_double (d : dbl) : outcome bigfloat :=
  s <- string_of_std (double_to_string d) ;; bf_of_string s.
