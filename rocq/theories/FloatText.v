(** Floating-point numbers as text: what operator<< of a stream in its default format writes for a float
    (__Serializing/Json/Types/JsonData.h 452-454), the C library's printf with "%g", and what std::stod reads, narrowed to
    float (JsonParser.h 378-383, JsonData.h 139-145).
    Assumptions: round to nearest, ties to even; the decimal point of the locale is '.'.  A float is a [dbl] with
    significand below 2^24 (JSON's FloatingType is a 32-bit float, __Caitlyn/Types.h 114). *)
From Coq Require Import String List NArith ZArith Bool.
From Verif Require Import Outcome CharModel StrModel StrUtil Dec JsonData JsonParse Double.
Import ListNotations.
Local Open Scope list_scope.
Local Open Scope Z_scope.

(** ** Writing *)

(** The magnitude m * 2^e, a/b * 10^k, a/b * 2^k as fractions *)
Definition magnitude (m : N) (e : Z) : Z * Z := if 0 <=? e then (Z.of_N m * 2 ^ e, 1) else (Z.of_N m, 2 ^ (- e)).
Definition scaled (base a b k : Z) : Z * Z := if 0 <=? k then (a * base ^ k, b) else (a, b * base ^ (- k)).

(** The decimal exponent of a/b, both positive *)
Definition digit_count (n : Z) : Z := Z.of_nat (length (dec_of_Z n)).
Definition log10_floor (a b : Z) : Z := if b <=? a then digit_count (a / b) - 1 else - digit_count ((b - 1) / a).

(** printf "%.5e": six significant digits, as an integer, and the exponent *)
Definition six_significant (a b : Z) : Z * Z :=
  let x := log10_floor a b in
  let (n, d) := scaled 10 a b (5 - x) in
  let q := nearest_even n d in
  if q =? 10 ^ 6 then (10 ^ 5, x + 1) else (q, x).

(** [k] decimal digits of [n] *)
Fixpoint digits_of (k : nat) (n : Z) : list N :=
  match k with O => [] | S k' => digits_of k' (n / 10) ++ [Z.to_N (48 + n mod 10)] end.
Fixpoint strip_zeros (l : list N) : list N :=
  match l with
  | [] => []
  | b :: r => match strip_zeros r with [] => if (b =? 48)%N then [] else [b] | r' => b :: r' end
  end.
(** An integer part and the digits after the point; "%g" drops zeros at the end, and the point if nothing follows. *)
Definition decimal (i : Z) (frac : list N) : list N :=
  dec_of_Z i ++ match strip_zeros frac with [] => [] | f => 46%N :: f end.

(** printf "%g" of a positive number *)
Definition g_text (a b : Z) : list N :=
  let (d, x) := six_significant a b in
  if (-4 <=? x) && (x <? 6) then decimal (d / 10 ^ (5 - x)) (digits_of (Z.to_nat (5 - x)) (d mod 10 ^ (5 - x)))
  else decimal (d / 10 ^ 5) (digits_of 5 (d mod 10 ^ 5)) ++
       101%N :: (if x <? 0 then 45%N else 43%N) :: (if Z.abs x <? 10 then [48%N] else []) ++ dec_of_Z (Z.abs x).

Definition float_to_stream (d : dbl) : list N :=
  let sign (neg : bool) : list N := if neg then [45%N] else [] in
  match d with
  | Finite neg m e => sign neg ++ (if (m =? 0)%N then [48%N] else let (a, b) := magnitude m e in g_text a b)
  | Infinite neg => sign neg ++ lit "inf"
  | NotANumber neg => sign neg ++ lit "nan"
  end.

(** ** Reading *)

(** The binary exponent of a/b, both positive *)
Definition log2_floor (a b : Z) : Z := if b <=? a then Z.log2 (a / b) else - Z.log2 ((b - 1) / a) - 1.
(** a/b rounded to a significand of [p] bits, the exponent not below [emin] *)
Definition round_binary (p emin a b : Z) : Z * Z :=
  let e := Z.max (log2_floor a b - (p - 1)) emin in
  let (n, d) := scaled 2 a b (- e) in
  let q := nearest_even n d in
  if q =? 2 ^ p then (2 ^ (p - 1), e + 1) else (q, e).

(** The leading digits *)
Fixpoint take_digits (s : list N) : list N * list N :=
  match s with
  | b :: r => if ((48 <=? b) && (b <=? 57))%N then let (ds, t) := take_digits r in (b :: ds, t) else ([], s)
  | [] => ([], [])
  end.
Definition number_of (ds : list N) : Z := fold_left (fun acc b => 10 * acc + (Z.of_N b - 48)) ds 0.
(** An exponent: e or E, a sign, digits; without digits it is not part of the number. *)
Definition take_exponent (s : list N) : Z :=
  match s with
  | b :: r =>
      if (b =? 101)%N || (b =? 69)%N then
        let '(neg, r) := match r with 45%N :: r' => (true, r') | 43%N :: r' => (false, r') | _ => (false, r) end in
        let (ds, _) := take_digits r in if neg then - number_of ds else number_of ds
      else 0
  | [] => 0
  end.

(** double to float; too large a number becomes infinite *)
Definition narrowed (neg : bool) (a b : Z) : dbl :=
  let (m, e) := round_binary 24 (-149) a b in
  let (n, d) := magnitude (Z.to_N m) e in
  if n <? 2 ^ 128 * d then Finite neg (Z.to_N m) e else Infinite neg.

(** The number a/b, positive, as a double and then as a float.  Numbers beyond the range of double, and below it if
    not exact, are refused. *)
Definition to_float (neg : bool) (a b : Z) : conversion dbl :=
  let (m, e) := round_binary 53 (-1074) a b in
  let (c, d) := magnitude (Z.to_N m) e in
  if (2 ^ 1024 * d <=? c) || ((a * 2 ^ 1022 <? b) && negb (a * d =? c * b)) then ConvRange
  else Converted (narrowed neg c d).

(** std::stod, narrowed.  Hexadecimal numbers, "inf" and "nan" are left out: the texts that ParseNumber hands over have
    no such letters. *)
Definition stod_float (s : list N) : conversion dbl :=
  let s := skip_cspace s in
  let '(neg, s) := match s with 45%N :: r => (true, r) | 43%N :: r => (false, r) | _ => (false, s) end in
  let (ip, s) := take_digits s in
  let '(fp, s) := match s with 46%N :: r => take_digits r | _ => ([], s) end in
  match ip ++ fp with
  | [] => ConvInvalid
  | ds =>
      let n := number_of ds in
      if n =? 0 then Converted (Finite neg 0 0)
      else let (a, b) := scaled 10 n 1 (take_exponent s - Z.of_nat (length fp)) in to_float neg a b
  end.
