(** Model of __Core/Utility/Comparators.h (cmp_eq, cmp_less).
    cmp_ne (42), cmp_greater (65), cmp_le (71) and cmp_ge (77) name the non-existing functions
    compare_equal, compare_less and compare_greater and cannot be instantiated: not modelled. *)
From Coq Require Import ZArith Bool.
Local Open Scope Z_scope.

(** The integer types: width in bits and signedness.  The character types have the width and
    signedness of one of these; bool has no make_unsigned (lines 28, 29). *)
Inductive width := W8 | W16 | W32 | W64.
Definition bits (w : width) : Z := match w with W8 => 8 | W16 => 16 | W32 => 32 | W64 => 64 end.
Record ity := Ity { wid : width; is_signed : bool }.

(** Conversion of an integer to type [t]: modulo 2^width, two's complement
    ([conv.integral]; implementation-defined before C++20 for signed targets, this is what gcc,
    clang and msvc do). *)
Definition convert (t : ity) (z : Z) : Z :=
  let m := z mod 2 ^ bits (wid t) in
  if is_signed t then (if m <? 2 ^ (bits (wid t) - 1) then m else m - 2 ^ bits (wid t)) else m.

(** Integer promotion ([conv.prom]): types narrower than int become int. *)
Definition promote (t : ity) : ity :=
  match wid t with W8 | W16 => Ity W32 true | _ => t end.

(** Usual arithmetic conversions ([expr.arith.conv]) on two promoted types. *)
Definition common (a b : ity) : ity :=
  let a := promote a in let b := promote b in
  if Bool.eqb (is_signed a) (is_signed b)
  then (if bits (wid a) <? bits (wid b) then b else a)
  else
    let (s, u) := if is_signed a then (a, b) else (b, a) in
    if bits (wid s) <=? bits (wid u) then u else s.

(** The built-in operators ==, <, >= on values of types [a] and [b]. *)
Definition op_eq (a b : ity) (x y : Z) : bool := let c := common a b in convert c x =? convert c y.
Definition op_lt (a b : ity) (x y : Z) : bool := let c := common a b in convert c x <? convert c y.
Definition op_ge (a b : ity) (x y : Z) : bool := let c := common a b in convert c x >=? convert c y.

Definition t_int : ity := Ity W32 true.                       (* type of the literal 0 *)
Definition make_unsigned (t : ity) : ity := Ity (wid t) false. (* std::make_unsigned *)

(** cmp_eq, lines 25-40 *)
Definition cmp_eq (T U : ity) (t u : Z) : bool :=
  let UT := make_unsigned T in
  let UU := make_unsigned U in
  if Bool.eqb (is_signed T) (is_signed U) then op_eq T U t u
  else if is_signed T then op_ge T t_int t 0 && op_eq UT U (convert UT t) u
  else op_ge U t_int u 0 && op_eq T UU t (convert UU u).

(** cmp_less, lines 48-63 *)
Definition cmp_less (T U : ity) (t u : Z) : bool :=
  let UT := make_unsigned T in
  let UU := make_unsigned U in
  if Bool.eqb (is_signed T) (is_signed U) then op_lt T U t u
  else if is_signed T then op_lt T t_int t 0 || op_lt UT U (convert UT t) u
  else op_ge U t_int u 0 && op_lt T UU t (convert UU u).

(** The plain operator < that a caller would write without cmp_less (for contrast). *)
Definition plain_less (T U : ity) (t u : Z) : bool := op_lt T U t u.

(** [value_of_type t z]: [z] is a value of type [t]. *)
Definition value_of_type (t : ity) (z : Z) : Prop :=
  if is_signed t then - 2 ^ (bits (wid t) - 1) <= z < 2 ^ (bits (wid t) - 1)
  else 0 <= z < 2 ^ bits (wid t).
