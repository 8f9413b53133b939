(** Decimal printing of integers by the C++ library: std::to_string and operator<< on an integer
    (used at __Numeric/Types/BigInteger.h 39-45, 239, 251 and __Serializing/Json/Types/JsonData.h).
    Bytes, most significant digit first. *)
From Coq Require Import List NArith ZArith Bool.
Import ListNotations.
Local Open Scope N_scope.

(** Digits of [n] in front of [acc]; [fuel] at least the number of digits. *)
Fixpoint dec_loop (fuel : nat) (n : N) (acc : list N) : list N :=
  match fuel with
  | O => acc
  | S f =>
      let acc' := (48 + n mod 10) :: acc in
      if n <? 10 then acc' else dec_loop f (n / 10) acc'
  end.

(** std::to_string of an unsigned integer *)
Definition dec_of_N (n : N) : list N := dec_loop (S (N.size_nat n)) n [].

(** std::to_string of a signed integer *)
Definition dec_of_Z (z : Z) : list N :=
  if (z <? 0)%Z then 45 :: dec_of_N (Z.to_N (- z)) else dec_of_N (Z.to_N z).
