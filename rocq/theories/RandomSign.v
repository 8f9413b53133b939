(** Model of __Core/Utility/Random.h 75-94 with the sign bit of every number, zeros included: the computation of
    [RandomReal.uniform_real] by the rules of IEEE 754 for the default rounding direction. *)
From Coq Require Import List NArith ZArith Bool.
From Verif Require Import Outcome Double Random RandomReal.
Local Open Scope Z_scope.

(** Sign bit and number *)
Definition snum := (bool * num)%type.
Definition s_opp (x : snum) : snum := (negb (fst x), n_opp (snd x)).
(** A sum that is zero is +0, unless both are -0 (IEEE 754-2008, 6.3). *)
Definition s_add (x y : snum) : snum :=
  let z := n_add (snd x) (snd y) in
  (if fst z =? 0 then fst x && fst y else fst z <? 0, z).
Definition s_mul (x y : snum) : snum := (xorb (fst x) (fst y), n_mul (snd x) (snd y)).
(** Rounding keeps the sign, also if zero results. *)
Definition s_round (t : ftype) (x : snum) : snum := (fst x, round t (snd x)).
Definition signed (d : dbl) : option snum :=
  match d with Finite neg m e => Some (neg, (if neg then - Z.of_N m else Z.of_N m, e)) | _ => None end.

(** Random.h 75-94, uniform_real_distribution<T>{min, max}(engine) *)
Definition uniform_signed (t : ftype) (w : N) (min max : dbl) : outcome snum :=
  match signed min, signed max with
  | Some a, Some b =>
      if negb (n_leb (snd a) (snd b)) then UB else
      let d := s_round t (s_add b (s_opp a)) in
      if negb (n_leb (snd d) (largest t)) then UB else
      Ok (s_round t (s_add (s_round t (s_mul (false, canonical_real t w) d)) a))
  | _, _ => UB
  end.
(** Random.h 75-80, 82-87, 89-94 *)
Definition random_signed (t : ftype) (now : Z) (min max : dbl) : outcome snum :=
  uniform_signed t (output (u64 now) 0) min max.
