(** Vocabulary of the BigFloat properties, in terms of ToString and of the operations. *)
From Coq Require Import List NArith ZArith.
From Verif Require Import Outcome BigInt BigFloat SpecInt SpecFloat.
Import ListNotations.
Local Open Scope Z_scope.

(** ToString returns the canonical numeral of [x], followed by a point and the canonical numeral of [p] unless
    [p] is zero. *)
Definition fshows (f : bigfloat) (x p : Z) : Prop :=
  exists ti tp, canonical_numeral ti x /\ canonical_numeral tp p /\
    bf_to_string f = Ok (ascii_chars (if p =? 0 then ti else ti ++ 46%N :: tp)).

(** ToString returns a decimal numeral of the number m / 10^k. *)
Definition denotes (f : bigfloat) (m : Z) (k : nat) : Prop :=
  exists t m' k', bf_to_string f = Ok (ascii_chars t) /\ decimal t m' k' /\ same_number m' k' m k.

(** BigFloats obtained from ASCII text by any sequence of operations. *)
Inductive bf_built : bigfloat -> Prop :=
| bf_built_default : bf_built bf_default
| bf_built_text t f : Forall (fun b => 1 <= b < 128)%N t -> bf_of_string (ascii_chars t) = Ok f -> bf_built f
| bf_built_add n a b r : bf_built a -> bf_built b -> bf_add n a b = Ok r -> bf_built r
| bf_built_sub n a b r : bf_built a -> bf_built b -> bf_sub n a b = Ok r -> bf_built r
| bf_built_mul a b r : bf_built a -> bf_built b -> bf_mul a b = Ok r -> bf_built r
| bf_built_div a b r : bf_built a -> bf_built b -> bf_div a b = Ok r -> bf_built r
| bf_built_abs a : bf_built a -> bf_built (bf_abs a)
| bf_built_pow a e r : bf_built a -> bf_pow a e = Ok r -> bf_built r
| bf_built_sqr a r : bf_built a -> bf_sqr a = Ok r -> bf_built r
| bf_built_sqrt a n r : bf_built a -> bf_sqrt n a = Ok r -> bf_built r.
