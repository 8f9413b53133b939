(** Vocabulary of the BigInteger properties: what a BigInteger shows, and which ones a program can obtain.
    Only operations of the API occur here. *)
From Coq Require Import List NArith ZArith.
From Verif Require Import Outcome StrModel BigInt SpecInt.
Import ListNotations.
Local Open Scope Z_scope.

(** ToString returns the canonical decimal numeral of [z]. *)
Definition shows (b : bigint) (z : Z) : Prop :=
  exists t, bi_to_string b = Ok (ascii_chars t) /\ canonical_numeral t z.

(** Building a BigInteger from its own ToString gives an equal BigInteger. *)
Definition reads_back (b : bigint) : Prop :=
  exists s c, bi_to_string b = Ok s /\ bi_of_string s = Ok c /\ bi_equal c b = true.

(** BigIntegers obtained from numerals and 64-bit integers by any sequence of operations; the
    divisor of Divide and Modulo does not show zero. *)
Inductive built : bigint -> Prop :=
| built_default : built bi_default
| built_text t z b : int_numeral t z -> bi_of_string (ascii_chars t) = Ok b -> built b
| built_int z b : - 2 ^ 63 <= z < 2 ^ 64 -> bi_of_int z = Ok b -> built b
| built_add a b r : built a -> built b -> bi_add a b = Ok r -> built r
| built_sub a b r : built a -> built b -> bi_sub a b = Ok r -> built r
| built_mul a b r : built a -> built b -> bi_mul a b = Ok r -> built r
| built_div a b r : built a -> built b -> ~ shows b 0 -> bi_div a b = Ok r -> built r
| built_mod a b r : built a -> built b -> ~ shows b 0 -> bi_mod a b = Ok r -> built r
| built_abs a : built a -> built (bi_abs a)
| built_pow a e r : built a -> e <= 2147483647 -> bi_pow a e = Ok r -> built r
| built_sqr a r : built a -> bi_sqr a = Ok r -> built r
| built_sqrt a fuel r : built a -> bi_sqrt fuel a = Ok r -> built r.
