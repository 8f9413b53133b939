(** Programs that compute with BigInteger: arithmetic expressions over literals. *)
From Coq Require Import List NArith ZArith.
From Verif Require Import Outcome StrModel BigInt SpecInt.
Import ListNotations.
Local Open Scope Z_scope.

Inductive binary := OAdd | OSub | OMul | ODiv | OMod.
Inductive unary := UAbs | USqr | USqrt | UPow (e : Z).
(** A BigInteger from a text or an int64_t or uint64_t; an operator; a member function *)
Inductive iexpr := XText (t : list N) | XInt (z : Z) | XBin (o : binary) (a b : iexpr) | XUn (u : unary) (a : iexpr).

(** __Numeric/Types/BigInteger.h 441-464: the operators call the member functions *)
Definition run_binary (o : binary) : bigint -> bigint -> outcome bigint :=
  match o with OAdd => bi_add | OSub => bi_sub | OMul => bi_mul | ODiv => bi_div | OMod => bi_mod end.
(** BigInteger.h 270-335 *)
Definition run_unary (fuel : nat) (u : unary) (a : bigint) : outcome bigint :=
  match u with UAbs => Ok (bi_abs a) | USqr => bi_sqr a | USqrt => bi_sqrt fuel a | UPow e => bi_pow a e end.
(** The program; operands from left to right.  [fuel] bounds the loop of Sqrt. *)
Fixpoint run (fuel : nat) (e : iexpr) : outcome bigint :=
  match e with
  | XText t => bi_of_string (ascii_chars t)
  | XInt z => bi_of_int z
  | XBin o a b => x <- run fuel a ;; y <- run fuel b ;; run_binary o x y
  | XUn u a => x <- run fuel a ;; run_unary fuel u x
  end.
