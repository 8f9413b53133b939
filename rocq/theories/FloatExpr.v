(** Programs that compute with BigFloat: the operators of __Numeric/Types/BigFloat.h 363-422. *)
From Coq Require Import List NArith ZArith Bool.
From Verif Require Import Outcome CharModel StrModel BigInt BigFloat SpecInt.
Import ListNotations.

(** 373-376 operator<= *)
Definition bf_le (a b : bigfloat) : bool := bf_lt a b || bf_equal a b.
(** 378-381 operator>= *)
Definition bf_ge (a b : bigfloat) : bool := bf_gt a b || bf_equal a b.
(** 388-391 operator!= *)
Definition bf_ne (a b : bigfloat) : bool := negb (bf_equal a b).

(** 393-411: the operators call the member functions; [fuel] bounds the loops of Add and Subtract *)
Inductive foperator := FAdd | FSub | FMul | FDiv.
Definition run_foperator (fuel : nat) (o : foperator) : bigfloat -> bigfloat -> outcome bigfloat :=
  match o with FAdd => bf_add fuel | FSub => bf_sub fuel | FMul => bf_mul | FDiv => bf_div end.
(** A BigFloat from a text (41-68, 419-422), an operator *)
Inductive fexpr := FText (t : list N) | FBin (o : foperator) (a b : fexpr).
Fixpoint frun (fuel : nat) (e : fexpr) : outcome bigfloat :=
  match e with
  | FText t => bf_of_string (ascii_chars t)
  | FBin o a b => x <- frun fuel a ;; y <- frun fuel b ;; run_foperator fuel o x y
  end.
