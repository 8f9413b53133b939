(** Programs that declare, copy, move and swap variables of BigInteger, BigFloat and String.
    Sources: __Numeric/Types/BigInteger.h 36, 83-110, 404-405, __Numeric/Types/BigFloat.h 31, 70-102,
    __Core/String/String.h 53, 110-140.
    Assumption about the C++ library: a vector that was moved from, by construction or by assignment, is empty (the
    standard guarantees it for the default allocator). *)
From Coq Require Import List NArith ZArith Bool Arith.
From Verif Require Import Outcome StrModel BigInt BigFloat SpecInt.
Import ListNotations.

(** The special member functions of a class.  Move operations give the target and what is left of the source.
    Assignment to the same object is a case of its own. *)
Record cls (A : Type) := Cls {
  fresh : A;
  copied : A -> A;
  moved : A -> A * A;
  assigned : A -> A -> A;
  assigned_self : A -> A;
  move_assigned : A -> A -> A * A;
  move_assigned_self : A -> A }.
Arguments fresh {A}. Arguments copied {A}. Arguments moved {A}. Arguments assigned {A}.
Arguments assigned_self {A}. Arguments move_assigned {A}. Arguments move_assigned_self {A}.

(** std::vector: a copy has the same elements; moving leaves the source empty. *)
Definition vec_moved {T} (v : list T) : list T * list T := (v, []).

(** BigInteger.h 85-88 *)
Definition bi_moved (b : bigint) : bigint * bigint :=
  let (d, rest) := vec_moved (bi_digits b) in (mkBig d (bi_neg b), mkBig rest false).
(** BigInteger.h 101-110 (the branch of two different objects); the old digits are dropped *)
Definition bi_move_assigned (a b : bigint) : bigint * bigint :=
  let (d, rest) := vec_moved (bi_digits b) in (mkBig d (bi_neg b), mkBig rest false).
(** BigInteger.h 36, 83-110 *)
Definition bi_cls : cls bigint := {|
  fresh := bi_default;
  copied := fun b => mkBig (bi_digits b) (bi_neg b);
  moved := bi_moved;
  assigned := fun _ b => mkBig (bi_digits b) (bi_neg b);
  assigned_self := fun a => a;
  move_assigned := bi_move_assigned;
  move_assigned_self := fun a => a |}.

(** BigFloat.h 72-78 *)
Definition bf_moved (f : bigfloat) : bigfloat * bigfloat :=
  let (i, ri) := bi_moved (bf_int f) in
  let (p, rp) := bi_moved (bf_frac f) in
  (mkBF i p (bf_neg f), mkBF ri rp false).
(** BigFloat.h 92-102 *)
Definition bf_move_assigned (a b : bigfloat) : bigfloat * bigfloat :=
  let (i, ri) := bi_move_assigned (bf_int a) (bf_int b) in
  let (p, rp) := bi_move_assigned (bf_frac a) (bf_frac b) in
  (mkBF i p (bf_neg b), mkBF ri rp false).
(** BigFloat.h 31, 70-102 *)
Definition bf_cls : cls bigfloat := {|
  fresh := bf_default;
  copied := fun f => mkBF (copied bi_cls (bf_int f)) (copied bi_cls (bf_frac f)) (bf_neg f);
  moved := bf_moved;
  assigned := fun a b => mkBF (assigned bi_cls (bf_int a) (bf_int b)) (assigned bi_cls (bf_frac a) (bf_frac b)) (bf_neg b);
  assigned_self := fun a => a;
  move_assigned := bf_move_assigned;
  move_assigned_self := fun a => a |}.

(** String.h 53, 110-140 *)
Definition str_cls : cls Str := {|
  fresh := [];
  copied := fun s => s;
  moved := vec_moved;
  assigned := fun _ s => s;
  assigned_self := fun s => s;
  move_assigned := fun _ s => vec_moved s;
  move_assigned_self := fun s => s |}.

(** Statements; variables are numbered in the order of their declarations. *)
Inductive stmt (Op : Type) :=
| SNew                                  (* T x; *)
| SNewCopy (j : nat)                    (* T x{y}; *)
| SNewMove (j : nat)                    (* T x{std::move(y)}; *)
| SCopy (i j : nat)                     (* x = y; *)
| SMove (i j : nat)                     (* x = std::move(y); *)
| SSwap (i j : nat)                     (* std::swap(x, y); *)
| SOp (i : nat) (o : Op) (j : nat).     (* an operation of x and y that changes x *)
Arguments SNew {Op}. Arguments SNewCopy {Op}. Arguments SNewMove {Op}. Arguments SCopy {Op}.
Arguments SMove {Op}. Arguments SSwap {Op}. Arguments SOp {Op}.

Fixpoint set_nth {T} (l : list T) (i : nat) (x : T) : list T :=
  match l, i with
  | [], _ => []
  | _ :: r, O => x :: r
  | y :: r, S i' => y :: set_nth r i' x
  end.

Section Run.
Context {A Op : Type}.
Variable c : cls A.
Variable apply : Op -> bool -> A -> A -> outcome A.   (* the flag: both operands are the same variable *)

(** x = std::move(y), with either variable possibly the other *)
Definition do_move (s : list A) (i j : nat) : outcome (list A) :=
  x <- vec_get s i ;;
  y <- vec_get s j ;;
  if Nat.eqb i j then Ok (set_nth s i (move_assigned_self c x))
  else let (x', y') := move_assigned c x y in Ok (set_nth (set_nth s i x') j y').

(** std::swap: T tmp{std::move(x)}; x = std::move(y); y = std::move(tmp); *)
Definition do_swap (s : list A) (i j : nat) : outcome (list A) :=
  x <- vec_get s i ;;
  let (tmp, x') := moved c x in
  s <- do_move (set_nth s i x') i j ;;
  y <- vec_get s j ;;
  let (y', _) := move_assigned c y tmp in
  Ok (set_nth s j y').

(** Using a variable that was not declared is no program; here it is UB, excluded by [scoped]. *)
Definition do_stmt (s : list A) (st : stmt Op) : outcome (list A) :=
  match st with
  | SNew => Ok (s ++ [fresh c])
  | SNewCopy j => y <- vec_get s j ;; Ok (s ++ [copied c y])
  | SNewMove j => y <- vec_get s j ;; let (x, y') := moved c y in Ok (set_nth s j y' ++ [x])
  | SCopy i j =>
      x <- vec_get s i ;;
      y <- vec_get s j ;;
      Ok (set_nth s i (if Nat.eqb i j then assigned_self c x else assigned c x y))
  | SMove i j => do_move s i j
  | SSwap i j => do_swap s i j
  | SOp i o j =>
      x <- vec_get s i ;;
      y <- vec_get s j ;;
      r <- apply o (Nat.eqb i j) x y ;;
      Ok (set_nth s i r)
  end.

Fixpoint run (s : list A) (p : list (stmt Op)) : outcome (list A) :=
  match p with
  | [] => Ok s
  | st :: r => s' <- do_stmt s st ;; run s' r
  end.
End Run.

(** x = x * y; x = x / y; x = y.Abs(); x = y.Pow(e); x = BigInteger{"..."}: the temporary is moved into x *)
Inductive bi_op := OpMul | OpDiv | OpAbs | OpPow (e : Z) | OpText (t : list N).
Definition bi_apply (o : bi_op) (_ : bool) (a b : bigint) : outcome bigint :=
  r <- match o with
       | OpMul => bi_mul a b
       | OpDiv => bi_div a b
       | OpAbs => Ok (bi_abs b)
       | OpPow e => bi_pow b e
       | OpText t => bi_of_string (ascii_chars t)
       end ;;
  Ok (fst (bi_move_assigned a r)).

(** x = BigFloat{"..."}; x = y.Abs() *)
Inductive bf_op := OpDecimal (t : Str) | OpFAbs.
Definition bf_apply (o : bf_op) (_ : bool) (a b : bigfloat) : outcome bigfloat :=
  r <- match o with OpDecimal t => bf_of_string t | OpFAbs => Ok (bf_abs b) end ;;
  Ok (fst (bf_move_assigned a r)).

(** x += y; x = x + y; x = s *)
Inductive str_op := OpAppend | OpPlus | OpSet (s : Str).
Definition str_apply (o : str_op) (self : bool) (a b : Str) : outcome Str :=
  match o with
  | OpAppend => s_append_assign a (if self then Self else Other b)
  | OpPlus => s_plus a b
  | OpSet s => Ok s
  end.
