(** Outcome of a C++ computation.  Not a piece of /repo: this is the semantic
    domain in which every function of the model is written. *)
From Coq Require Import List NArith ZArith Bool Lia.
Import ListNotations.

(** Exception classes that the modelled code can throw (the message text of an
    exception is not modelled). *)
Inductive exn : Type :=
| EInvalidArgument   (* std::invalid_argument *)
| EOutOfRange        (* std::out_of_range *)
| ERuntimeError      (* std::runtime_error *)
| ELogicError        (* std::logic_error *)
| EFormatError       (* Caitlyn::FormatError, __Core/String/String.h *)
| EIosFailure        (* std::ios_base::failure *)
| ELengthError.      (* std::length_error *)

Inductive outcome (A : Type) : Type :=
| Ok (a : A)         (* normal return *)
| Throw (e : exn)    (* an exception leaves the function *)
| UB                 (* undefined behaviour *)
| NoFuel.            (* the model's step budget ran out *)
Arguments Ok {A} a.
Arguments Throw {A} e.
Arguments UB {A}.
Arguments NoFuel {A}.

Definition bind {A B : Type} (m : outcome A) (k : A -> outcome B) : outcome B :=
  match m with
  | Ok a => k a
  | Throw e => Throw e
  | UB => UB
  | NoFuel => NoFuel
  end.

Notation "x <- m ;; k" := (bind m (fun x => k))
  (at level 61, m at next level, right associativity).
Notation "' pat <- m ;; k" := (bind m (fun x => match x with pat => k end))
  (at level 61, pat pattern, m at next level, right associativity).

Definition omap {A B : Type} (f : A -> B) (m : outcome A) : outcome B :=
  a <- m ;; Ok (f a).

(** Run a list of computations left to right. *)
Fixpoint mapM {A B : Type} (f : A -> outcome B) (l : list A) : outcome (list B) :=
  match l with
  | [] => Ok []
  | x :: xs => y <- f x ;; ys <- mapM f xs ;; Ok (y :: ys)
  end.

Definition is_ok {A} (m : outcome A) : bool :=
  match m with Ok _ => true | _ => false end.

Definition is_ub {A} (m : outcome A) : bool :=
  match m with UB => true | _ => false end.

(** vector::operator[] : out of range is undefined behaviour. *)
Definition vec_get {A : Type} (l : list A) (i : nat) : outcome A :=
  match nth_error l i with
  | Some x => Ok x
  | None => UB
  end.

(** std::string::operator[] const: index = size gives NUL, beyond it is
    undefined behaviour. *)
Definition str_get (l : list N) (i : nat) : outcome N :=
  match nth_error l i with
  | Some x => Ok x
  | None => if Nat.eqb i (length l) then Ok 0%N else UB
  end.

(** 64-bit size_t arithmetic. *)
Definition size_max : N := 18446744073709551615%N.
Definition wrap64 (z : Z) : N := Z.to_N (z mod 18446744073709551616)%Z.
