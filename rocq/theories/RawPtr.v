(** Model of __Core/Memory/Types/RawPointer.h (Ptr).
    Simplifications: as in UniquePtr.v objects are numbered in the order in which the caller makes
    them; a variable that is not in use holds null (the destructor of Ptr does nothing). *)
From Coq Require Import List Arith Bool.
From Verif Require Import Outcome.
Import ListNotations.

Record pstate := PState { pvars : nat -> option nat; pmade : nat; pdeleted : list nat }.
Definition pstate0 : pstate := PState (fun _ => None) 0 [].
Definition pset (m : nat -> option nat) (x : nat) (v : option nat) : nat -> option nat :=
  fun y => if Nat.eqb y x then v else m y.

(** [delete p]: nothing for null, undefined for an object already deleted. *)
Definition pdelete (s : pstate) (p : option nat) : outcome pstate :=
  match p with
  | None => Ok s
  | Some i => if existsb (Nat.eqb i) (pdeleted s) then UB else Ok (PState (pvars s) (pmade s) (pdeleted s ++ [i]))
  end.

Inductive pop :=
| PNull (x : nat)          (* 36, or 47-51 with nullptr, or the end of the variable's life *)
| PNew (x : nat)           (* 38-40, 47-51, with a pointer to a new object *)
| PCopy (x y : nat)        (* 42-44, 53-57 *)
| PReset (x : nat)         (* 106-110, argument null *)
| PResetNew (x : nat)      (* 106-110, argument a pointer to a new object *)
| PResetSame (x : nat)     (* 106-110, argument x.Get() *)
| PDestroy (x : nat)       (* 112-116 *)
| PDeref (x : nat).        (* 60-76, and the use of the object *)

(** Lines 106-110 *)
Definition preset (s : pstate) (x : nat) (new_data : option nat) : outcome pstate :=
  s1 <- pdelete s (pvars s x) ;; Ok (PState (pset (pvars s1) x new_data) (pmade s1) (pdeleted s1)).
(** Lines 112-116 *)
Definition pdestroy (s : pstate) (x : nat) : outcome pstate :=
  s1 <- pdelete s (pvars s x) ;; Ok (PState (pset (pvars s1) x None) (pmade s1) (pdeleted s1)).
(** Lines 60-76: operator* and operator-> *)
Definition pderef (p : option nat) : outcome nat :=
  match p with None => Throw ERuntimeError | Some i => Ok i end.

(** One operation; the exception of a dereference is caught by the caller and changes nothing. *)
Definition pstep (s : pstate) (o : pop) : outcome pstate :=
  match o with
  | PNull x => Ok (PState (pset (pvars s) x None) (pmade s) (pdeleted s))
  | PNew x => Ok (PState (pset (pvars s) x (Some (pmade s))) (S (pmade s)) (pdeleted s))
  | PCopy x y => Ok (PState (pset (pvars s) x (pvars s y)) (pmade s) (pdeleted s))
  | PReset x => preset s x None
  | PResetNew x => preset (PState (pvars s) (S (pmade s)) (pdeleted s)) x (Some (pmade s))
  | PResetSame x => preset s x (pvars s x)
  | PDestroy x => pdestroy s x
  | PDeref x =>
      match pderef (pvars s x) with
      | Ok i => if existsb (Nat.eqb i) (pdeleted s) then UB else Ok s
      | _ => Ok s
      end
  end.
Fixpoint pexec (s : pstate) (h : list pop) : outcome pstate :=
  match h with [] => Ok s | o :: r => s1 <- pstep s o ;; pexec s1 r end.
