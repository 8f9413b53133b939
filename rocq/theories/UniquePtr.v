(** Model of __Core/Memory/Types/UniquePointer.h.
    operator=(Pointer) (54-58, calls a missing reset) and Release (127-132, returns a const T* as T* )
    cannot be instantiated: not modelled.  Copying is deleted (41). *)
From Coq Require Import List Arith Bool.
From Verif Require Import Outcome.
Import ListNotations.

(** Variables of type UniquePtr (None: no such variable; Some None: data_ is null), the number of
    objects allocated by the caller and handed over so far, the objects deleted so far. *)
Record ustate := UState { uvars : nat -> option (option nat); umade : nat; udeleted : list nat }.
Definition ustate0 : ustate := UState (fun _ => None) 0 [].
Definition uset (m : nat -> option (option nat)) (x : nat) (v : option (option nat)) : nat -> option (option nat) :=
  fun y => if Nat.eqb y x then v else m y.

(** [delete p]: nothing for null, undefined for an object already deleted. *)
Definition udelete (s : ustate) (p : option nat) : outcome ustate :=
  match p with
  | None => Ok s
  | Some i => if existsb (Nat.eqb i) (udeleted s) then UB else Ok (UState (uvars s) (umade s) (udeleted s ++ [i]))
  end.

Inductive uop :=
| UNull (x : nat)            (* 35 *)
| UNew (x : nat)             (* 37-39, with a pointer to a new object *)
| UMove (x y : nat)          (* 43-46 *)
| UDestroy (x : nat)         (* 48-51 *)
| UMoveAssign (x y : nat)    (* 60-69 *)
| UReset (x : nat)           (* 118-125, argument null *)
| UResetNew (x : nat)        (* 118-125, argument a pointer to a new object *)
| UResetSame (x : nat)       (* 118-125, argument x.Get() *)
| UDeref (x : nat).          (* 72-88 *)

(** Lines 118-125. *)
Definition ureset (s : ustate) (x : nat) (p new_data : option nat) : outcome ustate :=
  if match p, new_data with None, None => true | Some a, Some b => Nat.eqb a b | _, _ => false end then Ok s
  else s1 <- udelete s p ;; Ok (UState (uset (uvars s1) x (Some new_data)) (umade s1) (udeleted s1)).

(** Lines 72-88: operator* and operator-> (the access itself happens in the caller, on the object). *)
Definition uderef (p : option nat) : outcome nat :=
  match p with None => Throw ERuntimeError | Some i => Ok i end.

(** One operation; the exception of a dereference is seen by the caller and changes nothing. *)
Definition ustep (s : ustate) (o : uop) : outcome ustate :=
  match o with
  | UNull x => match uvars s x with None => Ok (UState (uset (uvars s) x (Some None)) (umade s) (udeleted s)) | Some _ => UB end
  | UNew x =>
      match uvars s x with
      | None => Ok (UState (uset (uvars s) x (Some (Some (umade s)))) (S (umade s)) (udeleted s))
      | Some _ => UB
      end
  | UMove x y =>
      match uvars s x, uvars s y with
      | None, Some p => Ok (UState (uset (uset (uvars s) x (Some p)) y (Some None)) (umade s) (udeleted s))
      | _, _ => UB
      end
  | UDestroy x =>
      match uvars s x with
      | Some p => s1 <- udelete s p ;; Ok (UState (uset (uvars s1) x None) (umade s1) (udeleted s1))
      | None => UB
      end
  | UMoveAssign x y =>
      match uvars s x, uvars s y with
      | Some p, Some q =>
          if Nat.eqb x y then Ok s
          else
            s1 <- udelete s p ;;
            Ok (UState (uset (uset (uvars s1) x (Some q)) y (Some None)) (umade s1) (udeleted s1))
      | _, _ => UB
      end
  | UReset x => match uvars s x with Some p => ureset s x p None | None => UB end
  | UResetNew x =>
      match uvars s x with
      | Some p => ureset (UState (uvars s) (S (umade s)) (udeleted s)) x p (Some (umade s))
      | None => UB
      end
  | UResetSame x => match uvars s x with Some p => ureset s x p p | None => UB end
  | UDeref x =>
      match uvars s x with
      | Some p =>
          match uderef p with
          | Ok i => if existsb (Nat.eqb i) (udeleted s) then UB else Ok s
          | _ => Ok s
          end
      | None => UB
      end
  end.
Fixpoint uexec (s : ustate) (h : list uop) : outcome ustate :=
  match h with [] => Ok s | o :: r => s1 <- ustep s o ;; uexec s1 r end.

(** Specification: the variables a program has; None if it uses a variable it does not have. *)
Fixpoint uscope (L : list nat) (h : list uop) : option (list nat) :=
  let has z := existsb (Nat.eqb z) L in
  match h with
  | [] => Some L
  | UNull x :: r | UNew x :: r => if has x then None else uscope (x :: L) r
  | UMove x y :: r => if negb (has x) && has y then uscope (x :: L) r else None
  | UMoveAssign x y :: r => if has x && has y then uscope L r else None
  | UDestroy x :: r => if has x then uscope (remove Nat.eq_dec x L) r else None
  | UReset x :: r | UResetNew x :: r | UResetSame x :: r | UDeref x :: r => if has x then uscope L r else None
  end.
