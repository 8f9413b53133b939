(** Object lifetimes in __Core/Error/Expected.h: the union (355-367) and hasValue_ (369).
    Values and errors are objects with identities; constructing one takes a new identity,
    destroying one records it.  Both T and Unexpected<E> are taken to be destructible
    (DestroyUnion, lines 336-347); constructors of T and E may throw, destructors do not. *)
From Coq Require Import List Arith Bool.
From Verif Require Import Outcome.
Import ListNotations.

(** What is in the union: a living object (identity, true for a value) or nothing. *)
Record evar := EVar { has : bool; slot : option (nat * bool) }.

(** Variables of type Expected (None: no such variable now), the number of objects constructed so
    far, the objects destroyed so far. *)
Record estate := EState { vars : nat -> option evar; made : nat; destroyed : list nat }.
Definition estate0 : estate := EState (fun _ => None) 0 [].
Definition upd (m : nat -> option evar) (x : nat) (v : option evar) : nat -> option evar :=
  fun y => if Nat.eqb y x then v else m y.

(** DestroyUnion, lines 336-347: runs the destructor that hasValue_ selects; on anything but a
    living object of that type it is undefined. *)
Definition destroy_union (s : estate) (x : nat) (v : evar) : outcome estate :=
  match slot v with
  | Some (i, k) => if Bool.eqb k (has v) then Ok (EState (upd (vars s) x (Some (EVar (has v) None))) (made s) (destroyed s ++ [i])) else UB
  | None => UB
  end.

(** Reading the object that hasValue_ selects: it must be alive. *)
Definition alive (v : evar) : bool :=
  match slot v with Some (_, k) => Bool.eqb k (has v) | None => false end.

(** The operations on variables; [throws] says that the constructor of the held object throws. *)
Inductive eop :=
| ENew (x : nat) (value : bool) (throws : bool)      (* 38-56 *)
| ECopy (x y : nat) (throws : bool)                  (* 58-68 *)
| EMove (x y : nat) (throws : bool)                  (* 88-99 *)
| EAssign (x y : nat) (throws : bool)                (* 70-86 *)
| EMoveAssign (x y : nat) (throws : bool)            (* 101-118 *)
| EDestroy (x : nat)                                 (* 120-123 *)
| EUse (x : nat).                                    (* any const member that reads the held object *)

(** Construction of variable [x] holding a new object; nothing remains if it throws. *)
Definition construct (s : estate) (x : nat) (value throws : bool) : outcome estate :=
  if throws then Ok s
  else Ok (EState (upd (vars s) x (Some (EVar value (Some (made s, value))))) (S (made s)) (destroyed s)).

(** Lines 72-84, 104-116: assignment.  hasValue_ is set before the new object is constructed. *)
Definition assign (s : estate) (x y : nat) (vx vy : evar) (throws : bool) : outcome estate :=
  if Nat.eqb x y then Ok s
  else
    s1 <- destroy_union s x vx ;;
    let h := has vy in
    if alive vy then
      if throws then Ok (EState (upd (vars s1) x (Some (EVar h None))) (made s1) (destroyed s1))
      else Ok (EState (upd (vars s1) x (Some (EVar h (Some (made s1, h))))) (S (made s1)) (destroyed s1))
    else UB.

(** One operation.  A variable that does not exist (or exists already) is the caller's error and
    excluded by [legal] below; it is UB here. *)
Definition estep (s : estate) (o : eop) : outcome estate :=
  match o with
  | ENew x v t => match vars s x with None => construct s x v t | Some _ => UB end
  | ECopy x y t | EMove x y t =>
      match vars s x, vars s y with
      | None, Some vy => if alive vy then construct s x (has vy) t else UB
      | _, _ => UB
      end
  | EAssign x y t | EMoveAssign x y t =>
      match vars s x, vars s y with
      | Some vx, Some vy => assign s x y vx vy t
      | _, _ => UB
      end
  | EDestroy x =>
      match vars s x with
      | Some v => s1 <- destroy_union s x v ;; Ok (EState (upd (vars s1) x None) (made s1) (destroyed s1))
      | None => UB
      end
  | EUse x => match vars s x with Some v => if alive v then Ok s else UB | None => UB end
  end.
Fixpoint eexec (s : estate) (h : list eop) : outcome estate :=
  match h with [] => Ok s | o :: r => s1 <- estep s o ;; eexec s1 r end.

(** Specification: which variables a program has, and whether it only uses those (every C++ program
    satisfies this by scoping).  A constructor that throws leaves no variable. *)
Definition scope := list nat.
Inductive legal : scope -> list eop -> scope -> Prop :=
| lg_nil L : legal L [] L
| lg_new L x v h L' : ~ In x L -> legal (x :: L) h L' -> legal L (ENew x v false :: h) L'
| lg_new_throw L x v h L' : ~ In x L -> legal L h L' -> legal L (ENew x v true :: h) L'
| lg_copy L x y h L' : ~ In x L -> In y L -> legal (x :: L) h L' -> legal L (ECopy x y false :: h) L'
| lg_copy_throw L x y h L' : ~ In x L -> In y L -> legal L h L' -> legal L (ECopy x y true :: h) L'
| lg_move L x y h L' : ~ In x L -> In y L -> legal (x :: L) h L' -> legal L (EMove x y false :: h) L'
| lg_move_throw L x y h L' : ~ In x L -> In y L -> legal L h L' -> legal L (EMove x y true :: h) L'
| lg_assign L x y t h L' : In x L -> In y L -> legal L h L' -> legal L (EAssign x y t :: h) L'
| lg_move_assign L x y t h L' : In x L -> In y L -> legal L h L' -> legal L (EMoveAssign x y t :: h) L'
| lg_destroy L x h L' : In x L -> legal (remove Nat.eq_dec x L) h L' -> legal L (EDestroy x :: h) L'
| lg_use L x h L' : In x L -> legal L h L' -> legal L (EUse x :: h) L'.

(** An assignment between different variables whose construction throws. *)
Definition bad_assignment (o : eop) : bool :=
  match o with EAssign x y true | EMoveAssign x y true => negb (Nat.eqb x y) | _ => false end.
