(** Variables as plain values, independent of the model: copying takes the value, moving takes it and leaves
    [empty]. *)
From Coq Require Import List NArith ZArith Bool Arith.
From Verif Require Import Vars.
Import ListNotations.

Section Ideal.
Context {V Op : Type}.
Variable empty : V.
Variable op : Op -> V -> V -> option V.      (* None: the operation is refused *)

(** A state: how many variables there are, and their values *)
Definition values := (nat * (nat -> V))%type.
Definition put (f : nat -> V) (i : nat) (v : V) : nat -> V := fun k => if Nat.eqb k i then v else f k.

Definition ideal_stmt (s : values) (st : stmt Op) : option values :=
  let (n, f) := s in
  match st with
  | SNew => Some (S n, put f n empty)
  | SNewCopy j => Some (S n, put f n (f j))
  | SNewMove j => Some (S n, put (put f j empty) n (f j))
  | SCopy i j => Some (n, put f i (f j))
  | SMove i j => Some (n, if Nat.eqb i j then f else put (put f j empty) i (f j))
  | SSwap i j => Some (n, put (put f i (f j)) j (f i))
  | SOp i o j => match op o (f i) (f j) with Some v => Some (n, put f i v) | None => None end
  end.
Fixpoint ideal (s : values) (p : list (stmt Op)) : option values :=
  match p with
  | [] => Some s
  | st :: r => match ideal_stmt s st with Some s' => ideal s' r | None => None end
  end.

(** Every variable is declared before it is used; [n] are declared already. *)
Definition uses (st : stmt Op) : list nat :=
  match st with
  | SNew => []
  | SNewCopy j | SNewMove j => [j]
  | SCopy i j | SMove i j | SSwap i j | SOp i _ j => [i; j]
  end.
Definition declares (st : stmt Op) : nat :=
  match st with SNew | SNewCopy _ | SNewMove _ => 1 | _ => 0 end.
Fixpoint scoped (n : nat) (p : list (stmt Op)) : Prop :=
  match p with
  | [] => True
  | st :: r => Forall (fun i => (i < n)%nat) (uses st) /\ scoped (n + declares st) r
  end.
End Ideal.
