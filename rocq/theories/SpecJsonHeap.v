(** What it means to own memory properly, without reference to the operations: how a value is read out of
    memory, what can be reached, and which operations give ownership up. *)
From Coq Require Import List Arith ZArith.
From Verif Require Import Outcome StrModel JsonData JsonHeap.
Import ListNotations.

Section Spec.
Context {F : Type}.
Notation json := (json F).
Notation memory := (nat -> option (cell F)).

(** [reads m n v]: the object at address [n] is the value [v], following the pointers. *)
Inductive reads (m : memory) : nat -> json -> Prop :=
| Reads_null n : m n = Some (HNull, []) -> reads m n JNull
| Reads_string n s : m n = Some (HStr s, []) -> reads m n (JStr s)
| Reads_float n f : m n = Some (HFloat f, []) -> reads m n (JFloat f)
| Reads_int n z : m n = Some (HInt z, []) -> reads m n (JInt z)
| Reads_bool n b : m n = Some (HBool b, []) -> reads m n (JBool b)
| Reads_array n ks vs : m n = Some (HArr, ks) -> Forall2 (reads m) ks vs -> reads m n (JArr vs)
| Reads_object n ks ms : m n = Some (HObj (map fst ms), ks) -> Forall2 (reads m) ks (map snd ms) -> reads m n (JObj ms).

(** [reach m n k]: the pointers lead from [n] to [k]. *)
Inductive reach (m : memory) : nat -> nat -> Prop :=
| Reach_here n : reach m n n
| Reach_below n h ks c k : m n = Some (h, ks) -> In c ks -> reach m c k -> reach m n k.
(** [leads m n a k]: the positions [a] lead from [n] to [k]. *)
Inductive leads (m : memory) : nat -> list nat -> nat -> Prop :=
| Leads_here n : leads m n [] n
| Leads_below n h ks i c a k : m n = Some (h, ks) -> nth_error ks i = Some c -> leads m c a k -> leads m n (i :: a) k.

(** The reference [a], starting at a variable in scope, denotes the value [v]. *)
Definition denotes (s : hstate F) (a : list nat) (v : json) : Prop :=
  a <> [] /\ exists n, leads (mem s) 0 a n /\ reads (mem s) n v.
(** [n] was leaked in [s]: it exists, but no pointer leads to it. *)
Definition leaked (s : hstate F) (n : nat) : Prop := mem s n <> None /\ ~ reach (mem s) 0 n.

(** The strings of a value, in the order the destructors visit them *)
Fixpoint strings_of (v : json) : list Str :=
  match v with
  | JStr s => [s]
  | JArr l => flat_map strings_of l
  | JObj ms => flat_map (fun p => strings_of (snd p)) ms
  | _ => []
  end.

(** [below a t]: the object [t] denotes is a part of the one [a] denotes. *)
Definition below (a t : list nat) : Prop := exists i r, t = a ++ i :: r.
(** Operations that do not give up ownership: no RemoveMember, no move into a part of what is moved *)
Definition keeps_owner (o : hop F) : Prop :=
  match o with ORemove _ _ => False | OMove t a => ~ below a t | _ => True end.
(** The variables an operation may change *)
Definition touches (o : hop F) (x : nat) : Prop :=
  match o with
  | ONew _ | OMake _ | OCopyNew _ => False
  | OMoveNew a => hd_error a = Some x
  | OEnd _ => True
  | OAssign t _ | OKey t _ | OPos t _ | OAppend t _ | OAppendCopy t _ | OCopy t _ | ORemove t _ => hd_error t = Some x
  | OMove t a => hd_error t = Some x \/ hd_error a = Some x
  end.
End Spec.
