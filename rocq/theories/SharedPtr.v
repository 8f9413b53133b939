(** Model of __Core/Memory/Types/SharedPointer.h and WeakPointer.h.
    Calls on SharedPtrs run concurrently: a call is a list of atomic instructions, and any number
    of calls may be in progress.  Simplifications:
    - data_ and ref_count_ always change together (40-53, 72-73, 87-90, 147-148), so a variable
      holds one identity standing for the object and its counter;
    - the atomic operations are sequentially consistent (the code uses relaxed ordering at 46, 155);
    - the counter does not overflow (2^64 pointers do not fit in memory), but it does wrap below 0;
    - every raw pointer handed to a SharedPtr is a new object (handing over the same raw pointer
      twice is the caller's error).
    operator=(Pointer) (61-65) calls a missing reset and cannot be instantiated. *)
From Coq Require Import List NArith Arith Bool.
From Verif Require Import Outcome.
Import ListNotations.

(** Calls; WeakPtr's data_ is a SharedPtr, so its calls are calls on that (see [wcall] below). *)
Inductive sop :=
| SNull (x : nat)             (* 38 *)
| SNew (x : nat)              (* 40-42 *)
| SCopy (x y : nat)           (* 44-47 *)
| SMove (x y : nat)           (* 49-53 *)
| SDestroy (x : nat)          (* 55-58 *)
| SAssign (x y : nat)         (* 67-80 *)
| SMoveAssign (x y : nat)     (* 82-93 *)
| SReset (x : nat)            (* 142-150, argument null *)
| SResetNew (x : nat)         (* 142-150, argument a new object *)
| SResetSame (x : nat)        (* 142-150, argument x.Get() *)
| SDeref (x : nat).           (* 96-112, and the caller's access to the object *)

(** Atomic instructions. *)
Inductive instr :=
| ISetNull (x : nat) | ISetNew (x : nat) | ICopy (x y : nat) | IMove (x y : nat) | IDrop (x : nat)
| IInc (x : nat)              (* 46: fetch_add without test *)
| IIncIf (x : nat)            (* 74-77 *)
| IRelease (x : nat)          (* 155: the test and fetch_sub *)
| IDelete (o : nat)           (* 157 *)
| IDeleteCounter (o : nat)    (* 158 *)
| IDeref (x : nat).

Record sstate := SState {
  svars : nat -> option (option nat);   (* None: no such variable; Some None: null *)
  counts : nat -> N;                    (* the counters *)
  smade : nat;                          (* objects handed over so far: 0 .. smade - 1 *)
  sdel : list nat;                      (* objects deleted *)
  cdel : list nat;                      (* counters deleted *)
  pend : list (sop * list instr) }.     (* calls in progress and what they still have to do *)
Definition sstate0 : sstate := SState (fun _ => None) (fun _ => 0%N) 0 [] [] [].

Definition fset {A} (m : nat -> A) (x : nat) (v : A) : nat -> A := fun y => if Nat.eqb y x then v else m y.
Definition set_var (s : sstate) (x : nat) (v : option (option nat)) : sstate :=
  SState (fset (svars s) x v) (counts s) (smade s) (sdel s) (cdel s) (pend s).
Definition set_count (s : sstate) (o : nat) (n : N) : sstate :=
  SState (svars s) (fset (counts s) o n) (smade s) (sdel s) (cdel s) (pend s).
Definition set_pend (s : sstate) (p : list (sop * list instr)) : sstate :=
  SState (svars s) (counts s) (smade s) (sdel s) (cdel s) p.
Definition mem (i : nat) (l : list nat) : bool := existsb (Nat.eqb i) l.

(** One instruction: the new state and further instructions to run first. *)
Definition iexec (s : sstate) (i : instr) : outcome (sstate * list instr) :=
  match i with
  | ISetNull x => Ok (set_var s x (Some None), [])
  | ISetNew x =>
      Ok (SState (fset (svars s) x (Some (Some (smade s)))) (fset (counts s) (smade s) 1%N) (S (smade s)) (sdel s) (cdel s) (pend s), [])
  | ICopy x y => match svars s y with Some p => Ok (set_var s x (Some p), []) | None => UB end
  | IMove x y => match svars s y with Some p => Ok (set_var (set_var s x (Some p)) y (Some None), []) | None => UB end
  | IDrop x => Ok (set_var s x None, [])
  | IInc x =>
      match svars s x with
      | Some (Some o) => if mem o (cdel s) then UB else Ok (set_count s o (counts s o + 1), [])
      | _ => UB
      end
  | IIncIf x =>
      match svars s x with
      | Some (Some o) => if mem o (cdel s) then UB else Ok (set_count s o (counts s o + 1), [])
      | Some None => Ok (s, [])
      | None => UB
      end
  | IRelease x =>
      match svars s x with
      | Some (Some o) =>
          if mem o (cdel s) then UB
          else
            let old := counts s o in
            Ok (set_count s o (if (old =? 0)%N then size_max else (old - 1)%N),
                if (old =? 0)%N then [IDelete o; IDeleteCounter o] else [])
      | Some None => Ok (s, [])
      | None => UB
      end
  | IDelete o => if mem o (sdel s) then UB else Ok (SState (svars s) (counts s) (smade s) (sdel s ++ [o]) (cdel s) (pend s), [])
  | IDeleteCounter o => if mem o (cdel s) then UB else Ok (SState (svars s) (counts s) (smade s) (sdel s) (cdel s ++ [o]) (pend s), [])
  | IDeref x =>
      match svars s x with
      | Some (Some o) => if mem o (sdel s) then UB else Ok (s, [])
      | Some None => Ok (s, [])        (* throws; nothing changes *)
      | None => UB
      end
  end.

(** The instructions of a call. *)
Definition code (s : sstate) (o : sop) : list instr :=
  match o with
  | SNull x => [ISetNull x]
  | SNew x => [ISetNew x]
  | SCopy x y => [ICopy x y; IInc x]
  | SMove x y => [IMove x y]
  | SDestroy x => [IRelease x; IDrop x]
  | SAssign x y => if Nat.eqb x y then [] else [IRelease x; ICopy x y; IIncIf x]
  | SMoveAssign x y => if Nat.eqb x y then [] else [IRelease x; IMove x y]
  | SReset x => match svars s x with Some None => [] | _ => [IRelease x; ISetNull x] end
  | SResetNew x => [IRelease x; ISetNew x]
  | SResetSame x => []
  | SDeref x => [IDeref x]
  end.

(** A thread starts a call (and runs its first instruction), or runs the next instruction of the
    n-th call in progress. *)
Inductive event := EStart (o : sop) | ERun (n : nat).
Definition residue (o : sop) (c : list instr) : list (sop * list instr) := match c with [] => [] | _ => [(o, c)] end.
Definition sstep (s : sstate) (e : event) : outcome sstate :=
  match e with
  | EStart o =>
      match code s o with
      | [] => Ok s
      | i :: r => '(s1, more) <- iexec s i ;; Ok (set_pend s1 (pend s ++ residue o (more ++ r)))
      end
  | ERun n =>
      match nth_error (pend s) n with
      | Some (o, i :: r) =>
          '(s1, more) <- iexec s i ;;
          Ok (set_pend s1 (firstn n (pend s) ++ residue o (more ++ r) ++ skipn (S n) (pend s)))
      | _ => Ok s
      end
  end.

(** Specification of the callers: variables are used in scope, and calls that overlap do not
    conflict (one writes a variable the other reads or writes), as for any C++ object. *)
Definition writes (o : sop) : list nat :=
  match o with
  | SNull x | SNew x | SDestroy x | SReset x | SResetNew x => [x]
  | SCopy x y => [x]
  | SMove x y => [x; y]
  | SAssign x y => if Nat.eqb x y then [] else [x]
  | SMoveAssign x y => if Nat.eqb x y then [] else [x; y]
  | SResetSame _ | SDeref _ => []
  end.
Definition reads (o : sop) : list nat :=
  match o with
  | SCopy x y => [y]
  | SAssign x y => if Nat.eqb x y then [] else [y]
  | SResetSame x | SDeref x => [x]
  | _ => []
  end.
Definition overlap (l m : list nat) : bool := existsb (fun a => mem a m) l.
Definition conflict (o p : sop) : bool :=
  overlap (writes o) (writes p ++ reads p) || overlap (writes p) (writes o ++ reads o).
Definition exists_ (s : sstate) (x : nat) : bool := match svars s x with Some _ => true | None => false end.
Definition in_scope (s : sstate) (o : sop) : bool :=
  match o with
  | SNull x | SNew x => negb (exists_ s x)
  | SCopy x y | SMove x y => negb (exists_ s x) && exists_ s y
  | SAssign x y | SMoveAssign x y => exists_ s x && exists_ s y
  | SDestroy x | SReset x | SResetNew x | SResetSame x | SDeref x => exists_ s x
  end.
Definition allowed (s : sstate) (e : event) : bool :=
  match e with
  | EStart o => in_scope s o && forallb (fun '(p, _) => negb (conflict o p)) (pend s)
  | ERun n => n <? length (pend s)
  end.

(** A history with its schedule; None if the callers break the rules. *)
Fixpoint sexec (s : sstate) (es : list event) : option (outcome sstate) :=
  match es with
  | [] => Some (Ok s)
  | e :: r =>
      if allowed s e then match sstep s e with Ok s1 => sexec s1 r | f => Some f end
      else None
  end.

(** The owners of object [o]: the pointers to it that are not just being constructed, assigned,
    reset or destroyed. *)
Definition target (o : sop) : nat :=
  match o with
  | SNull x | SNew x | SCopy x _ | SMove x _ | SDestroy x | SAssign x _ | SMoveAssign x _ | SReset x | SResetNew x
  | SResetSame x | SDeref x => x
  end.
Definition busy (s : sstate) (x : nat) : Prop := exists p, In p (pend s) /\ target (fst p) = x.
Definition owner (s : sstate) (o x : nat) : Prop := svars s x = Some (Some o) /\ ~ busy s x.
(** [n] is the number of things satisfying [P]. *)
Definition number_of (P : nat -> Prop) (n : N) : Prop :=
  exists l, NoDup l /\ (forall x, In x l <-> P x) /\ N.of_nat (length l) = n.

(** WeakPointer.h: every call is a call on the SharedPtr member data_. *)
Inductive wop :=
| WNull (x : nat)            (* 35-37 *)
| WFrom (x y : nat)          (* 39-41, y a SharedPtr *)
| WCopy (x y : nat)          (* 43-45 *)
| WMove (x y : nat)          (* 47-49 *)
| WAssign (x y : nat)        (* 52-62, y a WeakPtr or a SharedPtr *)
| WMoveAssign (x y : nat)    (* 64-68 *)
| WDestroy (x : nat)         (* implicit *)
| WLock (x y : nat).         (* 111-118: constructs the SharedPtr x from the WeakPtr y *)
(** expired, 121-124 *)
Definition expired (s : sstate) (x : nat) : bool := match svars s x with Some None => true | _ => false end.
Definition wcall (s : sstate) (o : wop) : sop :=
  match o with
  | WNull x => SNull x
  | WFrom x y | WCopy x y => SCopy x y
  | WMove x y => SMove x y
  | WAssign x y => SAssign x y
  | WMoveAssign x y => SMoveAssign x y
  | WDestroy x => SDestroy x
  | WLock x y => if expired s y then SNull x else SCopy x y
  end.

(** operator* and operator-> of UniquePtr (UniquePointer.h 72-88), Ptr (RawPointer.h 60-76) and
    SharedPtr (96-112) have the same text; those of WeakPtr (WeakPointer.h 71-87) test
    data_ == nullptr, which is data_.Get() == nullptr. *)
Definition deref (p : option nat) : outcome nat := match p with None => Throw ERuntimeError | Some o => Ok o end.
Definition weak_deref (p : option nat) : outcome nat :=
  if match p with None => true | Some _ => false end then Throw ERuntimeError else deref p.
