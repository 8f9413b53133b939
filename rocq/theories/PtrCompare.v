(** Comparisons of pointers: UniquePointer.h 97-115, SharedPointer.h 121-139, RawPointer.h 85-103
    (the same text in each) and WeakPointer.h 90-108 (which compares the SharedPtr member data_).
    An address is represented by the number of the object that has it.  An address may be used again
    after its object is deleted and a deleted pointer has no value that may be read: comparing one
    is undefined here (in C++ its result is implementation-defined). *)
From Coq Require Import List NArith Arith Bool.
From Verif Require Import Outcome UniquePtr SharedPtr RawPtr.
Import ListNotations.

(** data_ == other.data_: UniquePointer.h 97-100, SharedPointer.h 121-124, RawPointer.h 85-88 *)
Definition eq_ptr (p q : option nat) : bool :=
  match p, q with None, None => true | Some i, Some j => Nat.eqb i j | _, _ => false end.
(** data_ != other.data_: UniquePointer.h 102-105, SharedPointer.h 126-129, RawPointer.h 90-93 *)
Definition ne_ptr (p q : option nat) : bool :=
  match p, q with None, None => false | Some i, Some j => negb (Nat.eqb i j) | _, _ => true end.
(** data_ == nullptr: UniquePointer.h 107-110, SharedPointer.h 131-134, RawPointer.h 95-98 *)
Definition eq_null (p : option nat) : bool := match p with None => true | Some _ => false end.
(** data_ != nullptr: UniquePointer.h 112-115, SharedPointer.h 136-139, RawPointer.h 100-103 *)
Definition ne_null (p : option nat) : bool := match p with None => false | Some _ => true end.

(** WeakPointer.h 90-108 *)
Definition weak_eq (p q : option nat) : bool := eq_ptr p q.
Definition weak_ne (p q : option nat) : bool := ne_ptr p q.
Definition weak_eq_null (p : option nat) : bool := eq_null p.
Definition weak_ne_null (p : option nat) : bool := ne_null p.

(** A pointer value that may be read. *)
Definition readable (deleted : list nat) (p : option nat) : bool :=
  match p with None => true | Some i => negb (existsb (Nat.eqb i) deleted) end.
(** The results of the four operators on two variables: x == y, x != y, x == nullptr, x != nullptr. *)
Record compared := Compared { is_eq : bool; is_ne : bool; is_null : bool; not_null : bool }.
Definition compare_values (deleted : list nat) (p q : option nat) : outcome compared :=
  if readable deleted p && readable deleted q then Ok (Compared (eq_ptr p q) (ne_ptr p q) (eq_null p) (ne_null p)) else UB.

Definition ucompare (s : ustate) (x y : nat) : outcome compared :=
  match uvars s x, uvars s y with Some p, Some q => compare_values (udeleted s) p q | _, _ => UB end.
Definition scompare (s : sstate) (x y : nat) : outcome compared :=
  match svars s x, svars s y with Some p, Some q => compare_values (sdel s) p q | _, _ => UB end.
Definition wcompare (s : sstate) (x y : nat) : outcome compared :=
  match svars s x, svars s y with
  | Some p, Some q =>
      if readable (sdel s) p && readable (sdel s) q
      then Ok (Compared (weak_eq p q) (weak_ne p q) (weak_eq_null p) (weak_ne_null p)) else UB
  | _, _ => UB
  end.
Definition pcompare (s : pstate) (x y : nat) : outcome compared := compare_values (pdeleted s) (pvars s x) (pvars s y).
