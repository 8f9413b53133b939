(** Specification of the test runner, independent of the model. *)
From Coq Require Import List NArith Bool Permutation Sorted.
From Verif Require Import SpecUtf8 SpecStr.
Import ListNotations.

(** A registration: suite name, test name, function. *)
Definition registration (F : Type) : Type := (list (list N) * list (list N) * F)%type.
Definition suite_of {F} (r : registration F) : list (list N) := fst (fst r).

Definition chars_eq_dec (a b : list (list N)) : {a = b} + {a <> b} := list_eq_dec (list_eq_dec N.eq_dec) a b.

(** The registrations of one suite, in registration order. *)
Definition of_suite {F} (s : list (list N)) (l : list (registration F)) : list (registration F) :=
  filter (fun r => if chars_eq_dec (suite_of r) s then true else false) l.

(** Suite names are ordered character by character, characters byte by byte. *)
Definition name_lt : list (list N) -> list (list N) -> Prop := lex lex_lt.

(** [in_order l regs]: [l] lists every registration exactly once, suites in name order, tests
    of a suite in registration order. *)
Definition in_order {F} (l regs : list (registration F)) : Prop :=
  Permutation l regs /\
  StronglySorted (fun a b => ~ name_lt (suite_of b) (suite_of a)) l /\
  forall s, of_suite s l = of_suite s regs.

(** A message that can be printed: a NUL-terminated text. *)
Definition printable_message (what : list N) : Prop :=
  exists u r, text u /\ what = concat u ++ 0%N :: r.
