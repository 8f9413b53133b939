(** Specification vocabulary for Strings, independent of the model. *)
From Coq Require Import List NArith.
From Verif Require Import SpecUtf8.
Import ListNotations.
Local Open Scope N_scope.

(** [t] occurs in [s] starting at index [i]. *)
Definition occurs_at {A} (t s : list A) (i : nat) : Prop :=
  exists a b, s = a ++ t ++ b /\ length a = i.

(** [t] occurs in [s] and its last element has index [e]. *)
Definition occurs_ending_at {A} (t s : list A) (e : nat) : Prop :=
  exists a b, s = a ++ t ++ b /\ (length a + length t = e + 1)%nat.

Definition occurs {A} (t s : list A) : Prop := exists a b, s = a ++ t ++ b.

(** Lexicographic order of lists, given an order of the elements. *)
Inductive lex {A} (lt : A -> A -> Prop) : list A -> list A -> Prop :=
| lex_nil' y b : lex lt [] (y :: b)
| lex_head' x y a b : lt x y -> lex lt (x :: a) (y :: b)
| lex_tail' x a b : lex lt a b -> lex lt (x :: a) (x :: b).

(** A byte sequence is decodable when it is a concatenation of UTF-8 units. *)
Definition decodable (s : list N) : Prop := exists us, Forall utf8_unit us /\ s = concat us.

(** Number of bytes a lead byte announces (RFC 3629 section 3). *)
Inductive announces : N -> nat -> Prop :=
| ann1 b : b < 0x80 -> announces b 1
| ann2 b : 0xC0 <= b < 0xE0 -> announces b 2
| ann3 b : 0xE0 <= b < 0xF0 -> announces b 3
| ann4 b : 0xF0 <= b < 0xF8 -> announces b 4.

(** After some units there is a lead byte that announces more bytes than are left,
    even counting the terminator. *)
Definition truncated (s : list N) : Prop :=
  exists us b rest n, Forall utf8_unit us /\ s = concat us ++ b :: rest /\
    announces b n /\ (length (b :: rest) + 1 < n)%nat.

(** A character of a String as the library's own constructors from text build it:
    one UTF-8 unit that is not NUL. *)
Definition text_char (c : list N) : Prop := utf8_unit c /\ c <> [0].
Definition text (s : list (list N)) : Prop := Forall text_char s.
