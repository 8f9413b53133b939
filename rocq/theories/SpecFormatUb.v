(** Which templates Format cannot handle, independent of the model: how the fields of a template are read one after
    the other, with [n] arguments, [k] automatic placeholders having been counted so far. *)
From Coq Require Import List NArith Arith.
From Verif Require Import SpecUtf8 SpecChar SpecStr SpecFormat.
Import ListNotations.
Local Open Scope N_scope.

(** A decimal digit of any script *)
Definition digit (c : list N) : Prop := exists v, decimal_digit (utf8_value c) v.
Definition no_digit (s : chars) : Prop := match s with [] => True | c :: _ => ~ digit c end.
(** all digits in front *)
Definition digits_then (s d r : chars) : Prop := s = d ++ r /\ Forall digit d /\ no_digit r.
(** the text begins with a numeral of ASCII digits, of value [v] *)
Definition number_at (s : chars) (v : N) : Prop :=
  exists ds r, numeral ds /\ s = numeral_text ds ++ r /\ v = numeral_value ds /\
    match r with [] => True | c :: _ => forall d, d <= 9 -> c <> [0x30 + d] end.

(** The four parts of a specification, after the colon.  Alignment: *)
Definition aligner (c : list N) : Prop := exists a, c = align_text a.
Inductive after_alignment : chars -> chars -> Prop :=
| aa_fill f a r : aligner a -> after_alignment (f :: a :: r) r
| aa_align a r : aligner a -> match r with [] => True | b :: _ => ~ aligner b end -> after_alignment (a :: r) r
| aa_none c r : ~ aligner c -> match r with [] => True | b :: _ => ~ aligner b end -> after_alignment (c :: r) (c :: r).
(** a number that is not too large, or none *)
Inductive after_number (limit : N) : chars -> chars -> Prop :=
| an_none s : no_digit s -> after_number limit s s
| an_some s d r v : digits_then s d r -> d <> [] -> number_at s v -> v <= limit -> after_number limit s r.
(** the specification can be read: it is not empty, width and precision are in range *)
Inductive readable : chars -> Prop :=
| rd_plain g a w : after_alignment g a -> after_number 18446744073709551615 a w -> (forall p, w <> dot :: p) -> readable g
| rd_precision g a p r : after_alignment g a -> after_number 18446744073709551615 a (dot :: p) -> after_number 2147483647 p r -> readable g.

(** The index in front of a field is accepted: it is below the number of arguments; without arguments every index is. *)
Definition index_accepted (n : nat) (d : chars) : Prop :=
  exists v, number_at d v /\ (v < N.of_nat n \/ n = 0%nat /\ v <= 18446744073709551615).

(** A field (what stands between the braces) that is carried out; [k'] placeholders have been counted then. *)
Inductive passes (n k : nat) : chars -> nat -> Prop :=
| ps_only f : n = 1%nat -> no_digit f -> (forall g, f <> colon :: g) -> passes n k f k
| ps_next f : (2 <= n)%nat -> (k < n)%nat -> no_digit f -> (forall g, f <> colon :: g) -> passes n k f (S k)
| ps_spec g : (1 <= n)%nat -> readable g -> passes n k (colon :: g) k
| ps_pos d v : digits_then d d [] -> d <> [] -> number_at d v -> v < N.of_nat n -> passes n k d k
| ps_junk f d c g : digits_then f d (c :: g) -> d <> [] -> c <> colon -> index_accepted n d -> passes n k f k
| ps_pos_spec f d g : digits_then f d (colon :: g) -> d <> [] -> index_accepted n d -> readable g -> (k < n)%nat -> passes n k f k.
(** A field on which the behaviour is undefined: *)
Inductive undefined_field (n k : nat) : chars -> Prop :=
| uf_empty_spec : undefined_field n k [colon]                                                   (* {:} *)
| uf_spec g : n = 0%nat -> readable g -> undefined_field n k (colon :: g)                       (* {:5} without arguments *)
| uf_next f : (2 <= n)%nat -> (n <= k)%nat -> no_digit f -> (forall g, f <> colon :: g) -> undefined_field n k f   (* one {} too many *)
| uf_pos d v : n = 0%nat -> digits_then d d [] -> d <> [] -> number_at d v -> v <= 18446744073709551615 -> undefined_field n k d  (* {0} without arguments *)
| uf_pos_empty f d : digits_then f d [colon] -> d <> [] -> index_accepted n d -> undefined_field n k f           (* {0:} *)
| uf_pos_spec f d g : digits_then f d (colon :: g) -> d <> [] -> index_accepted n d -> readable g -> (n <= k)%nat -> undefined_field n k f. (* {0:5} after the last {} *)

(** The template leads to such a field, everything before it being carried out. *)
Definition field_of (f : chars) : Prop := (forall f', f <> lbrace :: f') /\ ~ In rbrace f.
Inductive undefined (n : nat) : nat -> chars -> Prop :=
| un_char k c r : c <> lbrace -> c <> rbrace -> undefined n k r -> undefined n k (c :: r)
| un_open k r : undefined n k r -> undefined n k (lbrace :: lbrace :: r)
| un_close k r : undefined n k r -> undefined n k (rbrace :: rbrace :: r)
| un_pass k k' f r : field_of f -> passes n k f k' -> undefined n k' r -> undefined n k (lbrace :: f ++ rbrace :: r)
| un_here k f r : field_of f -> undefined_field n k f -> undefined n k (lbrace :: f ++ rbrace :: r).
(** The template is carried out to its end. *)
Inductive completes (n : nat) : nat -> chars -> Prop :=
| cm_nil k : completes n k []
| cm_char k c r : c <> lbrace -> c <> rbrace -> completes n k r -> completes n k (c :: r)
| cm_open k r : completes n k r -> completes n k (lbrace :: lbrace :: r)
| cm_close k r : completes n k r -> completes n k (rbrace :: rbrace :: r)
| cm_pass k k' f r : field_of f -> passes n k f k' -> completes n k' r -> completes n k (lbrace :: f ++ rbrace :: r).
