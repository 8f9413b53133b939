(** What Format writes, for every template, independent of the model. *)
From Coq Require Import List NArith Arith.
From Verif Require Import SpecUtf8 SpecChar SpecStr SpecFormat SpecFormatUb.
Import ListNotations.
Local Open Scope N_scope.

(** Reading a specification, part by part: fill and alignment ... *)
Definition blank : list N := [0x20].
Inductive alignment_read : chars -> list N -> salign -> chars -> Prop :=
| ar_fill f a r : alignment_read (f :: align_text a :: r) f a r
| ar_align a r : match r with [] => True | b :: _ => ~ aligner b end -> alignment_read (align_text a :: r) blank a r
| ar_none c r : ~ aligner c -> match r with [] => True | b :: _ => ~ aligner b end -> alignment_read (c :: r) blank SLeft (c :: r).
(** ... a number, 0 if there is none; all digits are skipped, of any script, the ASCII digits in front count ... *)
Inductive number_read (limit : N) : chars -> N -> chars -> Prop :=
| nr_none s : no_digit s -> number_read limit s 0 s
| nr_some s d r v : digits_then s d r -> d <> [] -> number_at s v -> v <= limit -> number_read limit s v r.
(** ... the type letter; anything may follow it, and anything else means s. *)
Inductive type_read : chars -> stype -> Prop :=
| tr_type t r : type_read (type_text t :: r) t
| tr_none s : (forall t r, s <> type_text t :: r) -> type_read s TS.
Inductive spec_read : chars -> list N -> salign -> N -> N -> stype -> Prop :=
| sr_plain g f a s1 w s2 t : alignment_read g f a s1 -> number_read 18446744073709551615 s1 w s2 ->
    (forall p, s2 <> dot :: p) -> type_read s2 t -> spec_read g f a w 0 t
| sr_precision g f a s1 w s2 p s3 t : alignment_read g f a s1 -> number_read 18446744073709551615 s1 w (dot :: s2) ->
    number_read 2147483647 s2 p s3 -> type_read s3 t -> spec_read g f a w p t.

(** Type f: from the decimals (the digits after the first dot) [p] are kept, with zeros added if there are fewer; what
    follows the decimals is dropped, the dot stays.  A text without dot is kept, and gets decimals if [p] is not 0. *)
Inductive decimals (p : nat) : chars -> chars -> Prop :=
| dc_dot ip s ds r : ~ In dot ip -> digits_then s ds r ->
    decimals p (ip ++ dot :: s) (ip ++ dot :: firstn p ds ++ repeat zero (p - length ds))
| dc_whole v : ~ In dot v -> decimals p v (v ++ match p with O => [] | _ => dot :: repeat zero p end).
Inductive shown (g v : chars) : chars -> Prop :=
| sh_text f a w p t : spec_read g f a w p t -> t <> TF -> shown g v (pad a (N.to_nat w) f v)
| sh_float f a w p u : spec_read g f a w p TF -> decimals (N.to_nat p) v u -> shown g v (pad a (N.to_nat w) f u).

(** A field: what it writes, and the number of placeholders counted after it. *)
Inductive writes (args : list chars) (k : nat) : chars -> chars -> nat -> Prop :=
| wr_only f a : args = [a] -> no_digit f -> (forall g, f <> colon :: g) -> writes args k f a k
| wr_next f a : (2 <= length args)%nat -> nth_error args k = Some a -> no_digit f -> (forall g, f <> colon :: g) -> writes args k f a (S k)
| wr_spec g a u : nth_error args 0 = Some a -> shown g a u -> writes args k (colon :: g) u k
| wr_pos d v a : digits_then d d [] -> d <> [] -> number_at d v -> nth_error args (N.to_nat v) = Some a -> writes args k d a k
| wr_junk f d c g : digits_then f d (c :: g) -> d <> [] -> c <> colon -> index_accepted (length args) d -> writes args k f [] k
| wr_pos_spec f d g a u : digits_then f d (colon :: g) -> d <> [] -> index_accepted (length args) d -> nth_error args k = Some a ->
    shown g a u -> writes args k f u k.
(** A template *)
Inductive renders (args : list chars) : nat -> chars -> chars -> Prop :=
| re_nil k : renders args k [] []
| re_char k c r u : c <> lbrace -> c <> rbrace -> renders args k r u -> renders args k (c :: r) (c :: u)
| re_open k r u : renders args k r u -> renders args k (lbrace :: lbrace :: r) (lbrace :: u)
| re_close k r u : renders args k r u -> renders args k (rbrace :: rbrace :: r) (rbrace :: u)
| re_field k k' f p r u : field_of f -> writes args k f p k' -> renders args k' r u ->
    renders args k (lbrace :: f ++ rbrace :: r) (p ++ u).
