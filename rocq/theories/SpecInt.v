(** Specification of decimal numerals and integer arithmetic, independent of the model.
    A numeral is given by its bytes. *)
From Coq Require Import List NArith ZArith.
Import ListNotations.
Local Open Scope Z_scope.

(** An ASCII decimal digit and its value. *)
Definition ascii_digit (b : N) : Prop := (48 <= b <= 57)%N.

(** Value of a sequence of ASCII digits, most significant first (Horner). *)
Definition digits_value (ds : list N) : Z :=
  fold_left (fun acc b => 10 * acc + (Z.of_N b - 48)) ds 0.

(** [numeral t z]: the text [t] is an optional sign followed by at least one ASCII digit, and
    it denotes the integer [z]. *)
Inductive int_numeral : list N -> Z -> Prop :=
| num_plain ds : ds <> [] -> Forall ascii_digit ds -> int_numeral ds (digits_value ds)
| num_plus ds : ds <> [] -> Forall ascii_digit ds -> int_numeral (43%N :: ds) (digits_value ds)
| num_minus ds : ds <> [] -> Forall ascii_digit ds -> int_numeral (45%N :: ds) (- digits_value ds).

(** The canonical numeral of [z]: "0", or digits without leading zero, preceded by a minus sign
    exactly when [z] is negative. *)
Inductive canonical_numeral : list N -> Z -> Prop :=
| can_zero : canonical_numeral [48%N] 0
| can_pos ds d r : ds = d :: r -> d <> 48%N -> Forall ascii_digit ds ->
    canonical_numeral ds (digits_value ds)
| can_neg ds d r : ds = d :: r -> d <> 48%N -> Forall ascii_digit ds ->
    canonical_numeral (45%N :: ds) (- digits_value ds).

(** A text of ASCII characters as a sequence of characters (each one byte). *)
Definition ascii_chars (t : list N) : list (list N) := map (fun b => [b]) t.
