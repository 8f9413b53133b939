(** Specification of line-wise reading and appending, independent of the model. *)
From Coq Require Import List NArith.
Import ListNotations.
Local Open Scope N_scope.

(** [lines d ps c]: cutting [c] at every [d] gives the non-empty list [ps] of pieces. *)
Inductive lines {A} (d : A) : list (list A) -> list A -> Prop :=
| lines_last p : ~ In d p -> lines d [p] p
| lines_cons p ps c : ~ In d p -> lines d ps c -> lines d (p :: ps) (p ++ d :: c).
