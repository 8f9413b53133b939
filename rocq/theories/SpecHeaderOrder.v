(** Which headers for users bring the numbers, which bring the tests for operators. *)
From Coq Require Import String List.
Import ListNotations.
Local Open Scope string_scope.
Local Open Scope list_scope.

Definition brings_numbers : string := "Caitlyn/Numeric".
Definition bring_tests : list string := ["Caitlyn/Caitlyn"; "Caitlyn/Error"; "Caitlyn/IO"; "Caitlyn/Testing"; "Caitlyn/Traits"].
(** The header of the numbers is included, and none before it that brings the tests *)
Definition numbers_first (paths : list string) : Prop :=
  exists before after, paths = before ++ brings_numbers :: after /\ forall p, In p before -> ~ In p bring_tests.
