(** What users expect of the headers, apart from the preprocessor. *)
From Coq Require Import String List.
From Verif Require Import Headers.
Import ListNotations.

(** Every header is preceded by all it includes *)
Definition in_order (fs : file_system) (texts : list header) : Prop :=
  forall before f after p, texts = before ++ f :: after -> In p (h_includes f) ->
  exists f', In f' before /\ same_path fs (h_path f') p = true.
(** No header with an include guard is there twice *)
Definition no_repetition (texts : list header) : Prop :=
  forall f before between after, texts = before ++ f :: between ++ f :: after -> h_guard f = None.
(** Not two source files of the program include anything *)
Definition at_most_one_user (program : list (list string)) : Prop :=
  forall before u between v after, program = before ++ u :: between ++ v :: after -> u = [] \/ v = [].
