(** Final theorem: what Format writes, for every template. *)
From Coq Require Import List NArith ZArith Lia.
From Verif Require Import Outcome StrModel Format SpecUtf8 SpecChar SpecStr SpecFormat FormatProofs SpecFormatUb FormatUbProofs
  FormatProps FormatUbProps SpecFormatText FormatTextProofs.
Import ListNotations.
Local Open Scope N_scope.

(** C146 *)
Theorem C146_text : forall args t r,
  Forall text args -> (Z.of_nat (length args) < 2 ^ 64)%Z -> text t ->
  (format t args = Ok r <-> renders args 0 t r).
Proof. intros args t r TA L T. now apply format_renders_iff. Qed.
Print Assumptions C146_text.
(** What a specification makes of the only argument, for every specification. *)
Theorem C146_specification : forall g v r,
  text g -> text v -> ~ In rbrace g ->
  (format (lbrace :: colon :: g ++ [rbrace]) [v] = Ok r <-> shown g v r).
Proof.
  intros g v r G V NB.
  assert (TT : text (lbrace :: colon :: g ++ [rbrace])).
  { constructor; [now apply ascii_text_char|]. constructor; [now apply ascii_text_char|].
    apply Forall_app; split; [trivial|repeat constructor; discriminate]. }
  assert (TA : Forall text [v]) by now constructor.
  assert (F : field_of (colon :: g)) by (split; [discriminate|intros [E|I]; [discriminate|contradiction]]).
  assert (A : forall u, shown g v u -> format (lbrace :: colon :: g ++ [rbrace]) [v] = Ok u).
  { intros u S. apply C146_text; [trivial|reflexivity|trivial|]. rewrite <- (app_nil_r u).
    apply (re_field [v] 0 0 (colon :: g) u [] []); [trivial|eapply wr_spec; [reflexivity|exact S]|constructor]. }
  split; [|apply A]. intros H.
  destruct g as [|c g].
  - assert (K : format (lbrace :: colon :: [] ++ [rbrace]) [v] = UB); [|congruence].
    apply C37_undefined_exactly; [trivial|reflexivity|trivial|]. apply (un_here 1 0 [colon] []); [exact F|constructor].
  - destruct (make_total (c :: g) ltac:(discriminate) G) as [R|[e E]].
    + destruct (shown_total (c :: g) v G R) as [u S]. rewrite (A u S) in H. injection H as <-. exact S.
    + exfalso. rewrite format_fmt in H.
      change (lbrace :: colon :: (c :: g) ++ [rbrace]) with (lbrace :: (colon :: c :: g) ++ rbrace :: []) in H.
      rewrite fmt_field in H by apply F. rewrite field_colon, E in H by trivial. discriminate.
Qed.
Print Assumptions C146_specification.

(** "{}{1x}{1:*^7.2fq}" : text after the type is ignored, a field with junk after its index writes nothing *)
Example C146_ex : format (ascii [123; 125; 123; 49; 120; 125; 123; 49; 58; 42; 94; 55; 46; 50; 102; 113; 125]) [ascii [97]; ascii [51; 46; 53; 101; 56]]
  = Ok (ascii [97; 42; 51; 46; 53; 48; 42; 42]).
Proof. reflexivity. Qed.
Example C146_ex_shown : shown (ascii [42; 94; 55; 46; 50; 102; 113]) (ascii [51; 46; 53; 101; 56]) (ascii [42; 51; 46; 53; 48; 42; 42]).
Proof. apply C146_specification; [now apply ascii_is_text|now apply ascii_is_text|cbn; intuition discriminate|reflexivity]. Qed.
(** digits of other scripts are skipped: {:5<Arabic five>} is a width of 5 *)
Example C146_ex_digits : format (lbrace :: colon :: [0x35] :: [0xD9; 0xA5] :: [rbrace]) [ascii [97]] = Ok (ascii [97; 32; 32; 32; 32]).
Proof. reflexivity. Qed.
