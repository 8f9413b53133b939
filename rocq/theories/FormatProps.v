(** Properties C31-C38: String::Format. *)
From Coq Require Import List NArith ZArith Bool Arith Lia.
From Verif Require Import Outcome CharModel CharUtil StrModel StrUtil Format SpecUtf8 SpecStr SpecFormat FormatProofs.
Import ListNotations.
Local Open Scope N_scope.

(** Vocabulary for the examples. *)
Definition ascii (s : list N) : chars := map (fun b => [b]) s.
Lemma ascii_is_text s : forallb (fun b => (1 <=? b) && (b <? 128)) s = true -> text (ascii s).
Proof.
  intros H. apply Forall_map. apply Forall_forall. intros b I. rewrite forallb_forall in H. specialize (H b I).
  apply andb_true_iff in H as [H1 H2]. apply N.leb_le in H1. apply N.ltb_lt in H2. apply ascii_text_char. lia.
Qed.
Definition width_spec (fill : option (list N)) (a : salign) (w : list N) : sspec :=
  {| s_align := Some (fill, a); s_width := Some w; s_prec := None; s_type := None |}.
Definition prec_spec (p : list N) : sspec :=
  {| s_align := None; s_width := None; s_prec := Some p; s_type := Some TF |}.

(** C31 *)
Theorem C31_escaped_braces : forall t args, text t -> format (double_braces t) args = Ok t.
Proof. exact escaped_braces. Qed.
Print Assumptions C31_escaped_braces.
Example C31_ex : format (ascii [123; 123; 97; 125; 125; 125; 125]) [] = Ok (ascii [123; 97; 125; 125]).
Proof. reflexivity. Qed.

(** C32.  Any mixture of literal text, {} and {i}; arguments may contain braces. *)
Theorem C32_placeholders_in_order : forall args is r,
  Forall text args -> (2 <= length args)%nat -> (Z.of_nat (length args) < 2 ^ 64)%Z ->
  expands args 0 is r -> format (template is) args = Ok r.
Proof. exact format_expands. Qed.
Print Assumptions C32_placeholders_in_order.
Example C32_ex : let args := [ascii [123; 125]; ascii [98]] in
  expands args 0 [Lit (ascii [123]); Auto; Lit (ascii [45]); Auto; Pos [0]] (ascii [123; 123; 125; 45; 98; 123; 125]) /\
  format (ascii [123; 123; 123; 125; 45; 123; 125; 123; 48; 125]) args = Ok (ascii [123; 123; 125; 45; 98; 123; 125]).
Proof.
  split; [|reflexivity].
  apply (ex_lit _ _ (ascii [123])); [now apply ascii_is_text|].
  apply (ex_auto _ _ (ascii [123; 125])); [reflexivity|].
  apply (ex_lit _ _ (ascii [45])); [now apply ascii_is_text|].
  apply (ex_auto _ _ (ascii [98])); [reflexivity|].
  apply (ex_pos _ _ [0] (ascii [123; 125]) [] []); [|reflexivity|constructor].
  split; [discriminate|]. constructor; [lia|constructor].
Qed.

(** C33 *)
Theorem C33_positional_partial : forall ds args, numeral ds -> args <> [] ->
  (Z.of_nat (length args) < 2 ^ 64)%Z -> Forall text args ->
  format (template [Pos ds]) args =
  match nth_error args (N.to_nat (numeral_value ds)) with Some a => Ok a | None => Throw EFormatError end.
Proof. exact format_pos_alone. Qed.
Print Assumptions C33_positional_partial.
Theorem C33_out_of_range_anywhere_partial : forall args pre ds tail r, args <> [] ->
  (Z.of_nat (length args) < 2 ^ 64)%Z -> numeral ds ->
  (length args <= N.to_nat (numeral_value ds))%nat -> format pre args = Ok r ->
  format (pre ++ item_text (Pos ds) ++ tail) args = Throw EFormatError.
Proof. exact format_bad_index. Qed.
Print Assumptions C33_out_of_range_anywhere_partial.
(** Missing: without arguments the bound size() - 1 wraps around and {0} reads arguments[0]. *)
Theorem C33_no_arguments_refuted : exists ds, numeral ds /\ format (template [Pos ds]) [] = UB.
Proof. exists [0]. split; [split; [discriminate|constructor; [lia|constructor]]|reflexivity]. Qed.
Print Assumptions C33_no_arguments_refuted.
Example C33_ex : format (ascii [123; 49; 125]) [ascii [97]; ascii [98]] = Ok (ascii [98]) /\
  format (ascii [123; 50; 125]) [ascii [97]; ascii [98]] = Throw EFormatError /\
  format (ascii (123 :: repeat 57 30 ++ [125])) [ascii [97]; ascii [98]] = Throw EFormatError.
Proof. repeat split; reflexivity. Qed.

(** C34 *)
Theorem C34_width_fill_alignment : forall s v rest, sspec_ok s -> text v -> s_type s <> Some TF ->
  format (template [Spec s]) (v :: rest) = Ok (pad (sp_align s) (sp_width s) (sp_fill s) v).
Proof.
  intros s v rest S V T. apply format_spec_first; trivial. unfold formatted. destruct (s_type s) as [[]|]; congruence.
Qed.
Print Assumptions C34_width_fill_alignment.
Theorem C34_length : forall a w f v, length (pad a w f v) = Nat.max w (length v).
Proof. exact pad_length. Qed.
Print Assumptions C34_length.
Example C34_ex : sspec_ok (width_spec (Some [42]) SCenter [1; 0]) /\
  format (ascii [123; 58; 42; 94; 49; 48; 125]) [ascii [97; 98; 99]] =
    Ok (ascii [42; 42; 42; 97; 98; 99; 42; 42; 42; 42]).
Proof.
  split; [|reflexivity]. repeat split; cbn; try discriminate; intros.
  - injection H as <- <-. now apply ascii_text_char.
  - injection H as <- <-. discriminate.
  - injection H as <-. discriminate.
  - injection H as <-. discriminate.
  - injection H as <-. repeat constructor; discriminate.
  - injection H as <-. vm_compute. discriminate.
Qed.

(** C35 *)
Theorem C35_precision_partial : forall s v rest p u, sspec_ok s -> text v -> s_type s = Some TF ->
  s_prec s = Some p -> 1 <= numeral_value p -> with_decimals (N.to_nat (numeral_value p)) v u ->
  format (template [Spec s]) (v :: rest) = Ok (pad (sp_align s) (sp_width s) (sp_fill s) u).
Proof.
  intros s v rest p u S V T P L D. apply format_spec_first; trivial. unfold formatted. rewrite T. eauto 6.
Qed.
Print Assumptions C35_precision_partial.
(** Precision 0 (or none): the decimals go but the dot stays. *)
Theorem C35_precision_zero_partial : forall s v ip ds rest, sspec_ok s -> s_type s = Some TF ->
  (s_prec s = None \/ exists p, s_prec s = Some p /\ numeral_value p = 0) ->
  v = ip ++ dot :: numeral_text ds -> ~ In dot ip -> text v ->
  format (template [Spec s]) (v :: rest) = Ok (pad (sp_align s) (sp_width s) (sp_fill s) (ip ++ [dot])).
Proof. exact format_precision_zero. Qed.
Print Assumptions C35_precision_zero_partial.
Theorem C35_precision_zero_refuted : exists v, text v /\
  format (template [Spec (prec_spec [0])]) [v ++ dot :: numeral_text [5]] = Ok (v ++ [dot]).
Proof. exact (ex_intro _ (ascii [54; 52]) (conj (ascii_is_text [54; 52] eq_refl) eq_refl)). Qed.
Print Assumptions C35_precision_zero_refuted.
Example C35_ex : format (ascii [123; 58; 46; 50; 102; 125]) [ascii [51; 46; 49; 52; 49; 53]] = Ok (ascii [51; 46; 49; 52]) /\
  format (ascii [123; 58; 46; 51; 102; 125]) [ascii [55]] = Ok (ascii [55; 46; 48; 48; 48]).
Proof. split; reflexivity. Qed.

(** C36 *)
Theorem C36_unbalanced_is_error : forall pre bad args r,
  format pre args = Ok r ->
  (exists t, bad = lbrace :: t /\ ~ In rbrace t /\ forall t', t <> lbrace :: t') \/
  (exists t, bad = rbrace :: t /\ forall t', t <> rbrace :: t') ->
  format (pre ++ bad) args = Throw EFormatError.
Proof. exact unbalanced_error. Qed.
Print Assumptions C36_unbalanced_is_error.
Theorem C36_success_means_balanced : forall t args r, format t args = Ok r -> balanced t.
Proof. exact format_balanced. Qed.
Print Assumptions C36_success_means_balanced.
Example C36_ex : format (ascii [97; 123; 125]) [ascii [98]] = Ok (ascii [97; 98]) /\
  format (ascii [97; 123; 125; 123; 48]) [ascii [98]] = Throw EFormatError /\
  format (ascii [97; 123; 125; 125; 48]) [ascii [98]] = Throw EFormatError.
Proof. repeat split; reflexivity. Qed.

(** C37 *)
Theorem C37_never_undefined_partial : forall args t,
  Forall text args -> args <> [] -> (Z.of_nat (length args) < 2 ^ 64)%Z -> text t ->
  ~ occurs [colon; rbrace] t ->
  length args = 1%nat \/ (count_occ (list_eq_dec N.eq_dec) t lbrace <= length args)%nat ->
  (exists r, format t args = Ok r /\ text r) \/ (exists e, format t args = Throw e).
Proof. exact format_safe. Qed.
Print Assumptions C37_never_undefined_partial.
(** Each of the three hypotheses is needed: {:} ; {} three times with two arguments ; no arguments. *)
Theorem C37_never_undefined_refuted :
  format (ascii [123; 58; 125]) [ascii [97]] = UB /\
  format (ascii [123; 125; 123; 125; 123; 125]) [ascii [97]; ascii [98]] = UB /\
  format (ascii [123; 48; 125]) [] = UB /\ format (ascii [123; 58; 53; 125]) [] = UB.
Proof. exact (conj eq_refl (conj eq_refl (conj eq_refl eq_refl))). Qed.
Print Assumptions C37_never_undefined_refuted.
Example C37_ex : let t := ascii [123; 58; 62; 125; 123; 49; 58; 120; 125] in
  text t /\ ~ occurs [colon; rbrace] t /\
  (count_occ (list_eq_dec N.eq_dec) t lbrace <= 2)%nat /\
  format t [ascii [97]; ascii [98]] = Ok (ascii [97; 97]).
Proof.
  split; [now apply ascii_is_text|]. split; [|split; [apply le_n|reflexivity]].
  intros (a & b & E). repeat (destruct a as [|? a]; [discriminate|]; injection E as <- E). destruct a; discriminate.
Qed.

(** C38 *)
Theorem C38_single_argument_partial : forall a is r, text a -> expands_one a is r ->
  format (template is) [a] = Ok r.
Proof. exact format_one. Qed.
Print Assumptions C38_single_argument_partial.
(** The exact behaviour for two arguments and more. *)
Theorem C38_actual_partial : forall args is r, Forall text args -> (2 <= length args)%nat ->
  (Z.of_nat (length args) < 2 ^ 64)%Z ->
  expands_many args 0 is r -> format (template is) args = Ok r.
Proof. exact format_many. Qed.
Print Assumptions C38_actual_partial.
(** {1:>1} formats argument 0, and the second of {:>1}{:>1} too. *)
Theorem C38_wrong_argument_refuted : exists a b, a <> b /\
  format (template [PosSpec [1] (width_spec None SRight [1])]) [a; b] = Ok a /\
  format (template [Spec (width_spec None SRight [1]); Spec (width_spec None SRight [1])]) [a; b] = Ok (a ++ a).
Proof. exists (ascii [97]), (ascii [98]). repeat split; discriminate. Qed.
Print Assumptions C38_wrong_argument_refuted.
Example C38_ex : format (ascii [123; 125; 123; 49; 58; 62; 51; 125]) [ascii [97]; ascii [98]; ascii [99]] =
  Ok (ascii [97; 32; 32; 98]).
Proof. reflexivity. Qed.
