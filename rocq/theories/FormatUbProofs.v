(** Proofs: exactly which templates Format carries out and on which its behaviour is undefined. *)
From Coq Require Import List NArith ZArith Bool Arith Lia ZifyBool ZifyNat ZifyN.
From Verif Require Import Outcome CharModel CharUtil StrModel StrUtil Format SpecUtf8 SpecChar SpecStr SpecFormat
  CharProofs CharUtilProofs StrProofs StrUtilProofs FormatProofs SpecFormatUb.
Import ListNotations.
Local Open Scope N_scope.

(** * Digits *)
Lemma gcp_value c : text_char c -> get_code_point c = Ok (utf8_value c).
Proof. intros [U _]. now apply get_code_point_unit. Qed.
Lemma digit_true c : digit c -> is_digit (utf8_value c) = true.
Proof. intros D. now apply is_digit_spec. Qed.
Lemma digit_false c : ~ digit c -> is_digit (utf8_value c) = false.
Proof. intros D. destruct (is_digit (utf8_value c)) eqn:E; [|reflexivity]. apply is_digit_spec in E. now destruct D. Qed.

Lemma digit_run_exact s d r : text s -> digits_then s d r -> digit_run s = Ok (d, r).
Proof.
  intros T (-> & D & R). induction D as [|c d Hc D IH].
  - cbn [app] in *. destruct r as [|c r]; [reflexivity|]. inversion T; subst. cbn [digit_run].
    rewrite gcp_value by trivial. cbn [bind]. now rewrite digit_false.
  - cbn [app] in *. inversion T; subst. cbn [digit_run]. rewrite gcp_value by trivial. cbn [bind].
    rewrite digit_true by trivial. rewrite IH by trivial. reflexivity.
Qed.
Lemma digits_split s : exists d r, digits_then s d r.
Proof.
  induction s as [|c s (d & r & -> & D & R)]; [exists [], []; repeat split; constructor|].
  destruct (is_digit (utf8_value c)) eqn:E.
  - exists (c :: d), r. split; [reflexivity|]. split; [constructor; [now apply is_digit_spec|trivial]|trivial].
  - exists [], (c :: d ++ r). split; [reflexivity|]. split; [constructor|]. intros K. apply digit_true in K. congruence.
Qed.
Lemma no_digits s : no_digit s -> digits_then s [] s.
Proof. intros H. split; [reflexivity|]. split; [constructor|exact H]. Qed.
Lemma digits_colon : ~ digit colon.
Proof. intros H. apply digit_true in H. discriminate. Qed.

(** * Numbers *)
Lemma ascii_digit_dec c : (exists d, d <= 9 /\ c = [0x30 + d]) \/ (forall d, d <= 9 -> c <> [0x30 + d]).
Proof.
  destruct c as [|b [|x c]]; try (right; intros d _; discriminate).
  destruct (N.le_gt_cases 48 b) as [L|L]; [destruct (N.le_gt_cases b 57) as [H|H]|].
  - left. exists (b - 48). split; [lia|]. f_equal. lia.
  - right. intros d Hd K. assert (b = 48 + d) by congruence. lia.
  - right. intros d Hd K. assert (b = 48 + d) by congruence. lia.
Qed.
Lemma lead_no_digit c r : text_char c -> (forall d, d <= 9 -> c <> [0x30 + d]) ->
  exists b t, s_str (c :: r) = b :: t /\ dec_digit b = None.
Proof.
  intros T H. rewrite s_str_cons, cstr_id by (now apply text_char_no_nul). unfold dec_digit.
  assert (G : forall b, (b < 48 \/ 57 < b) -> (if (48 <=? b) && (b <=? 57) then Some (b - 48) else None) = None).
  { intros b B. destruct ((48 <=? b) && (b <=? 57)) eqn:E; [lia|reflexivity]. }
  destruct T as [U Z]. destruct U; cbn [app]; eexists _, _; (split; [reflexivity|]); apply G; try lia.
  destruct (N.lt_ge_cases b 48) as [|L]; [lia|]. destruct (N.lt_ge_cases 57 b) as [|L']; [lia|].
  exfalso. apply (H (b - 48)); [lia|]. f_equal. lia.
Qed.
Lemma number_sto limit s v : text s -> number_at s v ->
  sto_decimal limit (s_str s) = if limit <? v then Throw EOutOfRange else Ok v.
Proof.
  intros T (ds & r & [NE F] & -> & -> & R). rewrite s_str_numeral. apply app_text in T as [_ T].
  assert (D : forall ds acc, Forall (fun d => d <= 9) ds ->
    dec_run acc (map (fun d => 0x30 + d) ds ++ s_str r) = fold_left (fun a d => a * 10 + d) ds acc).
  { clear - T R. induction ds as [|d ds IH]; intros acc H.
    - cbn [map app fold_left]. destruct r as [|c r]; [reflexivity|]. inversion T; subst.
      destruct (lead_no_digit c r) as (b & t & -> & E); trivial. cbn [dec_run]. now rewrite E.
    - inversion H; subst. cbn [map app dec_run fold_left]. rewrite dec_digit_ok by trivial. now apply IH. }
  destruct ds as [|d ds]; [congruence|]. unfold sto_decimal. cbn [map app].
  rewrite dec_digit_ok by now inversion F.
  change (0x30 + d :: map (fun d => 0x30 + d) ds ++ s_str r) with (map (fun d => 0x30 + d) (d :: ds) ++ s_str r).
  rewrite D by trivial. reflexivity.
Qed.
Lemma number_total limit s : text s ->
  (exists v, number_at s v) \/ sto_decimal limit (s_str s) = Throw EInvalidArgument.
Proof.
  intros T. assert (D : exists ds r, Forall (fun d => d <= 9) ds /\ s = numeral_text ds ++ r /\
    match r with [] => True | c :: _ => forall d, d <= 9 -> c <> [0x30 + d] end).
  { clear T. induction s as [|c s (ds & r & F & -> & R)]; [exists [], []; repeat split; constructor|].
    destruct (ascii_digit_dec c) as [(d & Hd & ->)|H].
    - exists (d :: ds), r. repeat split; trivial. now constructor.
    - exists [], (c :: numeral_text ds ++ r). repeat split; trivial. }
  destruct D as (ds & r & F & -> & R). destruct ds as [|d ds].
  - right. cbn [numeral_text map app] in *. destruct r as [|c r]; [reflexivity|]. inversion T; subst.
    destruct (lead_no_digit c r) as (b & t & -> & E); trivial. unfold sto_decimal. now rewrite E.
  - left. exists (numeral_value (d :: ds)), (d :: ds), r. split; [split; [discriminate|trivial]|]. repeat split; trivial.
Qed.

(** * Specifications *)
Lemma aligner_char c : aligner c -> exists a, align_char c = Some a.
Proof. intros [a ->]. rewrite align_char_text. eauto. Qed.
Lemma align_char_aligner c a : align_char c = Some a -> aligner c.
Proof.
  unfold align_char. destruct (is_ascii c 0x3C) eqn:E; [intros _; exists SLeft; now apply is_ascii_iff|].
  destruct (is_ascii c 0x3E) eqn:E1; [intros _; exists SRight; now apply is_ascii_iff|].
  destruct (is_ascii c 0x5E) eqn:E2; [intros _; exists SCenter; now apply is_ascii_iff|]. discriminate.
Qed.
Lemma not_aligner c : ~ aligner c -> align_char c = None.
Proof. intros H. destruct (align_char c) eqn:E; [|reflexivity]. now apply align_char_aligner in E. Qed.

Lemma alignment_exact g a sp : text g -> text_char (f_fill sp) -> after_alignment g a ->
  exists sp', parse_alignment g sp = Ok (sp', a) /\ text_char (f_fill sp') /\ text a.
Proof.
  intros T F A. destruct A as [f a r H|a r H N|c r H N].
  - destruct (aligner_char a H) as [x E]. unfold parse_alignment. rewrite E. cbn [option_map].
    inversion T as [|? ? T1 T2]; subst. inversion T2; subst. eexists. split; [reflexivity|]. now split.
  - destruct (aligner_char a H) as [x E]. unfold parse_alignment. rewrite E. inversion T; subst.
    destruct r as [|b r]; [|rewrite (not_aligner b N); cbn [option_map]]; eexists; (split; [reflexivity|]); now split.
  - unfold parse_alignment. rewrite (not_aligner c H).
    destruct r as [|b r]; [|rewrite (not_aligner b N); cbn [option_map]]; eexists; (split; [reflexivity|]); now split.
Qed.
Lemma alignment_total g : g <> [] -> exists a, after_alignment g a.
Proof.
  intros NE. destruct g as [|c r]; [congruence|].
  assert (D : forall c, aligner c \/ ~ aligner c).
  { intros x. destruct (align_char x) eqn:E; [left; eapply align_char_aligner; eassumption|].
    right. intros H. apply aligner_char in H as [? H]. congruence. }
  destruct r as [|b r].
  - destruct (D c); eexists; [now apply aa_align|now apply aa_none].
  - destruct (D b); [eexists; now apply aa_fill|]. destruct (D c); eexists; [now apply aa_align|now apply aa_none].
Qed.

(** A number or none, as ParseWidth and ParsePrecision read it *)
Definition read_number (limit : N) (s : Str) : outcome (option N * Str) :=
  '(d, r) <- digit_run s ;;
  match d with [] => Ok (None, s) | _ => w <- sto_decimal limit (s_str s) ;; Ok (Some w, r) end.
Lemma parse_width_read s sp : parse_width s sp =
  ('(w, r) <- read_number size_max s ;; Ok (match w with Some w => set_width sp w | None => sp end, r)).
Proof.
  unfold parse_width, read_number. destruct (digit_run s) as [[d r]| | |]; try reflexivity. cbn [bind].
  destruct d; [reflexivity|]. destruct (sto_decimal size_max (s_str s)); reflexivity.
Qed.
Lemma parse_precision_read s sp : parse_precision (dot :: s) sp =
  ('(w, r) <- read_number 2147483647 s ;; Ok (match w with Some w => set_prec sp (Z.of_N w) | None => sp end, r)).
Proof.
  unfold parse_precision, read_number. change (is_ascii dot 46) with true. cbn [negb]. cbv iota.
  destruct (digit_run s) as [[d r]| | |]; try reflexivity. cbn [bind].
  destruct d; [reflexivity|]. destruct (sto_decimal 2147483647 (s_str s)); reflexivity.
Qed.
Lemma parse_precision_none s sp : (forall p, s <> dot :: p) -> parse_precision s sp = Ok (sp, s).
Proof.
  intros H. destruct s as [|c s]; [reflexivity|]. unfold parse_precision.
  rewrite is_ascii_false; [reflexivity|]. intros ->. now apply (H s).
Qed.
Lemma read_exact limit s r : text s -> after_number limit s r -> exists w, read_number limit s = Ok (w, r) /\ text r.
Proof.
  intros T A. unfold read_number. destruct A as [s N|s d r v D NE V L].
  - rewrite (digit_run_exact s [] s) by (trivial; now apply no_digits). cbn [bind]. eauto.
  - rewrite (digit_run_exact s d r) by trivial. cbn [bind]. destruct d as [|c d]; [congruence|].
    rewrite (number_sto limit s v) by trivial. destruct (N.ltb_spec limit v); [lia|]. cbn [bind].
    destruct D as (-> & _ & _). apply app_text in T as [_ T]. eauto.
Qed.
Lemma read_total limit s : text s -> (exists r, after_number limit s r) \/ (exists e, read_number limit s = Throw e).
Proof.
  intros T. destruct (digits_split s) as (d & r & D). destruct d as [|c d].
  - left. exists s. apply an_none. destruct D as (-> & _ & D). exact D.
  - unfold read_number. rewrite (digit_run_exact s (c :: d) r) by trivial. cbn [bind].
    destruct (number_total limit s T) as [[v V]|E].
    + rewrite (number_sto limit s v) by trivial. destruct (N.ltb_spec limit v); [right; cbn [bind]; eauto|].
      left. exists r. eapply an_some; [eassumption|discriminate|eassumption|trivial].
    + right. rewrite E. cbn [bind]. eauto.
Qed.

Lemma value_type_fill r sp : f_fill (parse_value_type r sp) = f_fill sp.
Proof. unfold parse_value_type. destruct r; [reflexivity|]. destruct (is_ascii l 115), (is_ascii l 100), (is_ascii l 102); reflexivity. Qed.
Lemma fill_width w sp : f_fill (match w with Some w => set_width sp w | None => sp end) = f_fill sp.
Proof. now destruct w. Qed.
Lemma fill_prec w sp : f_fill (match w with Some w => set_prec sp (Z.of_N w) | None => sp end) = f_fill sp.
Proof. now destruct w. Qed.
Lemma make_exact g : text g -> readable g -> exists sp, make_specifier (colon :: g) = Ok sp /\ text_char (f_fill sp).
Proof.
  intros T R. unfold make_specifier. change (is_ascii colon 58) with true. cbn [negb].
  destruct R as [g a w A W P|g a p r A W P]; destruct (alignment_exact g a fspec0 T ltac:(now apply ascii_text_char) A) as (sp & -> & F & Ta);
    cbn [bind]; rewrite parse_width_read; change size_max with 18446744073709551615.
  - destruct (read_exact _ a w Ta W) as (o & -> & Tw). cbn [bind]. rewrite parse_precision_none by trivial. cbn [bind].
    eexists. split; [reflexivity|]. now rewrite value_type_fill, fill_width.
  - destruct (read_exact _ a _ Ta W) as (o & -> & Tw). cbn [bind]. rewrite parse_precision_read. inversion Tw; subst.
    destruct (read_exact _ p r ltac:(trivial) P) as (o' & -> & Tr). cbn [bind].
    eexists. split; [reflexivity|]. now rewrite value_type_fill, fill_prec, fill_width.
Qed.
Lemma make_total g : g <> [] -> text g -> readable g \/ (exists e, make_specifier (colon :: g) = Throw e).
Proof.
  intros NE T. destruct (alignment_total g NE) as [a A].
  unfold make_specifier. change (is_ascii colon 58) with true. cbn [negb].
  destruct (alignment_exact g a fspec0 T ltac:(now apply ascii_text_char) A) as (sp & -> & F & Ta). cbn [bind].
  rewrite parse_width_read. change size_max with 18446744073709551615.
  destruct (read_total 18446744073709551615 a Ta) as [[w W]|[e ->]]; [|right; cbn [bind]; eauto].
  destruct (read_exact _ a w Ta W) as (o & -> & Tw). cbn [bind].
  assert (D : (exists p, w = dot :: p) \/ forall p, w <> dot :: p).
  { destruct w as [|c w]; [right; discriminate|]. destruct (list_eq_dec N.eq_dec c dot) as [->|n]; [left; eauto|right; congruence]. }
  destruct D as [[p ->]|D]; [|left; eapply rd_plain; eassumption].
  rewrite parse_precision_read. inversion Tw; subst.
  destruct (read_total 2147483647 p ltac:(trivial)) as [[r R]|[e ->]]; [|right; cbn [bind]; eauto].
  left. eapply rd_precision; eassumption.
Qed.

(** * Fields *)
Section Fields.
Variable args : list Str.
Hypothesis TA : Forall text args.
Hypothesis L64 : (Z.of_nat (length args) < 2 ^ 64)%Z.
Let n := length args.

Lemma arg_get i : (i < n)%nat -> exists a, vec_get args i = Ok a /\ text a.
Proof.
  intros I. destruct (nth_error args i) as [a|] eqn:E.
  - exists a. split; [now apply vec_get_some|]. eapply nth_error_text; eassumption.
  - apply nth_error_None in E. unfold n in I. lia.
Qed.
Lemma arg_none i : (n <= i)%nat -> vec_get args i = UB.
Proof. intros I. unfold vec_get. now rewrite (proj2 (nth_error_None args i)) by exact I. Qed.

Definition auto_piece (k : nat) : outcome (list N * nat) :=
  match length args with
  | 1%nat => a <- vec_get args 0 ;; Ok (s_str a, k)
  | O => Throw EFormatError
  | _ => a <- vec_get args k ;; Ok (s_str a, S k)
  end.
Lemma field_plain f k : text f -> no_digit f -> (forall g, f <> colon :: g) -> format_field args f k = auto_piece k.
Proof.
  intros T N C. unfold format_field. rewrite (digit_run_exact f [] f) by (trivial; now apply no_digits).
  cbn [bind]. destruct f as [|c f]; [reflexivity|].
  rewrite is_ascii_false; [reflexivity|]. intros ->. now apply (C f).
Qed.
Lemma field_colon g k : text g -> format_field args (colon :: g) k =
  (parsed <- make_specifier (colon :: g) ;; a <- vec_get args 0 ;; r <- process a parsed ;; Ok (s_str r, k)).
Proof.
  intros T. unfold format_field.
  rewrite (digit_run_exact (colon :: g) [] (colon :: g)); [|constructor; [now apply ascii_text_char|trivial]|apply no_digits; exact digits_colon].
  reflexivity.
Qed.
Lemma field_index f d r k : text f -> digits_then f d r -> d <> [] -> format_field args f k =
  (arg_index <- stoul_or_format_error (s_str d) ;;
   if wrap64 (Z.of_nat (length args) - 1) <? arg_index then Throw EFormatError
   else match r with
        | [] => a <- vec_get_N args arg_index ;; Ok (s_str a, k)
        | c :: _ => if is_ascii c 0x3A then parsed <- make_specifier r ;; a <- vec_get args k ;; r <- process a parsed ;; Ok (s_str r, k)
                    else Ok ([], k)
        end).
Proof.
  intros T D NE. unfold format_field. rewrite (digit_run_exact f d r) by trivial. cbn [bind].
  destruct d; [congruence|]. reflexivity.
Qed.
Lemma index_test v : v <= 18446744073709551615 ->
  ((wrap64 (Z.of_nat n - 1) <? v) = false <-> (v < N.of_nat n \/ n = 0%nat)).
Proof.
  intros V. destruct n as [|m] eqn:E.
  - change (wrap64 (Z.of_nat 0 - 1)) with 18446744073709551615. rewrite N.ltb_ge. split; [now right|intros _; exact V].
  - rewrite wrap64_small by (unfold n in E; lia). rewrite N.ltb_ge. split; [left; lia|intros [H|H]; lia].
Qed.
Lemma index_exact d : text d -> index_accepted n d -> exists v, number_at d v /\ stoul_or_format_error (s_str d) = Ok v /\
  (wrap64 (Z.of_nat (length args) - 1) <? v) = false /\ (v < N.of_nat n \/ n = 0%nat).
Proof.
  intros T (v & V & H). assert (B : v <= 18446744073709551615) by (unfold n in *; lia).
  exists v. split; [trivial|]. unfold stoul_or_format_error. rewrite (number_sto size_max d v) by trivial.
  change size_max with 18446744073709551615. destruct (N.ltb_spec 18446744073709551615 v); [lia|].
  split; [reflexivity|]. assert (O : v < N.of_nat n \/ n = 0%nat) by tauto.
  split; [now apply index_test|trivial].
Qed.
Lemma index_total d : text d -> index_accepted n d \/
  (exists e, forall X (K : N -> outcome X), (i <- stoul_or_format_error (s_str d) ;; if wrap64 (Z.of_nat (length args) - 1) <? i then Throw EFormatError else K i) = Throw e).
Proof.
  intros T. unfold stoul_or_format_error. destruct (number_total size_max d T) as [[v V]|E].
  - rewrite (number_sto size_max d v) by trivial. change size_max with 18446744073709551615.
    destruct (N.ltb_spec 18446744073709551615 v) as [B|B]; [right; exists EFormatError; reflexivity|].
    destruct (wrap64 (Z.of_nat (length args) - 1) <? v) eqn:W.
    + right. exists EFormatError. intros X K. cbn [bind]. now rewrite W.
    + left. exists v. split; [trivial|]. apply index_test in W; [|trivial]. destruct W; [now left|right; now split].
  - rewrite E. right. exists EInvalidArgument. reflexivity.
Qed.

Lemma text_parts f d r : text f -> digits_then f d r -> text d /\ text r.
Proof. intros T (-> & _). now apply app_text. Qed.

Lemma passes_ok k f k' : text f -> passes n k f k' -> exists us, format_field args f k = Ok (concat us, k') /\ text us.
Proof.
  intros T P. destruct P as [f E N C|f N2 K N C|g N1 R|d v D NE V L|f d c g D NE C I|f d g D NE I R K].
  - rewrite field_plain by trivial. unfold auto_piece. fold n. rewrite E.
    destruct (arg_get 0 ltac:(lia)) as (a & -> & Ta). cbn [bind]. exists a. now rewrite s_str_text.
  - rewrite field_plain by trivial. unfold auto_piece. fold n.
    destruct (arg_get k K) as (a & -> & Ta). cbn [bind]. exists a. rewrite s_str_text by trivial.
    destruct n as [|[|m]]; [lia|lia|]. now split.
  - inversion T; subst. rewrite field_colon by trivial. destruct (make_exact g ltac:(trivial) R) as (sp & -> & F). cbn [bind].
    destruct (arg_get 0 ltac:(lia)) as (a & -> & Ta). cbn [bind].
    destruct (process_safe a sp Ta F) as (u & -> & U). cbn [bind]. exists u. now rewrite s_str_text.
  - rewrite (field_index d d []) by trivial.
    destruct (index_exact d T) as (v' & V' & -> & W & _); [exists v; auto|]. cbn [bind]. rewrite W.
    assert (E : v' = v). { pose proof (number_sto v' d v' T V') as E1. rewrite (number_sto v' d v T V) in E1.
      rewrite N.ltb_irrefl in E1. destruct (v' <? v); [discriminate|]. now injection E1. }
    subst v'. unfold vec_get_N. fold n. destruct (N.leb_spec (N.of_nat n) v); [lia|].
    destruct (arg_get (N.to_nat v) ltac:(lia)) as (a & -> & Ta). cbn [bind]. exists a. now rewrite s_str_text.
  - rewrite (field_index f d (c :: g)) by trivial. destruct (text_parts _ _ _ T D) as [Td _].
    destruct (index_exact d Td I) as (v & V & -> & W & _). cbn [bind]. rewrite W.
    rewrite is_ascii_false by trivial. exists []. split; [reflexivity|constructor].
  - rewrite (field_index f d (colon :: g)) by trivial. destruct (text_parts _ _ _ T D) as [Td Tr]. inversion Tr; subst.
    destruct (index_exact d Td I) as (v & V & -> & W & _). cbn [bind]. rewrite W.
    change (is_ascii colon 58) with true. cbv iota. destruct (make_exact g ltac:(trivial) R) as (sp & -> & F). cbn [bind].
    destruct (arg_get k K) as (a & -> & Ta). cbn [bind].
    destruct (process_safe a sp Ta F) as (u & -> & U). cbn [bind]. exists u. now rewrite s_str_text.
Qed.

Lemma undefined_ub k f : text f -> undefined_field n k f -> format_field args f k = UB.
Proof.
  intros T P. destruct P as [|g E R|f N2 K N C|d v E D NE V L|f d D NE I|f d g D NE I R K].
  - rewrite field_colon by constructor. reflexivity.
  - inversion T; subst. rewrite field_colon by trivial. destruct (make_exact g ltac:(trivial) R) as (sp & -> & F). cbn [bind].
    now rewrite arg_none by lia.
  - rewrite field_plain by trivial. unfold auto_piece. fold n. rewrite (arg_none k) by trivial.
    destruct n as [|[|m]]; [lia|lia|reflexivity].
  - rewrite (field_index d d []) by trivial.
    destruct (index_exact d T) as (v' & V' & -> & W & _); [exists v; split; [trivial|right; now split]|]. cbn [bind]. rewrite W.
    unfold vec_get_N. fold n. rewrite E. cbn. destruct v'; reflexivity.
  - rewrite (field_index f d [colon]) by trivial. destruct (text_parts _ _ _ T D) as [Td _].
    destruct (index_exact d Td I) as (v & V & -> & W & _). cbn [bind]. rewrite W. reflexivity.
  - rewrite (field_index f d (colon :: g)) by trivial. destruct (text_parts _ _ _ T D) as [Td Tr]. inversion Tr; subst.
    destruct (index_exact d Td I) as (v & V & -> & W & _). cbn [bind]. rewrite W.
    change (is_ascii colon 58) with true. cbv iota. destruct (make_exact g ltac:(trivial) R) as (sp & -> & F). cbn [bind].
    now rewrite arg_none.
Qed.

Lemma field_total k f : text f ->
  (exists k', passes n k f k') \/ undefined_field n k f \/ (exists e, format_field args f k = Throw e).
Proof.
  intros T. destruct (digits_split f) as (d & r & D). destruct d as [|c0 d0].
  - assert (N : no_digit f) by (destruct D as (-> & _ & D); exact D).
    assert (E : (exists g, f = colon :: g) \/ forall g, f <> colon :: g).
    { destruct f as [|c f]; [right; discriminate|]. destruct (list_eq_dec N.eq_dec c colon) as [->|x]; [left; eauto|right; congruence]. }
    destruct E as [[g ->]|E].
    + destruct g as [|x g]; [right; left; constructor|]. inversion T; subst.
      destruct (make_total (x :: g) ltac:(discriminate) ltac:(trivial)) as [R|[e R]].
      * destruct (Nat.eq_dec n 0) as [Z|Z]; [right; left; now apply uf_spec|left; eexists; apply ps_spec; [lia|trivial]].
      * right; right. rewrite field_colon by trivial. rewrite R. cbn [bind]. eauto.
    + destruct (Nat.eq_dec n 0) as [Z|Z].
      { right; right. rewrite field_plain by trivial. unfold auto_piece. fold n. rewrite Z. eauto. }
      destruct (Nat.eq_dec n 1) as [Z1|Z1]; [left; eexists; now apply ps_only|].
      destruct (le_lt_dec n k) as [K|K]; [right; left; apply uf_next; trivial; lia|left; eexists; apply ps_next; trivial; lia].
  - set (d := c0 :: d0) in *. assert (NE : d <> []) by discriminate. destruct (text_parts _ _ _ T D) as [Td Tr].
    destruct (index_total d Td) as [I|[e E]].
    2: { right; right. rewrite (field_index f d r) by trivial. exists e. apply (E _ (fun i => _)). }
    destruct r as [|c r].
    + assert (F : f = d) by (destruct D as (F & _); now rewrite app_nil_r in F). subst f.
      destruct I as (v & V & [I|[Z I]]); [left; eexists; eapply ps_pos; eassumption|right; left; eapply uf_pos; eassumption].
    + destruct (list_eq_dec N.eq_dec c colon) as [->|C]; [|left; eexists; eapply ps_junk; eassumption].
      destruct r as [|x r]; [right; left; eapply uf_pos_empty; eassumption|]. inversion Tr; subst.
      destruct (make_total (x :: r) ltac:(discriminate) ltac:(trivial)) as [R|[e R]].
      * destruct (le_lt_dec n k) as [K|K]; [right; left; eapply uf_pos_spec; eassumption|left; eexists; eapply ps_pos_spec; eassumption].
      * right; right. rewrite (field_index f d (colon :: x :: r)) by trivial.
        destruct (index_exact d Td I) as (v & V & -> & W & _). cbn [bind]. rewrite W.
        change (is_ascii colon 58) with true. cbv iota. rewrite R. cbn [bind]. eauto.
Qed.

(** * Templates *)
Lemma text_field f r : text (lbrace :: f ++ rbrace :: r) -> text f /\ text r.
Proof.
  intros T. inversion T as [|? ? _ T2]; subst. apply app_text in T2 as [Tf T3]. now inversion T3.
Qed.
Lemma completes_ok k t : completes n k t -> text t -> exists us, fmt args t k = Ok (concat us) /\ text us.
Proof.
  induction 1 as [k|k c r Hl Hr _ IH|k r _ IH|k r _ IH|k k' f r [D I] P _ IH]; intros T.
  - exists []. split; [reflexivity|constructor].
  - inversion T; subst. destruct IH as (us & E & U); [trivial|]. rewrite fmt_plain, E by trivial. cbn [bind].
    exists (c :: us). rewrite cstr_id by (now apply text_char_no_nul). split; [reflexivity|now constructor].
  - inversion T as [|? ? T1 T2]; subst. inversion T2; subst. destruct IH as (us & E & U); [trivial|]. rewrite fmt_ll, E. cbn [bind].
    exists (lbrace :: us). split; [reflexivity|now constructor].
  - inversion T as [|? ? T1 T2]; subst. inversion T2; subst. destruct IH as (us & E & U); [trivial|]. rewrite fmt_rr, E. cbn [bind].
    exists (rbrace :: us). split; [reflexivity|now constructor].
  - apply text_field in T as [Tf Tr]. destruct IH as (us & E & U); [trivial|].
    destruct (passes_ok k f k' Tf P) as (vs & F & V). rewrite fmt_field, F by trivial. cbn [bind]. rewrite E. cbn [bind].
    exists (vs ++ us). rewrite concat_app. split; [reflexivity|now apply Forall_app].
Qed.
Lemma undefined_fmt k t : undefined n k t -> text t -> fmt args t k = UB.
Proof.
  induction 1 as [k c r Hl Hr _ IH|k r _ IH|k r _ IH|k k' f r [D I] P _ IH|k f r [D I] P]; intros T.
  - inversion T; subst. rewrite fmt_plain, IH by trivial. reflexivity.
  - inversion T as [|? ? T1 T2]; subst. inversion T2; subst. rewrite fmt_ll, IH by trivial. reflexivity.
  - inversion T as [|? ? T1 T2]; subst. inversion T2; subst. rewrite fmt_rr, IH by trivial. reflexivity.
  - apply text_field in T as [Tf Tr]. destruct (passes_ok k f k' Tf P) as (vs & F & V).
    rewrite fmt_field, F by trivial. cbn [bind]. now rewrite IH.
  - apply text_field in T as [Tf Tr]. rewrite fmt_field by trivial. now rewrite (undefined_ub k f Tf P).
Qed.
Lemma template_total : forall m t k, (length t <= m)%nat -> text t ->
  completes n k t \/ undefined n k t \/ (exists e, fmt args t k = Throw e).
Proof.
  induction m as [|m IH]; intros t k L T; [destruct t; [left; constructor|cbn in L; lia]|].
  destruct (template_cases t) as [->|[(c & r & -> & Hl & Hr)|[(r & ->)|[(r & ->)|[(r & -> & D)|
    [(r & -> & D & I)|(f & r & -> & D & I)]]]]]].
  - left. constructor.
  - inversion T; subst. destruct (IH r k) as [H|[H|[e H]]]; [cbn in L; lia|trivial|left; now constructor|right; left; now constructor|].
    right; right. rewrite fmt_plain, H by trivial. cbn [bind]. eauto.
  - inversion T as [|? ? T1 T2]; subst. inversion T2; subst.
    destruct (IH r k) as [H|[H|[e H]]]; [cbn in L; lia|trivial|left; now constructor|right; left; now constructor|].
    right; right. rewrite fmt_ll, H. cbn [bind]. eauto.
  - inversion T as [|? ? T1 T2]; subst. inversion T2; subst.
    destruct (IH r k) as [H|[H|[e H]]]; [cbn in L; lia|trivial|left; now constructor|right; left; now constructor|].
    right; right. rewrite fmt_rr, H. cbn [bind]. eauto.
  - right; right. rewrite fmt_lone_r by trivial. eauto.
  - right; right. rewrite fmt_open by trivial. eauto.
  - destruct (text_field _ _ T) as [Tf Tr].
    destruct (field_total k f Tf) as [[k' P]|[P|[e P]]].
    + destruct (IH r k') as [H|[H|[e H]]]; [cbn in L; rewrite app_length in L; cbn in L; lia|trivial| | |].
      * left. eapply cm_pass; [now split|eassumption|trivial].
      * right; left. eapply un_pass; [now split|eassumption|trivial].
      * right; right. destruct (passes_ok k f k' Tf P) as (vs & F & V). rewrite fmt_field, F by trivial. cbn [bind].
        rewrite H. cbn [bind]. eauto.
    + right; left. apply un_here; [now split|trivial].
    + right; right. rewrite fmt_field, P by trivial. cbn [bind]. eauto.
Qed.

Lemma format_undefined_iff t : text t -> (format t args = UB <-> undefined n 0 t).
Proof.
  intros T. rewrite format_fmt. split.
  - intros H. destruct (template_total _ t 0%nat (le_n _) T) as [C|[U|[e E]]]; [|trivial|rewrite E in H; discriminate].
    destruct (completes_ok _ _ C T) as (us & E & U). rewrite E in H. cbn [bind] in H.
    rewrite string_of_std_text in H by trivial. discriminate.
  - intros U. now rewrite (undefined_fmt _ _ U T).
Qed.
Lemma format_completes_iff t : text t -> ((exists r, format t args = Ok r) <-> completes n 0 t).
Proof.
  intros T. rewrite format_fmt. split.
  - intros [r H]. destruct (template_total _ t 0%nat (le_n _) T) as [C|[U|[e E]]]; [trivial| |rewrite E in H; discriminate].
    rewrite (undefined_fmt _ _ U T) in H. discriminate.
  - intros C. destruct (completes_ok _ _ C T) as (us & -> & U). cbn [bind]. exists us. now apply string_of_std_text.
Qed.
Lemma format_throws_iff t : text t -> ((exists e, format t args = Throw e) <-> ~ completes n 0 t /\ ~ undefined n 0 t).
Proof.
  intros T. split.
  - intros [e H]. split; intros C.
    + apply format_completes_iff in C as [r C]; [|trivial]. congruence.
    + apply format_undefined_iff in C; [|trivial]. congruence.
  - intros [C U]. rewrite format_fmt. destruct (template_total _ t 0%nat (le_n _) T) as [H|[H|[e ->]]]; [contradiction|contradiction|cbn [bind]; eauto].
Qed.
End Fields.
