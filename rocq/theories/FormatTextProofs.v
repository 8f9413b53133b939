(** Proofs: what Format writes, for every template. *)
From Coq Require Import List NArith ZArith Bool Arith Lia ZifyBool ZifyNat ZifyN.
From Verif Require Import Outcome CharModel CharUtil StrModel StrUtil Format SpecUtf8 SpecChar SpecStr SpecFormat
  CharProofs CharUtilProofs StrProofs StrUtilProofs FormatProofs SpecFormatUb FormatUbProofs SpecFormatText.
Import ListNotations.
Local Open Scope N_scope.

(** * Reading a specification *)
Lemma alignment_read_exact g f a r : alignment_read g f a r ->
  parse_alignment g fspec0 = Ok (set_align (set_fill fspec0 f) (to_align a), r).
Proof.
  intros A. destruct A as [f a r|a r N|c r H N]; unfold parse_alignment.
  - rewrite align_char_text. reflexivity.
  - rewrite align_char_text. destruct r as [|b r]; [reflexivity|]. rewrite (not_aligner b N). reflexivity.
  - rewrite (not_aligner c H). destruct r as [|b r]; [reflexivity|]. rewrite (not_aligner b N). reflexivity.
Qed.
Lemma alignment_read_text g f a r : text g -> alignment_read g f a r -> text_char f /\ text r.
Proof.
  intros T A. destruct A as [f a r|a r N|c r H N].
  - inversion T as [|? ? T1 T2]; subst. inversion T2; subst. now split.
  - inversion T; subst. split; [now apply ascii_text_char|trivial].
  - split; [now apply ascii_text_char|trivial].
Qed.
Lemma number_read_exact limit s v r : text s -> number_read limit s v r ->
  exists w, read_number limit s = Ok (w, r) /\ text r /\ (w = Some v \/ w = None /\ v = 0).
Proof.
  intros T A. unfold read_number. destruct A as [s N|s d r v D NE V L].
  - rewrite (digit_run_exact s [] s) by (trivial; now apply no_digits). cbn [bind]. exists None. auto.
  - rewrite (digit_run_exact s d r) by trivial. cbn [bind]. destruct d as [|c d]; [congruence|].
    rewrite (number_sto limit s v) by trivial. destruct (N.ltb_spec limit v); [lia|]. cbn [bind].
    destruct D as (-> & _ & _). apply app_text in T as [_ T]. exists (Some v). auto.
Qed.
Lemma type_read_exact s t sp : f_type sp = VString -> type_read s t ->
  parse_value_type s sp = set_type sp (to_type t).
Proof.
  intros S R. assert (E : set_type sp VString = sp) by (destruct sp; cbn in *; now subst).
  destruct R as [t r|s H].
  - destruct t; reflexivity.
  - destruct s as [|c s]; [now rewrite <- E at 1|]. unfold parse_value_type.
    rewrite is_ascii_false by (intros ->; now apply (H TS s)).
    rewrite is_ascii_false by (intros ->; now apply (H TD s)).
    rewrite is_ascii_false by (intros ->; now apply (H TF s)). now rewrite <- E at 1.
Qed.
Lemma spec_read_exact g f a w p t : text g -> spec_read g f a w p t -> text_char f /\
  exists sp, make_specifier (colon :: g) = Ok sp /\ f_fill sp = f /\ f_align sp = to_align a /\ f_width sp = w /\
    f_type sp = to_type t /\ Z.max 0 (f_prec sp) = Z.of_N p.
Proof.
  intros T R. unfold make_specifier. change (is_ascii colon 58) with true. cbn [negb].
  destruct R as [g f a s1 w s2 t A W P Y|g f a s1 w s2 p s3 t A W P Y];
    destruct (alignment_read_text _ _ _ _ T A) as [F T1]; (split; [exact F|]);
    rewrite (alignment_read_exact _ _ _ _ A); cbn [bind]; rewrite parse_width_read; change size_max with 18446744073709551615;
    destruct (number_read_exact _ _ _ _ T1 W) as (o & -> & T2 & O); cbn [bind].
  - rewrite parse_precision_none by trivial. cbn [bind]. eexists. split; [reflexivity|].
    rewrite (type_read_exact _ t) by (trivial; now destruct o). destruct O as [-> |[-> ->]]; repeat split.
  - rewrite parse_precision_read. inversion T2; subst.
    destruct (number_read_exact _ _ _ _ ltac:(eassumption) P) as (o' & -> & T3 & O'). cbn [bind]. eexists. split; [reflexivity|].
    rewrite (type_read_exact _ t) by (trivial; now destruct o, o').
    destruct O as [-> |[-> ->]], O' as [-> |[-> ->]]; repeat split; cbn; lia.
Qed.
Lemma spec_read_total g : text g -> readable g -> exists f a w p t, spec_read g f a w p t.
Proof.
  assert (A : forall g s, after_alignment g s -> exists f a, alignment_read g f a s).
  { intros x s H. destruct H as [f a r [b ->]|a r [b ->] N|c r H N]; eexists _, _; [apply ar_fill|now apply ar_align|now apply ar_none]. }
  assert (W : forall l s r, after_number l s r -> exists v, number_read l s v r).
  { intros l s r H. destruct H as [s N|s d r v D NE V L]; eexists; [now apply nr_none|eapply nr_some; eassumption]. }
  assert (Y : forall s, exists t, type_read s t).
  { intros s. destruct s as [|c s]; [exists TS; apply tr_none; intros [] ?; discriminate|].
    destruct (list_eq_dec N.eq_dec c (type_text TS)) as [->|N1]; [eexists; apply tr_type|].
    destruct (list_eq_dec N.eq_dec c (type_text TD)) as [->|N2]; [eexists; apply tr_type|].
    destruct (list_eq_dec N.eq_dec c (type_text TF)) as [->|N3]; [eexists; apply tr_type|].
    exists TS. apply tr_none. intros [] r E; injection E as -> ->; contradiction. }
  intros T R. destruct R as [g a w HA HW P|g a p r HA HW HP]; destruct (A _ _ HA) as (f & al & HA'); destruct (W _ _ _ HW) as (v & HW').
  - destruct (Y w) as [t HY]. eexists _, _, _, _, _. eapply sr_plain; eassumption.
  - destruct (W _ _ _ HP) as (v' & HP'). destruct (Y r) as [t HY]. eexists _, _, _, _, _. eapply sr_precision; eassumption.
Qed.
Lemma spec_read_readable g f a w p t : spec_read g f a w p t -> readable g.
Proof.
  assert (A : forall g f a s, alignment_read g f a s -> after_alignment g s).
  { intros x f' a' s H. destruct H as [f' a' r|a' r N|c r H N]; [apply aa_fill; now eexists|apply aa_align; [now eexists|trivial]|now apply aa_none]. }
  assert (W : forall l s v r, number_read l s v r -> after_number l s r).
  { intros l s v r H. destruct H as [s N|s d r v D NE V L]; [now apply an_none|eapply an_some; eassumption]. }
  intros R. destruct R as [g f a s1 w s2 t HA HW P Y|g f a s1 w s2 p s3 t HA HW P Y].
  - eapply rd_plain; [eapply A; eassumption|eapply W; eassumption|trivial].
  - eapply rd_precision; [eapply A; eassumption|eapply W; eassumption|eapply W; eassumption].
Qed.

(** * Decimals *)
Lemma copy_decimals_exact s ds r : text s -> digits_then s ds r -> forall p,
  copy_decimals p s = Ok (concat (firstn p ds), Nat.min p (length ds)).
Proof.
  intros T (-> & D & R) p. revert p. induction D as [|c ds Hc D IH]; intros p.
  - cbn [app] in *. destruct p; [reflexivity|]. destruct r as [|c r]; [reflexivity|]. inversion T; subst. cbn [copy_decimals].
    rewrite gcp_value by trivial. cbn [bind]. now rewrite digit_false.
  - cbn [app] in *. destruct p; [reflexivity|]. inversion T; subst. cbn [copy_decimals].
    rewrite gcp_value by trivial. cbn [bind]. rewrite digit_true by trivial. rewrite IH by trivial. cbn [bind].
    rewrite cstr_id by (now apply text_char_no_nul). reflexivity.
Qed.
Lemma floating_exact v u p q : text v -> Z.max 0 q = Z.of_nat p -> decimals p v u -> floating_text v q = Ok (concat u) /\ text u.
Proof.
  intros V Q H. unfold floating_text. change [[0x2E]] with [dot]. destruct H as [ip s ds r NI D|v NI].
  - rewrite s_find_single by trivial. cbn [bind]. rewrite (proj1 (s_substring_spec _ _ _)) by lia. cbn [bind].
    assert (S1 : ip ++ dot :: s = (ip ++ [dot]) ++ s) by now rewrite <- app_assoc.
    replace (firstn _ _) with (ip ++ [dot]).
    2: { rewrite S1. change (skipn (N.to_nat 0) ((ip ++ [dot]) ++ s)) with ((ip ++ [dot]) ++ s).
         replace (N.to_nat _) with (length (ip ++ [dot])) by (rewrite !app_length; cbn; lia).
         now rewrite firstn_app_l. }
    replace (skipn (S (length ip)) (ip ++ dot :: s)) with s.
    2: { rewrite S1. replace (S (length ip)) with (length (ip ++ [dot])) by (rewrite !app_length; cbn; lia).
         now rewrite skipn_app_l. }
    apply Forall_app in V as [V1 V2]. inversion V2 as [|? ? Vd Vs]; subst.
    assert (TU : text (ip ++ dot :: firstn p ds ++ repeat zero (p - length ds))).
    { apply Forall_app; split; [trivial|]. constructor; [trivial|]. apply Forall_app; split; [|apply zeros_text].
      apply firstn_text. destruct D as (-> & _). now apply app_text in Vs. }
    split; [|exact TU]. rewrite s_str_app, (s_str_text ip) by trivial.
    destruct (Z.ltb_spec 0 q) as [G|G].
    + replace (Z.to_nat q) with p by lia. rewrite (copy_decimals_exact s ds r) by trivial. cbn [bind]. f_equal.
      rewrite !concat_app. cbn [concat]. rewrite concat_app, concat_zeros.
      replace (p - Nat.min p (length ds))%nat with (p - length ds)%nat by lia. rewrite <- app_assoc. reflexivity.
    + replace p with 0%nat by lia. cbn [firstn Nat.sub repeat app]. now rewrite concat_app.
  - rewrite s_find_absent by trivial. cbn [bind]. rewrite s_str_text, concat_app by trivial.
    destruct (Z.ltb_spec 0 q) as [G|G].
    + destruct p as [|p]; [lia|]. replace (Z.to_nat q) with (S p) by lia.
      split; [cbn [concat]; rewrite concat_zeros; reflexivity|].
      apply Forall_app; split; [trivial|]. constructor; [now apply ascii_text_char|apply zeros_text].
    + replace p with 0%nat by lia. split; [reflexivity|]. apply Forall_app; split; [trivial|constructor].
Qed.
Lemma decimals_total p v : exists u, decimals p v u.
Proof.
  destruct (in_dec (list_eq_dec N.eq_dec) dot v) as [I|I].
  - destruct (first_occurrence _ _ I) as (a & b & -> & Ha). destruct (digits_split b) as (d & r & D). eexists. eapply dc_dot; eassumption.
  - eexists. now apply dc_whole.
Qed.
Lemma shown_exact g v u : text g -> text v -> shown g v u ->
  exists sp, make_specifier (colon :: g) = Ok sp /\ process v sp = Ok u /\ text u.
Proof.
  intros T V S. destruct S as [f a w p t R NT|f a w p u R D];
    destruct (spec_read_exact _ _ _ _ _ _ T R) as (F & sp & E & EF & EA & EW & ET & EP); exists sp; (split; [exact E|]);
    unfold process; rewrite ET.
  - rewrite <- EF, <- EW. rewrite (process_alignment_pad _ _ a) by trivial.
    split; [destruct t; [reflexivity|reflexivity|congruence]|]. apply pad_text; [now rewrite EF|trivial].
  - cbn [to_type]. destruct (floating_exact v u (N.to_nat p) (f_prec sp)) as [-> TU]; [trivial|lia|trivial|]. cbn [bind].
    rewrite string_of_std_text by trivial. cbn [bind]. rewrite <- EF, <- EW. rewrite (process_alignment_pad _ _ a) by trivial.
    split; [reflexivity|]. apply pad_text; [now rewrite EF|trivial].
Qed.
Lemma shown_total g v : text g -> readable g -> exists u, shown g v u.
Proof.
  intros T R. destruct (spec_read_total g T R) as (f & a & w & p & t & S). destruct t.
  1, 2: eexists; eapply sh_text; [eassumption|discriminate].
  destruct (decimals_total (N.to_nat p) v) as [u D]. eexists. eapply sh_float; eassumption.
Qed.
Lemma shown_readable g v u : shown g v u -> readable g.
Proof. intros [? ? ? ? ? R _|? ? ? ? ? R _]; eapply spec_read_readable; eassumption. Qed.

(** * Fields and templates *)
Section Fields.
Variable args : list Str.
Hypothesis TA : Forall text args.
Hypothesis L64 : (Z.of_nat (length args) < 2 ^ 64)%Z.

Lemma writes_exact k f p k' : text f -> writes args k f p k' -> format_field args f k = Ok (concat p, k') /\ text p.
Proof.
  intros T W. destruct W as [f a E N C|f a N2 K N C|g a u A S|d v a D NE V A|f d c g D NE C I|f d g a u D NE I A S].
  - rewrite field_plain by trivial. unfold auto_piece. subst args. inversion TA; subst. cbn. now rewrite s_str_text.
  - rewrite field_plain by trivial. unfold auto_piece. rewrite (vec_get_some _ _ _ K). cbn [bind].
    assert (text a) by (eapply nth_error_text; eassumption). rewrite s_str_text by trivial.
    destruct (length args) as [|[|m]]; [lia|lia|]. now split.
  - inversion T; subst. rewrite field_colon by trivial. assert (text a) by (eapply nth_error_text; eassumption).
    destruct (shown_exact g a u) as (sp & -> & P & TU); trivial. cbn [bind]. rewrite (vec_get_some _ _ _ A). cbn [bind].
    rewrite P. cbn [bind]. now rewrite s_str_text.
  - assert (L : (N.to_nat v < length args)%nat) by (apply nth_error_Some; congruence).
    rewrite (field_index args d d []) by trivial.
    unfold stoul_or_format_error. rewrite (number_sto size_max d v) by trivial.
    change size_max with 18446744073709551615. destruct (N.ltb_spec 18446744073709551615 v); [lia|]. cbn [bind].
    rewrite (proj2 (index_test args L64 v ltac:(lia))) by (left; lia).
    unfold vec_get_N. destruct (N.leb_spec (N.of_nat (length args)) v); [lia|]. rewrite (vec_get_some _ _ _ A). cbn [bind].
    assert (text a) by (eapply nth_error_text; eassumption). now rewrite s_str_text.
  - rewrite (field_index args f d (c :: g)) by trivial. destruct (text_parts _ _ _ T D) as [Td _].
    destruct (index_exact args L64 d Td I) as (v & V & -> & W & _). cbn [bind]. rewrite W.
    rewrite is_ascii_false by trivial. split; [reflexivity|constructor].
  - rewrite (field_index args f d (colon :: g)) by trivial. destruct (text_parts _ _ _ T D) as [Td Tr]. inversion Tr; subst.
    destruct (index_exact args L64 d Td I) as (v & V & -> & W & _). cbn [bind]. rewrite W.
    change (is_ascii colon 58) with true. cbv iota. assert (text a) by (eapply nth_error_text; eassumption).
    destruct (shown_exact g a u) as (sp & -> & P & TU); trivial. cbn [bind]. rewrite (vec_get_some _ _ _ A). cbn [bind].
    rewrite P. cbn [bind]. now rewrite s_str_text.
Qed.
Lemma arg_some i : (i < length args)%nat -> exists a, nth_error args i = Some a.
Proof. intros I. destruct (nth_error args i) eqn:E; [eauto|]. apply nth_error_None in E. lia. Qed.
Lemma passes_writes k f k' : text f -> passes (length args) k f k' -> exists p, writes args k f p k'.
Proof.
  intros T P. destruct P as [f E N C|f N2 K N C|g N1 R|d v D NE V L|f d c g D NE C I|f d g D NE I R K].
  - destruct args as [|a [|b l]] eqn:EA; try discriminate. exists a. now apply wr_only.
  - destruct (arg_some k K) as [a A]. exists a. now apply wr_next.
  - destruct (arg_some 0) as [a A]; [lia|]. inversion T; subst. destruct (shown_total g a) as [u S]; trivial.
    exists u. eapply wr_spec; eassumption.
  - destruct (arg_some (N.to_nat v)) as [a A]; [lia|]. exists a. eapply wr_pos; eassumption.
  - eexists. eapply wr_junk; eassumption.
  - destruct (arg_some k K) as [a A]. destruct (text_parts _ _ _ T D) as [Td Tr]. inversion Tr; subst.
    destruct (shown_total g a) as [u S]; trivial. exists u. eapply wr_pos_spec; eassumption.
Qed.
Lemma renders_exact k t u : renders args k t u -> text t -> fmt args t k = Ok (concat u) /\ text u.
Proof.
  induction 1 as [k|k c r u Hl Hr _ IH|k r u _ IH|k r u _ IH|k k' f p r u [D I] P _ IH]; intros T.
  - split; [reflexivity|constructor].
  - inversion T; subst. destruct IH as [E U]; [trivial|]. rewrite fmt_plain, E by trivial. cbn [bind].
    rewrite cstr_id by (now apply text_char_no_nul). split; [reflexivity|now constructor].
  - inversion T as [|? ? T1 T2]; subst. inversion T2; subst. destruct IH as [E U]; [trivial|]. rewrite fmt_ll, E. cbn [bind].
    split; [reflexivity|now constructor].
  - inversion T as [|? ? T1 T2]; subst. inversion T2; subst. destruct IH as [E U]; [trivial|]. rewrite fmt_rr, E. cbn [bind].
    split; [reflexivity|now constructor].
  - apply text_field in T as [Tf Tr]. destruct IH as [E U]; [trivial|].
    destruct (writes_exact k f p k' Tf P) as [F V]. rewrite fmt_field, F by trivial. cbn [bind]. rewrite E. cbn [bind].
    rewrite concat_app. split; [reflexivity|now apply Forall_app].
Qed.
Lemma completes_renders k t : completes (length args) k t -> text t -> exists u, renders args k t u.
Proof.
  induction 1 as [k|k c r Hl Hr _ IH|k r _ IH|k r _ IH|k k' f r F P _ IH]; intros T.
  - eexists. constructor.
  - inversion T; subst. destruct IH as [u IH]; [trivial|]. eexists. apply re_char; eassumption.
  - inversion T as [|? ? T1 T2]; subst. inversion T2; subst. destruct IH as [u IH]; [trivial|]. eexists. apply re_open; eassumption.
  - inversion T as [|? ? T1 T2]; subst. inversion T2; subst. destruct IH as [u IH]; [trivial|]. eexists. apply re_close; eassumption.
  - apply text_field in T as [Tf Tr]. destruct IH as [u IH]; [trivial|]. destruct (passes_writes k f k' Tf P) as [p W].
    eexists. eapply re_field; eassumption.
Qed.
Lemma format_renders_iff t r : text t -> (format t args = Ok r <-> renders args 0 t r).
Proof.
  intros T. assert (A : forall u, renders args 0 t u -> format t args = Ok u).
  { intros u R. rewrite format_fmt. destruct (renders_exact _ _ _ R T) as [-> U]. cbn [bind]. now apply string_of_std_text. }
  split; [|apply A]. intros H.
  assert (C : completes (length args) 0 t) by (apply (format_completes_iff args TA L64 t T); eauto).
  destruct (completes_renders _ _ C T) as [u R]. rewrite (A u R) in H. now injection H as <-.
Qed.
End Fields.
