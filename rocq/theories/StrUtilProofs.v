From Coq Require Import List NArith ZArith Bool Lia ZifyBool ZifyNat ZifyN.
From Verif Require Import Outcome BitsLib CharModel CharUtil StrModel StrUtil SpecUtf8 SpecChar SpecStr SpecStrUtil CharProofs StrProofs CharUtilProofs.
Import ListNotations.
Local Open Scope N_scope.

(** Split *)

Lemma take_until_spec d s : 
  let '(i, r) := take_until d s in
  ~ In d i /\ (s = i ++ d :: r \/ s = i /\ r = []) .
Proof.
  induction s as [|b s IH]; cbn; [auto|].
  destruct (N.eqb_spec b d) as [->|E]; [split; [easy|now left]|].
  destruct (take_until d s) as [i r]. destruct IH as [H1 H2]. split.
  - intros [H|H]; [congruence|tauto].
  - destruct H2 as [->|[-> ->]]; auto.
Qed.

Lemma split_loop_spec d : forall fuel s, (length s < fuel)%nat ->
  exists ps, split_loop fuel d s = Ok ps /\ Forall (fun p => ~ In d p) ps /\
    (s = [] -> ps = []) /\ (s <> [] -> ps <> []) /\
    ((exists s', s = s' ++ [d]) -> s = join d ps ++ [d]) /\
    (~ (exists s', s = s' ++ [d]) -> s = join d ps).
Proof.
  induction fuel as [|f IH]; intros s H; [lia|]. cbn [split_loop].
  destruct s as [|b s]; cbn [getline].
  - exists []. split; [reflexivity|]. split; [constructor|]. split; [auto|]. split; [congruence|].
    split; [intros [s' E]; destruct s'; discriminate|reflexivity].
  - pose proof (take_until_spec d (b :: s)) as HT. destruct (take_until d (b :: s)) as [i r] eqn:ET.
    destruct HT as [HN HS].
    assert (L : (length r < f)%nat).
    { destruct HS as [HS|[HS ->]]; [|cbn in *; lia]. apply (f_equal (@length N)) in HS.
      rewrite app_length in HS. cbn in HS, H. lia. }
    destruct (IH r L) as (ps & E & HF & H0 & H0' & H1 & H2). rewrite E. cbn [bind].
    exists (i :: ps). split; [reflexivity|]. split; [now constructor|]. split; [congruence|]. split; [congruence|].
    destruct HS as [HS|[HS ->]].
    + destruct r as [|x r].
      * rewrite (H0 eq_refl) in *. split; [intros _; exact HS|]. intros NE. exfalso. apply NE. now exists i.
      * assert (HP : ps <> []) by (apply H0'; congruence).
        assert (J : join d (i :: ps) = i ++ d :: join d ps) by (destruct ps; [congruence|reflexivity]).
        rewrite J. split.
        -- intros [s' Es']. rewrite HS, <- app_assoc. cbn. f_equal. f_equal. apply H1.
           destruct (exists_last (l := x :: r)) as (r' & z & Er); [discriminate|]. rewrite Er in HS. exists r'.
           rewrite Es' in HS. change (d :: r' ++ [z]) with ((d :: r') ++ [z]) in HS. rewrite app_assoc in HS.
           apply app_inj_tail in HS. destruct HS as [_ <-]. exact Er.
        -- intros NE. rewrite HS. f_equal. f_equal. apply H2. intros [r' Er]. apply NE. exists (i ++ d :: r').
           rewrite HS, Er. rewrite <- app_assoc. reflexivity.
    + rewrite (H0 eq_refl). cbn [join]. split; [|auto]. intros [s' Es']. exfalso. apply HN. rewrite <- HS, Es'.
      apply in_or_app. right. now left.
Qed.

Lemma split_spec s d :
  exists ps, split s d = Ok ps /\ Forall (fun p => ~ In d p) ps /\
    (s = [] -> ps = []) /\
    ((exists s', s = s' ++ [d]) -> s = join d ps ++ [d]) /\
    (~ (exists s', s = s' ++ [d]) -> s = join d ps).
Proof.
  destruct (split_loop_spec d (S (length s)) s) as (ps & H); [lia|]. exists ps. tauto.
Qed.

(** Repeat *)
Lemma repeat_spec s n : (1 <= n)%nat -> repeat_str s n = concat (repeat s n).
Proof.
  intros H. unfold repeat_str. destruct (Nat.ltb_spec n 2); [|reflexivity].
  assert (n = 1)%nat by lia. subst. cbn. now rewrite app_nil_r.
Qed.

(** Escapes *)

Lemma is_ascii_iff c b : is_ascii c b = true <-> c = [b].
Proof. apply bytes_eqb_iff. Qed.

Lemma is_ascii_single a b : is_ascii [a] b = (a =? b).
Proof. unfold is_ascii, char_eqb. cbn. now rewrite andb_true_r. Qed.

Lemma simple_escape_spec e v : simple_esc e v -> simple_escape [e] = Some v.
Proof. intros []; reflexivity. Qed.

Lemma hexdig_digit h v : hexdig h v -> hex_digit h = Some v /\ v < 16 /\ h <> 120 /\ h <> 88 /\ h < 128 /\ h <> 0 /\
   h <> 45 /\ h <> 43 /\ c_isspace h = false.
Proof.
  intros H. unfold hex_digit, c_isspace. destruct H as [d H|d H|d H].
  - replace ((48 <=? d) && (d <=? 57)) with true by lia. repeat split; try lia.
  - replace ((48 <=? d) && (d <=? 57)) with false by lia. replace ((65 <=? d) && (d <=? 70)) with true by lia.
    repeat split; try lia. f_equal; lia.
  - replace ((48 <=? d) && (d <=? 57)) with false by lia. replace ((65 <=? d) && (d <=? 70)) with false by lia.
    replace ((97 <=? d) && (d <=? 102)) with true by lia. repeat split; try lia. f_equal; lia.
Qed.

Lemma hex_magnitude_4 h1 h2 h3 h4 v1 v2 v3 v4 :
  hexdig h1 v1 -> hexdig h2 v2 -> hexdig h3 v3 -> hexdig h4 v4 ->
  hex_magnitude [h1; h2; h3; h4] = Some (((v1 * 16 + v2) * 16 + v3) * 16 + v4).
Proof.
  intros A1 A2 A3 A4.
  apply hexdig_digit in A1; apply hexdig_digit in A2; apply hexdig_digit in A3; apply hexdig_digit in A4.
  destruct A1 as (A1 & _). destruct A2 as (A2 & _ & N1 & N2 & _). destruct A3 as (A3 & _). destruct A4 as (A4 & _).
  assert (R : hex_run 0 [h1; h2; h3; h4] = ((v1 * 16 + v2) * 16 + v3) * 16 + v4).
  { cbn. now rewrite A1, A2, A3, A4. }
  unfold hex_magnitude.
  replace (h2 =? 120) with false by lia. replace (h2 =? 88) with false by lia. cbn [orb].
  rewrite A1, R. clear.
  destruct h1 as [|[[[[[[?|?|]|[?|?|]|]|[[?|?|]|[?|?|]|]|]|[[[?|?|]|[?|?|]|]|[[?|?|]|[?|?|]|]|]|]|[[[[?|?|]|[?|?|]|]|[[?|?|]|[?|?|]|]|]|[[[?|?|]|[?|?|]|]|[[?|?|]|[?|?|]|]|]|]|]|[[[[[?|?|]|[?|?|]|]|[[?|?|]|[?|?|]|]|]|[[[?|?|]|[?|?|]|]|[[?|?|]|[?|?|]|]|]|]|[[[[?|?|]|[?|?|]|]|[[?|?|]|[?|?|]|]|]|[[[?|?|]|[?|?|]|]|[[?|?|]|[?|?|]|]|]|]|]|]]; reflexivity.
Qed.

Lemma stoi16_4 h1 h2 h3 h4 v1 v2 v3 v4 :
  hexdig h1 v1 -> hexdig h2 v2 -> hexdig h3 v3 -> hexdig h4 v4 ->
  stoi16 [h1; h2; h3; h4] = Ok (Z.of_N (((v1 * 16 + v2) * 16 + v3) * 16 + v4)).
Proof.
  intros A1 A2 A3 A4. unfold stoi16.
  pose proof (hex_magnitude_4 _ _ _ _ _ _ _ _ A1 A2 A3 A4) as HM.
  apply hexdig_digit in A1; apply hexdig_digit in A2; apply hexdig_digit in A3; apply hexdig_digit in A4.
  destruct A1 as (_ & B1 & _ & _ & _ & _ & M1 & M2 & S1).
  cbn [skip_cspace]. rewrite S1.
  assert (E : (match [h1; h2; h3; h4] with 45 :: r => (true, r) | 43 :: r => (false, r) | _ => (false, [h1; h2; h3; h4]) end)
     = (false, [h1; h2; h3; h4])).
  { destruct (N.eq_dec h1 45); [congruence|]. destruct (N.eq_dec h1 43); [congruence|].
    destruct h1 as [|[[[[[[?|?|]|[?|?|]|]|[[?|?|]|[?|?|]|]|]|[[[?|?|]|[?|?|]|]|[[?|?|]|[?|?|]|]|]|]|[[[[?|?|]|[?|?|]|]|[[?|?|]|[?|?|]|]|]|[[[?|?|]|[?|?|]|]|[[?|?|]|[?|?|]|]|]|]|]|[[[[[?|?|]|[?|?|]|]|[[?|?|]|[?|?|]|]|]|[[[?|?|]|[?|?|]|]|[[?|?|]|[?|?|]|]|]|]|[[[[?|?|]|[?|?|]|]|[[?|?|]|[?|?|]|]|]|[[[?|?|]|[?|?|]|]|[[?|?|]|[?|?|]|]|]|]|]|]]; try reflexivity; congruence. }
  rewrite E, HM. 
  destruct A2 as (_ & B2 & _). destruct A3 as (_ & B3 & _). destruct A4 as (_ & B4 & _).
  replace ((-2147483648 <=? _)%Z && _) with true by lia. reflexivity.
Qed.

Lemma utf8_encode_ascii v : v < 0x80 -> utf8_encode v = [v].
Proof. intros H. unfold utf8_encode. now replace (v <? 0x80) with true by lia. Qed.

Lemma escape_loop_token t c s fuel out : token (fun v => 1 <= v < 0x80) t c ->
  escape_loop fuel s = Ok out -> escape_loop (S fuel) (t ++ s) = Ok (c ++ out) /\ text_char c.
Proof.
  intros HT HO. destruct HT as [c Hc Hne|e v HE|h1 h2 h3 h4 v1 v2 v3 v4 v A1 A2 A3 A4 Hv HP].
  - split; [|assumption]. cbn [app escape_loop].
    assert (E : is_ascii c 0x5C = false).
    { destruct (is_ascii c 0x5C) eqn:E; [apply is_ascii_iff in E; congruence|reflexivity]. }
    rewrite E, HO. cbn [bind]. now rewrite cstr_id by now apply text_char_no_nul.
  - cbn [app escape_loop]. replace (is_ascii [92] 92) with true by reflexivity.
    rewrite (simple_escape_spec e v HE), HO. cbn [bind]. split; [reflexivity|].
    inversion HE; subst; (split; [constructor; lia|congruence]).
  - cbn [app escape_loop]. replace (is_ascii [92] 92) with true by reflexivity.
    replace (simple_escape [0x75]) with (@None N) by reflexivity.
    replace (is_ascii [0x75] 0x75) with true by reflexivity.
    cbn [andb]. replace (Nat.ltb 5 _) with true by reflexivity.
    assert (ES : s_str (firstn 4 ([h1] :: [h2] :: [h3] :: [h4] :: s)) = [h1; h2; h3; h4]).
    { apply hexdig_digit in A1; apply hexdig_digit in A2; apply hexdig_digit in A3; apply hexdig_digit in A4.
      cbn. replace (h1 =? 0) with false by lia. replace (h2 =? 0) with false by lia.
      replace (h3 =? 0) with false by lia. replace (h4 =? 0) with false by lia. reflexivity. }
 rewrite ES, (stoi16_4 _ _ _ _ _ _ _ _ A1 A2 A3 A4). cbn [bind skipn]. rewrite HO. cbn [bind].
    rewrite <- Hv. rewrite utf8_encode_ascii by lia. split.
    + cbn [app]. repeat f_equal. unfold low_byte. rewrite Z.mod_small by lia. lia.
    + split; [constructor; lia|]. intros E. injection E. lia.
Qed.

Lemma escape_loop_escaped s u : escaped (fun v => 1 <= v < 0x80) s u -> forall fuel, (length s < fuel)%nat ->
  escape_loop fuel s = Ok (concat u) /\ text u.
Proof.
  induction 1 as [| |t c s u HT HE IH]; intros fuel Hf.
  - destruct fuel; [lia|]. split; [reflexivity|constructor].
  - destruct fuel as [|[|fuel]]; [cbn in Hf; lia..|]. split; [reflexivity|]. repeat constructor. congruence.
  - destruct fuel; [lia|]. destruct (IH fuel) as [E HU].
    { rewrite app_length in Hf. assert (1 <= length t)%nat by (destruct HT; cbn; lia). lia. }
    destruct (escape_loop_token t c s fuel (concat u) HT E) as [E' HC].
    split; [exact E'|now constructor].
Qed.

Lemma escape_string_escaped s u : escaped (fun v => 1 <= v < 0x80) s u -> escape_string s = Ok u.
Proof.
  intros H. unfold escape_string. destruct (escape_loop_escaped s u H (S (length s))) as [-> HT]; [lia|].
  cbn [bind]. now apply string_of_cstr_text.
Qed.

(** A text without backslash is unchanged. *)
Lemma escape_string_plain s : text s -> ~ In [0x5C] s -> escape_string s = Ok s.
Proof.
  intros HT HN. apply escape_string_escaped. induction HT as [|c s Hc HT IH]; [constructor|].
  change (c :: s) with ([c] ++ s) at 1. constructor; [constructor; [assumption|]|].
  - intros ->. apply HN. now left.
  - apply IH. intros ?; apply HN. now right.
Qed.

(** First and last non-space *)

Definition space_char (c : list N) : Prop := white_space (utf8_value c).

Lemma space_test c : text_char c -> exists b, (cp <- get_code_point c ;; Ok (is_space cp)) = Ok b /\ (b = true <-> space_char c).
Proof.
  intros [H _]. rewrite get_code_point_unit by assumption. cbn [bind]. eexists. split; [reflexivity|]. apply is_space_spec.
Qed.

Lemma first_loop_spec s : text s -> forall i,
  exists k, first_loop s i = Ok (i + k)%nat /\ (k <= length s)%nat /\
    (forall j c, (j < k)%nat -> nth_error s j = Some c -> space_char c) /\
    (forall c, nth_error s k = Some c -> ~ space_char c).
Proof.
  induction 1 as [|c s Hc H IH]; intros i.
  - exists 0%nat. cbn. split; [f_equal; lia|]. split; [lia|]. split; [intros; lia|discriminate].
  - cbn [first_loop]. rewrite get_code_point_unit by apply Hc. cbn [bind].
    destruct (is_space (utf8_value c)) eqn:E.
    + destruct (IH (S i)) as (k & E1 & L & H1 & H2). exists (S k). rewrite E1.
      split; [f_equal; lia|]. split; [cbn; lia|]. split.
      * intros [|j] d Hj Hd; cbn in Hd; [injection Hd as <-; now apply is_space_spec|]. eapply H1; [|eassumption]; lia.
      * exact H2.
    + exists 0%nat. split; [f_equal; lia|]. split; [cbn; lia|]. split; [intros; lia|].
      intros d Hd. cbn in Hd. injection Hd as <-. intros HS. apply is_space_spec in HS. congruence.
Qed.

Lemma find_first_spec s : text s ->
  exists k, find_first_non_space s = Ok k /\ (k <= length s)%nat /\
    (forall j c, (j < k)%nat -> nth_error s j = Some c -> space_char c) /\
    (forall c, nth_error s k = Some c -> ~ space_char c).
Proof. intros H. exact (first_loop_spec s H 0). Qed.

Lemma last_loop_spec s : text s -> forall i, (i < length s)%nat ->
  exists k, last_loop s i = Ok k /\
    ((1 <= k <= i)%nat /\ (forall c, nth_error s k = Some c -> ~ space_char c) /\
       (forall j c, (k < j <= i)%nat -> nth_error s j = Some c -> space_char c) \/
     k = length s /\ forall j c, (1 <= j <= i)%nat -> nth_error s j = Some c -> space_char c).
Proof.
  intros HT. induction i as [|i IH]; intros Hi.
  - exists (length s). split; [reflexivity|]. right. split; [reflexivity|]. intros; lia.
  - cbn [last_loop]. unfold s_index, vec_get. destruct (nth_error s (S i)) as [c|] eqn:E.
    2:{ apply nth_error_None in E. lia. }
    cbn [bind]. assert (Hc : text_char c).
    { unfold text in HT. rewrite Forall_forall in HT. apply HT. eapply nth_error_In; eassumption. }
    rewrite get_code_point_unit by apply Hc. cbn [bind].
    destruct (is_space (utf8_value c)) eqn:ES.
    + apply is_space_spec in ES. destruct IH as (k & E1 & HK); [lia|]. exists k. split; [assumption|].
      destruct HK as [(H1 & H2 & H3)|[H1 H2]].
      * left. split; [lia|]. split; [assumption|]. intros j d Hj Hd.
        destruct (Nat.eq_dec j (S i)) as [->|]; [|eapply H3; [|eassumption]; lia].
        rewrite E in Hd. injection Hd as <-. exact ES.
      * right. split; [assumption|]. intros j d Hj Hd.
        destruct (Nat.eq_dec j (S i)) as [->|]; [|eapply H2; [|eassumption]; lia].
        rewrite E in Hd. injection Hd as <-. exact ES.
    + exists (S i). split; [reflexivity|]. left. split; [lia|]. split; [|intros; lia].
      intros d Hd HS. rewrite E in Hd. injection Hd as <-. apply is_space_spec in HS. congruence.
Qed.

Lemma find_last_spec s : text s -> s <> [] ->
  exists k, find_last_non_space s = Ok k /\
    ((1 <= k < length s)%nat /\ (forall c, nth_error s k = Some c -> ~ space_char c) /\
       (forall j c, (k < j)%nat -> nth_error s j = Some c -> space_char c) \/
     k = length s /\ forall j c, (1 <= j)%nat -> nth_error s j = Some c -> space_char c).
Proof.
  intros HT Hne. destruct s as [|x s]; [congruence|]. unfold find_last_non_space.
  destruct (last_loop_spec (x :: s) HT (length (x :: s) - 1)) as (k & E & HK); [cbn; lia|].
  exists k. split; [exact E|].
  assert (B : forall j c, nth_error (x :: s) j = Some c -> (j <= length (x :: s) - 1)%nat).
  { intros j c Hj. assert (j < length (x :: s))%nat by (apply nth_error_Some; congruence). lia. }
  destruct HK as [(H1 & H2 & H3)|[H1 H2]].
  - left. split; [cbn in *; lia|]. split; [assumption|]. intros j c Hj Hc. eapply H3; [|eassumption]. apply B in Hc. lia.
  - right. split; [assumption|]. intros j c Hj Hc. eapply H2; [|eassumption]. apply B in Hc. lia.
Qed.

Lemma is_number_spec s : text s ->
  exists b, is_number s = Ok b /\
    (b = true <-> s <> [] /\ Forall (fun c => exists v, decimal_digit (utf8_value c) v) s).
Proof.
  intros H. unfold is_number, s_not_empty.
  assert (A : exists b, all_digits s = Ok b /\ (b = true <-> Forall (fun c => exists v, decimal_digit (utf8_value c) v) s)).
  { induction H as [|c s Hc H IH].
    - exists true. split; [reflexivity|]. split; [constructor|reflexivity].
    - cbn [all_digits]. rewrite get_code_point_unit by apply Hc. cbn [bind].
      destruct (is_digit (utf8_value c)) eqn:E.
      + destruct IH as (b & Eb & Hb). exists b. split; [assumption|]. rewrite Hb. apply is_digit_spec in E.
        split; [now constructor|]. intros HF. now inversion HF.
      + exists false. split; [reflexivity|]. split; [discriminate|]. intros HF. inversion HF as [|? ? HD]; subst.
        apply is_digit_spec in HD. congruence. }
  destruct s as [|c s]; cbn [s_is_empty negb].
  - exists false. split; [reflexivity|]. split; [discriminate|]. intros [H1 _]. congruence.
  - destruct A as (b & Eb & Hb). exists b. split; [assumption|]. rewrite Hb. split; [|tauto]. split; [discriminate|assumption].
Qed.

(** StringBuilder *)

Definition op_text (o : sb_op) : Str :=
  match o with OpAppend s => s | OpAppendLine s => s ++ [[0x0A]] end.

Lemma oss_write_end b t : sb_pos b = length (sb_buf b) ->
  sb_buf (oss_write b t) = sb_buf b ++ t /\ sb_pos (oss_write b t) = length (sb_buf (oss_write b t)).
Proof.
  intros H. unfold oss_write. cbn. rewrite H, firstn_all.
  rewrite (skipn_all2 (n := length (sb_buf b) + length t)) by lia. rewrite app_nil_r, app_length. auto.
Qed.

Lemma sb_apply_end b o : sb_pos b = length (sb_buf b) ->
  sb_buf (sb_apply b o) = sb_buf b ++ s_str (op_text o) /\ sb_pos (sb_apply b o) = length (sb_buf (sb_apply b o)).
Proof.
  intros H. destruct o as [s|s]; cbn [sb_apply op_text].
  - now apply oss_write_end.
  - unfold sb_append_line. destruct (oss_write_end b (s_str s) H) as [H1 H2].
    destruct (oss_write_end (oss_write b (s_str s)) [0x0A] H2) as [H3 H4].
    rewrite H3, H1, s_str_app, <- app_assoc. split; [reflexivity|]. rewrite H4, H3, H1, <- app_assoc. reflexivity.
Qed.

Lemma sb_fold_end ops : forall b, sb_pos b = length (sb_buf b) ->
  sb_buf (fold_left sb_apply ops b) = sb_buf b ++ s_str (concat (map op_text ops)) /\
  sb_pos (fold_left sb_apply ops b) = length (sb_buf (fold_left sb_apply ops b)).
Proof.
  induction ops as [|o ops IH]; intros b H; cbn [fold_left map concat].
  - cbn. now rewrite app_nil_r.
  - destruct (sb_apply_end b o H) as [H1 H2]. destruct (IH _ H2) as [H3 H4].
    rewrite H3, H1, s_str_app, <- app_assoc. split; [reflexivity|]. rewrite H4, H3, H1, <- app_assoc. reflexivity.
Qed.

Lemma op_text_text o : (match o with OpAppend s | OpAppendLine s => text s end) -> text (op_text o).
Proof.
  destruct o; cbn; [auto|]. intros H. apply Forall_app. split; [assumption|]. repeat constructor. congruence.
Qed.

Lemma sb_accumulates init ops : text init ->
  Forall (fun o => match o with OpAppend s | OpAppendLine s => text s end) ops ->
  sb_str (fold_left sb_apply ops (sb_of_string init)) = Ok (init ++ concat (map op_text ops)).
Proof.
  intros HI HO. unfold sb_of_string. destruct (oss_write_end sb_new (s_str init)) as [H1 H2]; [reflexivity|].
  destruct (sb_fold_end ops _ H2) as [H3 _]. unfold sb_str. rewrite H3, H1. cbn [sb_buf sb_new app].
  rewrite <- s_str_app.
  assert (HT : text (init ++ concat (map op_text ops))).
  { apply Forall_app. split; [assumption|]. induction HO as [|o ops Ho HO IH]; cbn; [constructor|].
    apply Forall_app. split; [now apply op_text_text|].
    exact (IH (proj1 (sb_fold_end ops _ H2))). }
  rewrite s_str_text by assumption. now apply string_of_cstr_text.
Qed.

Lemma take_until_app d p r : ~ In d p -> take_until d (p ++ d :: r) = (p, r).
Proof.
  induction p as [|x p IH]; intros H; cbn.
  - now rewrite N.eqb_refl.
  - destruct (N.eqb_spec x d); [exfalso; apply H; now left|]. rewrite IH; [reflexivity|].
    intros ?; apply H; now right.
Qed.

Lemma take_until_end d p : ~ In d p -> take_until d p = (p, []).
Proof.
  induction p as [|x p IH]; intros H; cbn; [reflexivity|].
  destruct (N.eqb_spec x d); [exfalso; apply H; now left|]. rewrite IH; [reflexivity|].
  intros ?; apply H; now right.
Qed.

Lemma join_split_loop d p : ~ In d p -> p <> [] -> forall ps fuel, Forall (fun q => ~ In d q) ps ->
  (length (join d (ps ++ [p])) < fuel)%nat ->
  split_loop fuel d (join d (ps ++ [p])) = Ok (ps ++ [p]).
Proof.
  intros Hd Hp. induction ps as [|q ps IH]; intros fuel HF HL.
  - cbn [app join] in *. destruct fuel as [|fuel]; [lia|]. cbn [split_loop]. unfold getline.
    destruct p as [|x p]; [congruence|]. rewrite take_until_end by assumption. destruct fuel; [cbn in HL; lia|]. reflexivity.
  - inversion HF; subst. destruct fuel as [|fuel]; [lia|].
    assert (J : join d ((q :: ps) ++ [p]) = q ++ d :: join d (ps ++ [p])).
    { cbn. destruct (ps ++ [p]) eqn:E; [destruct ps; discriminate|reflexivity]. }
    rewrite J in *. cbn [split_loop]. unfold getline.
    rewrite take_until_app by assumption. destruct (q ++ d :: join d (ps ++ [p])) eqn:E; [destruct q; discriminate|].
    rewrite <- E in HL. rewrite IH; [reflexivity|assumption|]. rewrite app_length in HL. cbn in HL. lia.
Qed.

Lemma join_split d ps p : Forall (fun q => ~ In d q) (ps ++ [p]) -> p <> [] ->
  split (join d (ps ++ [p])) d = Ok (ps ++ [p]).
Proof.
  intros HF Hp. apply Forall_app in HF. destruct HF as [H1 H2]. inversion H2; subst.
  apply join_split_loop; auto.
Qed.

Lemma repeat_zero_wrong : exists s, repeat_str s 0 <> concat (repeat s 0).
Proof. exists [0x61]. discriminate. Qed.

Lemma hexdig_0 : hexdig 0x30 0.
Proof. exact (hex_dec 0x30 ltac:(lia)). Qed.
Lemma hexdig_1 : hexdig 0x31 1.
Proof. exact (hex_dec 0x31 ltac:(lia)). Qed.
Lemma hexdig_4 : hexdig 0x34 4.
Proof. exact (hex_dec 0x34 ltac:(lia)). Qed.

Lemma unicode_escape_wrong :
  exists s u, escaped (fun v => scalar v /\ v <> 0) s u /\ escape_string s <> Ok u.
Proof.
  exists [[0x5C]; [0x75]; [0x30]; [0x34]; [0x34]; [0x31]], [utf8_encode 0x441]. split.
  - change [[0x5C]; [0x75]; [0x30]; [0x34]; [0x34]; [0x31]] with ([[0x5C]; [0x75]; [0x30]; [0x34]; [0x34]; [0x31]] ++ []).
    constructor; [|constructor].
    apply (tok_unicode _ _ _ _ _ 0 4 4 1); [exact hexdig_0|exact hexdig_4|exact hexdig_4|exact hexdig_1|reflexivity|].
    unfold scalar. split; [split|]; lia.
  - vm_compute. discriminate.
Qed.

Lemma unknown_escape_wrong : exists s, text s /\ escape_string s = Ok (s ++ [[0x71]]).
Proof.
  exists [[0x5C]; [0x71]]. split; [|reflexivity]. repeat constructor; congruence.
Qed.

Lemma unicode_escape_unsafe : exists s, text s /\ escape_string s = UB.
Proof.
  exists [[0x5C]; [0x75]; [0x30]; [0x30]; [0x45]; [0x39]]. split; [|reflexivity]. repeat constructor; congruence.
Qed.

Lemma find_last_wrong : exists s c, text s /\
  nth_error s 0 = Some c /\ ~ white_space (utf8_value c) /\ find_last_non_space s = Ok (length s).
Proof.
  exists [[0x61]; [0x20]], [0x61]. split; [repeat constructor; congruence|]. split; [reflexivity|]. split; [|reflexivity].
  intros H. apply is_space_spec in H. discriminate H.
Qed.

Lemma find_last_empty : exists s, text s /\ find_last_non_space s = UB.
Proof. exists []. split; [constructor|reflexivity]. Qed.

Lemma append_to_copy b s : sb_buf (sb_append (sb_copy b) s) = s_str s ++ skipn (length (s_str s)) (sb_buf b).
Proof. reflexivity. Qed.

Lemma append_to_copy_wrong : exists init s, text init /\ text s /\
  sb_str (sb_append (sb_copy (sb_of_string init)) s) <> Ok (init ++ s).
Proof.
  exists [[0x61]], [[0x62]]. split; [repeat constructor; congruence|]. split; [repeat constructor; congruence|].
  vm_compute. discriminate.
Qed.

Lemma append_to_moved init s : text init -> text s ->
  sb_str (sb_append (sb_move (sb_of_string init)) s) = Ok (init ++ s).
Proof.
  intros H1 H2. pose proof (sb_accumulates init [OpAppend s] H1) as H. cbn in H. rewrite app_nil_r in H.
  apply H. now repeat constructor.
Qed.
