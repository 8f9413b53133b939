From Coq Require Import List NArith ZArith Bool Lia ZifyBool ZifyNat ZifyN.
From Verif Require Import Outcome BitsLib CharModel CharUtil StrModel SpecUtf8 SpecStr CharProofs.
Import ListNotations.
Local Open Scope N_scope.

(** ** Decoding *)

Lemma lead_length_spec b : is_byte b ->
  (forall n, lead_length b = Ok n <-> announces b n) /\
  (forall n, lead_length b <> Ok n -> announces b n -> False) /\
  lead_length b <> UB /\ lead_length b <> NoFuel /\
  (forall e, lead_length b = Throw e -> e = ERuntimeError).
Proof.
  intros Hb. unfold lead_length. unfold is_byte in Hb.
  rewrite lead_80, lead_E0, lead_F0, lead_F8 by assumption.
  assert (E : forall n, (if b <? 0x80 then Ok 1%nat
     else if (0xC0 <=? b) && (b <? 0xE0) then Ok 2%nat
     else if (0xE0 <=? b) && (b <? 0xF0) then Ok 3%nat
     else if (0xF0 <=? b) && (b <? 0xF8) then Ok 4%nat
     else Throw ERuntimeError) = Ok n <-> announces b n).
  { intros n. destruct (N.ltb_spec b 0x80).
    - split; intros H0. + injection H0 as <-. now constructor.
      + inversion H0; subst; try reflexivity; lia.
    - destruct ((0xC0 <=? b) && (b <? 0xE0)) eqn:E1.
      + split; intros H0. * injection H0 as <-. constructor; lia.
        * inversion H0; subst; try reflexivity; lia.
      + destruct ((0xE0 <=? b) && (b <? 0xF0)) eqn:E2.
        * split; intros H0. -- injection H0 as <-. constructor; lia.
          -- inversion H0; subst; try reflexivity; lia.
        * destruct ((0xF0 <=? b) && (b <? 0xF8)) eqn:E3.
          -- split; intros H0. ++ injection H0 as <-. constructor; lia.
             ++ inversion H0; subst; try reflexivity; lia.
          -- split; intros H0; [discriminate|]. inversion H0; subst; lia. }
  split; [exact E|]. split; [intros n H1 H2; apply H1, E, H2|].
  repeat match goal with |- context[if ?x then _ else _] => destruct x end;
   (split; [discriminate|]; split; [discriminate|]; intros e; congruence).
Qed.

Lemma unit_length_announced c b r : utf8_unit c -> c = b :: r -> announces b (length c).
Proof. intros H E. subst c. inversion H; subst; cbn; constructor; assumption. Qed.

Lemma unit_nonempty c : utf8_unit c -> c <> [].
Proof. intros H; inversion H; discriminate. Qed.

Lemma unit_no_nul b r : utf8_unit (b :: r) -> b <> 0 -> ~ In 0 (b :: r).
Proof.
  intros H Hb HI. inversion H; subst; unfold continuation in *; cbn in HI; intuition lia.
Qed.

Lemma text_char_no_nul c : text_char c -> ~ In 0 c.
Proof.
  intros [H N0]. destruct c as [|b r]; [now intros []|]. apply unit_no_nul; [assumption|].
  intros ->. apply N0. inversion H; subst; try lia. reflexivity.
Qed.

Lemma text_char_unit_head c : utf8_unit c -> hd 0 c <> 0 -> text_char c.
Proof. intros H H0. split; [assumption|]. intros ->. now apply H0. Qed.

Lemma text_char_head c : text_char c -> exists b r, c = b :: r /\ b <> 0.
Proof.
  intros H. pose proof (text_char_no_nul c H) as HN. destruct H as [H _].
  destruct c as [|b r]; [inversion H|]. exists b, r. split; [reflexivity|].
  intros ->. apply HN. now left.
Qed.

Lemma firstn_app_l {A} (a b : list A) : firstn (length a) (a ++ b) = a.
Proof. rewrite firstn_app, firstn_all, Nat.sub_diag. cbn. apply app_nil_r. Qed.
Lemma skipn_app_l {A} (a b : list A) : skipn (length a) (a ++ b) = b.
Proof. rewrite skipn_app, skipn_all, Nat.sub_diag. reflexivity. Qed.

Lemma decode_char_unit c X : utf8_unit c -> decode_utf8_char (c ++ X) = Ok c.
Proof.
  intros H. pose proof (unit_bytes c H) as HB. unfold decode_utf8_char.
  destruct c as [|b r]; [inversion H|]. cbn [app].
  pose proof (unit_length_announced _ b r H eq_refl) as HA.
  inversion HB; subst. destruct (lead_length_spec b) as [E _]; [assumption|].
  apply E in HA. rewrite HA. cbn [bind].
  replace (Nat.ltb _ _) with false by (symmetry; apply Nat.ltb_ge; cbn; rewrite app_length; lia).
  change (b :: r ++ X) with ((b :: r) ++ X). rewrite firstn_app_l.
  now apply char_of_bytes_spec.
Qed.

Lemma decode_loop_cons f c X : text_char c ->
  decode_loop (S f) (c ++ X) = (cs <- decode_loop f X ;; Ok (c :: cs)).
Proof.
  intros H. destruct (text_char_head c H) as (b & r & -> & Hb).
  pose proof (decode_char_unit _ X (proj1 H)) as HD.
  cbn [decode_loop app]. cbn [app] in HD. rewrite HD.
  replace (b =? 0) with false by lia. cbn [bind].
  change (b :: r ++ X) with ((b :: r) ++ X). now rewrite skipn_app_l.
Qed.

Lemma decode_loop_text us : forall f X, text us -> (length us <= f)%nat ->
  decode_loop f (concat us ++ X) = (cs <- decode_loop (f - length us) X ;; Ok (us ++ cs)).
Proof.
  induction us as [|c us IH]; intros f X H Hf.
  - cbn. rewrite Nat.sub_0_r. destruct (decode_loop f X); reflexivity.
  - inversion H; subst. destruct f as [|f]; [cbn in Hf; lia|].
    cbn [concat]. rewrite <- app_assoc, decode_loop_cons by assumption.
    rewrite IH by (assumption || cbn in Hf; lia). cbn [length Nat.sub].
    destruct (decode_loop (f - length us) X); reflexivity.
Qed.

Lemma text_length us : text us -> (length us <= length (concat us))%nat.
Proof.
  induction 1 as [|c us H HF IH]; [cbn; lia|]. cbn. rewrite app_length.
  pose proof (unit_nonempty c (proj1 H)). destruct c; [congruence|cbn; lia].
Qed.

Lemma units_text us : Forall utf8_unit us -> ~ In 0 (concat us) -> text us.
Proof.
  induction 1 as [|c us H HF IH]; intros HN; [constructor|]. cbn in HN.
  constructor.
  - split; [assumption|]. intros ->. apply HN. now left.
  - apply IH. intros H0. apply HN. apply in_or_app. now right.
Qed.

Lemma text_units us : text us -> Forall utf8_unit us.
Proof. apply Forall_impl. now intros c [H _]. Qed.

Lemma text_no_nul us : text us -> ~ In 0 (concat us).
Proof.
  induction 1 as [|c us H HF IH]; [now intros []|]. cbn. intros H0. apply in_app_or in H0.
  destruct H0; [now apply (text_char_no_nul c)|tauto].
Qed.

Lemma string_of_cstr_text us r : text us -> string_of_cstr (concat us ++ 0 :: r) = Ok us.
Proof.
  intros H. unfold string_of_cstr. pose proof (text_length us H).
  rewrite decode_loop_text by (assumption || rewrite app_length; cbn; lia).
  set (m := length (concat us ++ 0 :: r)) in *. destruct (S m - length us)%nat eqn:E; unfold m in E.
  - rewrite app_length in E; lia.
  - cbn. now rewrite app_nil_r.
Qed.

Lemma bind_ok {A B} (m : outcome A) (k : A -> outcome B) b :
  bind m k = Ok b -> exists a, m = Ok a /\ k a = Ok b.
Proof. destruct m; cbn; intros H; try discriminate. now exists a. Qed.

Lemma decode_char_ok mem c : Forall is_byte mem -> decode_utf8_char mem = Ok c ->
  utf8_unit c /\ exists X, mem = c ++ X.
Proof.
  intros HB H. unfold decode_utf8_char in H. destruct mem as [|b r]; [discriminate|].
  apply bind_ok in H. destruct H as (n & _ & H).
  destruct (Nat.ltb _ _); [discriminate|].
  apply char_of_bytes_ok in H.
  2:{ rewrite <- (firstn_skipn n) in HB. apply Forall_app in HB. apply HB. }
  destruct H as [-> H]. split; [assumption|]. exists (skipn n (b :: r)). symmetry; apply firstn_skipn.
Qed.

Lemma decode_loop_ok f : forall mem t, Forall is_byte mem -> decode_loop f mem = Ok t ->
  text t /\ exists r, mem = concat t ++ 0 :: r.
Proof.
  induction f as [|f IH]; intros mem t HB H; [discriminate|].
  cbn [decode_loop] in H. destruct mem as [|b r]; [discriminate|].
  destruct (N.eqb_spec b 0).
  - injection H as <-. subst. split; [constructor|]. now exists r.
  - apply bind_ok in H. destruct H as (c & Hc & H). apply bind_ok in H.
    destruct H as (cs & Hcs & H). injection H as <-.
    apply decode_char_ok in Hc; [|assumption]. destruct Hc as (HU & X & HX).
    rewrite HX in Hcs, HB. rewrite skipn_app_l in Hcs. apply Forall_app in HB.
    destruct (IH _ _ (proj2 HB) Hcs) as (HT & r' & Hr').
    split.
    + constructor; [|assumption]. apply text_char_unit_head; [assumption|].
      destruct c as [|b' c']; [inversion HU|]. injection HX as -> _. assumption.
    + exists r'. cbn. rewrite HX, Hr', app_assoc. reflexivity.
Qed.

Lemma string_of_cstr_ok mem t : Forall is_byte mem -> string_of_cstr mem = Ok t ->
  text t /\ exists r, mem = concat t ++ 0 :: r.
Proof. apply decode_loop_ok. Qed.

Lemma nul_split (a b r r' : list N) : ~ In 0 a -> ~ In 0 b -> a ++ 0 :: r = b ++ 0 :: r' -> a = b /\ r = r'.
Proof.
  revert b. induction a as [|x a IH]; intros [|y b] Ha Hb H; cbn in *.
  - injection H as <-. auto.
  - injection H as <- _. exfalso; tauto.
  - injection H as -> _. exfalso; tauto.
  - injection H as -> H. apply IH in H; [|tauto..]. destruct H; subst; auto.
Qed.

Lemma s_str_text t : text t -> s_str t = concat t.
Proof.
  induction 1 as [|c us H HF IH]; [reflexivity|]. unfold s_str in *. cbn.
  rewrite IH, cstr_id by now apply text_char_no_nul. reflexivity.
Qed.

Lemma bytes_in_bytes_out s r t : Forall is_byte (s ++ 0 :: r) -> ~ In 0 s ->
  string_of_cstr (s ++ 0 :: r) = Ok t ->
  s_str t = s /\ Forall utf8_unit t /\ concat t = s.
Proof.
  intros HB HN H. apply string_of_cstr_ok in H; [|assumption].
  destruct H as (HT & r' & E). apply nul_split in E; [|assumption|now apply text_no_nul].
  destruct E as [-> _]. rewrite s_str_text by assumption.
  split; [reflexivity|]. split; [now apply text_units|reflexivity].
Qed.

Lemma success_iff s : Forall is_byte s -> ~ In 0 s ->
  ((exists t, string_of_std s = Ok t) <-> decodable s).
Proof.
  intros HB HN. unfold string_of_std. split.
  - intros [t H]. apply bytes_in_bytes_out in H; [|apply Forall_app; split; [assumption|repeat constructor]|assumption].
    exists t. destruct H as (_ & H & <-). auto.
  - intros (us & HF & ->). exists us. apply string_of_cstr_text. now apply units_text.
Qed.

Lemma decode_char_cases s : Forall is_byte s -> ~ In 0 s -> s <> [] ->
  (exists c X, decode_utf8_char (s ++ [0]) = Ok c /\ text_char c /\ s = c ++ X) \/
  (exists e, decode_utf8_char (s ++ [0]) = Throw e) \/
  (decode_utf8_char (s ++ [0]) = UB /\ exists b rest n, s = b :: rest /\ announces b n /\
     (length s + 1 < n)%nat).
Proof.
  intros HB HN Hne. destruct s as [|b r]; [congruence|]. inversion HB; subst.
  destruct (decode_utf8_char ((b :: r) ++ [0])) as [c|e| |] eqn:E.
  - left. pose proof E as E'. apply decode_char_ok in E'; [|apply Forall_app; split; [assumption|repeat constructor]].
    destruct E' as (HU & X & HX). exists c.
    assert (HT : text_char c).
    { apply text_char_unit_head; [assumption|]. destruct c as [|b' c']; [inversion HU|].
      injection HX as -> _. cbn. intros ->. apply HN. now left. }
    pose proof (text_char_no_nul c HT) as HNc.
    destruct (list_eq_dec N.eq_dec X []) as [->|HX0].
    + exfalso. rewrite app_nil_r in HX. apply HNc. rewrite <- HX. apply in_or_app. right. now left.
    + destruct (exists_last HX0) as (X' & z & ->). rewrite app_assoc in HX.
      apply app_inj_tail in HX. destruct HX as [HX _]. exists X'. auto.
  - right. left. now exists e.
  - right. right. split; [reflexivity|]. cbn [app decode_utf8_char] in E.
    destruct (lead_length_spec b) as (EQ & _ & NU & NF & _); [assumption|].
    destruct (lead_length b) as [n|e| |] eqn:EL; cbn [bind] in E; try congruence.
    destruct (Nat.ltb_spec (length (b :: r ++ [0])) n) as [L|L].
    + exists b, r, n. split; [reflexivity|]. split; [now apply EQ|]. cbn in *. rewrite app_length in L. cbn in L. lia.
    + unfold char_of_bytes in E. destruct (is_valid_utf8_char _) in E; discriminate.
  - exfalso. cbn [app decode_utf8_char] in E.
    destruct (lead_length_spec b) as (EQ & _ & NU & NF & _); [assumption|].
    destruct (lead_length b) as [n|e| |] eqn:EL; cbn [bind] in E; try congruence.
    destruct (Nat.ltb _ _); [discriminate|].
    unfold char_of_bytes in E. destruct (is_valid_utf8_char _) in E; discriminate.
Qed.

Lemma decode_loop_ub f : forall s, Forall is_byte s -> ~ In 0 s -> (length s < f)%nat ->
  decode_loop f (s ++ [0]) <> NoFuel /\
  (decode_loop f (s ++ [0]) = UB -> truncated s).
Proof.
  induction f as [|f IH]; intros s HB HN Hf; [lia|].
  destruct s as [|b r]; [cbn; split; discriminate|].
  destruct (decode_char_cases (b :: r) HB HN) as [(c & X & E & HT & HX)|[(e & E)|(E & b' & rest & n & Es & HA & HL)]];
    [discriminate|..]; cbn [decode_loop app]; cbn [app] in E; rewrite E; cbn [bind];
    destruct (N.eqb_spec b 0) as [->|Hb0]; try (exfalso; apply HN; now left).
  - change (b :: r ++ [0]) with ((b :: r) ++ [0]). rewrite HX, <- app_assoc, skipn_app_l.
    rewrite HX in HB, HN. apply Forall_app in HB.
    assert (HN' : ~ In 0 X) by (intros ?; apply HN, in_or_app; now right).
    assert (HL : (length X < f)%nat).
    { pose proof (unit_nonempty c (proj1 HT)). apply (f_equal (@length N)) in HX.
      rewrite app_length in HX. cbn in HX, Hf. destruct c; [congruence|cbn in HX; lia]. }
    destruct (IH X (proj2 HB) HN' HL) as [IH1 IH2].
    destruct (decode_loop f (X ++ [0])) eqn:ED; cbn; try (split; discriminate); try tauto.
    split; [discriminate|]. intros _. destruct (IH2 eq_refl) as (us & b' & rest & n & H1 & H2 & H3 & H4).
    exists (c :: us), b', rest, n. split; [constructor; [apply HT|assumption]|].
    cbn. rewrite <- app_assoc, <- H2. auto.
  - split; discriminate.
  - split; [discriminate|]. intros _. exists [], b', rest, n. cbn [concat app]. rewrite <- Es. auto.
Qed.

Lemma truncated_ub s : Forall is_byte s -> ~ In 0 s -> truncated s -> string_of_std s = UB.
Proof.
  intros HB HN (us & b & rest & n & HF & -> & HA & HL).
  assert (HT : text us).
  { apply units_text; [assumption|]. intros ?; apply HN, in_or_app; now left. }
  unfold string_of_std, string_of_cstr. pose proof (text_length us HT).
  rewrite <- app_assoc. rewrite decode_loop_text by (assumption || rewrite app_length; cbn; lia).
  set (m := length (concat us ++ (b :: rest) ++ [0])) in *. destruct (S m - length us)%nat eqn:E; unfold m in E;
    [rewrite app_length in E; lia|].
  cbn [app decode_loop decode_utf8_char].
  replace (b =? 0) with false.
  2:{ symmetry. apply N.eqb_neq. intros ->. apply HN, in_or_app. right. now left. }
  apply Forall_app in HB. destruct HB as [_ HB]. inversion HB; subst.
  destruct (lead_length_spec b) as (EQ & _); [assumption|]. apply EQ in HA. rewrite HA. cbn [bind].
  replace (Nat.ltb _ n) with true; [reflexivity|].
  symmetry. apply Nat.ltb_lt. cbn [length] in *. rewrite app_length. cbn. lia.
Qed.

Lemma decode_throws f : forall mem e, decode_loop f mem = Throw e -> e = EInvalidArgument \/ e = ERuntimeError.
Proof.
  induction f as [|f IH]; intros mem e H; [discriminate|]. cbn [decode_loop] in H.
  destruct mem as [|b r]; [discriminate|]. destruct (b =? 0); [discriminate|].
  unfold decode_utf8_char, lead_length, char_of_bytes in H.
  repeat match type of H with
  | context[if ?x then _ else _] => destruct x; cbn [bind] in H
  | bind (decode_loop f ?m) _ = _ => destruct (decode_loop f m) eqn:E; cbn [bind] in H
  end; try discriminate; try (injection H as <-; auto);
  try (left; congruence); try (right; congruence); eapply IH; eassumption.
Qed.

Lemma C14_lemma s : Forall is_byte s -> ~ In 0 s ->
  ((exists t, string_of_std s = Ok t) <-> decodable s) /\
  (string_of_std s = UB <-> truncated s) /\
  (~ decodable s -> ~ truncated s ->
    string_of_std s = Throw EInvalidArgument \/ string_of_std s = Throw ERuntimeError).
Proof.
  intros HB HN. pose proof (success_iff s HB HN) as HS.
  assert (HU : string_of_std s = UB <-> truncated s).
  { split; [|now apply truncated_ub].
    unfold string_of_std, string_of_cstr. intros H.
    eapply decode_loop_ub in H; eauto. rewrite app_length; lia. }
  split; [assumption|]. split; [assumption|]. intros ND NT.
  destruct (string_of_std s) eqn:E.
  - exfalso. apply ND, HS. now exists a.
  - unfold string_of_std, string_of_cstr in E. apply decode_throws in E. destruct E; subst; auto.
  - exfalso. apply NT, HU. reflexivity.
  - exfalso. unfold string_of_std, string_of_cstr in E.
    eapply (decode_loop_ub _ s) in E; eauto. rewrite app_length; lia.
Qed.

Lemma C14_witness : exists s, Forall is_byte s /\ ~ In 0 s /\ string_of_std s = UB.
Proof.
  exists [0x41; 0xF0; 0x9F]. split; [repeat constructor|]. split; [cbn; intuition discriminate|reflexivity].
Qed.

(** Code points *)

Lemma encode_text_char c : 1 <= c < 0x200000 -> text_char (utf8_encode c).
Proof.
  intros H. split; [now apply utf8_encode_unit|]. intros E.
  apply (f_equal utf8_value) in E. rewrite utf8_value_encode in E by lia. cbn in E. lia.
Qed.

Lemma string_of_code_points_encode cps : Forall (fun c => 1 <= c <= 0x10FFFF) cps ->
  string_of_code_points cps = map utf8_encode cps /\ text (string_of_code_points cps).
Proof.
  induction 1 as [|c cps H HF [IH1 IH2]]; [split; [reflexivity|constructor]|].
  unfold string_of_code_points in *. cbn. rewrite C02_lemma by assumption. rewrite IH1.
  split; [reflexivity|]. constructor; [apply encode_text_char; lia|]. now rewrite <- IH1.
Qed.

Lemma decode_code_points cps : Forall (fun c => 1 <= c <= 0x10FFFF) cps ->
  string_of_std (concat (map utf8_encode cps)) = Ok (string_of_code_points cps).
Proof.
  intros H. destruct (string_of_code_points_encode cps H) as [E HT]. rewrite E in *.
  unfold string_of_std. now apply string_of_cstr_text.
Qed.

Lemma byte_count_text s : text s -> s_byte_count s = length (s_str s).
Proof.
  intros H. rewrite s_str_text by assumption. clear H. induction s; cbn; [reflexivity|].
  rewrite app_length. congruence.
Qed.

Lemma C15_lemma cps : Forall (fun c => 1 <= c <= 0x10FFFF) cps ->
  let s := string_of_code_points cps in
  s_size s = length cps /\ s_byte_count s = length (s_str s) /\
  s_byte_count s = length (concat (map utf8_encode cps)) /\
  (forall i c, nth_error cps i = Some c ->
     exists ch, s_index s i = Ok ch /\ s_at s (N.of_nat i) = Ok ch /\ get_code_point ch = Ok c).
Proof.
  intros H s. destruct (string_of_code_points_encode cps H) as [E HT].
  assert (HL : length s = length cps) by apply map_length.
  split; [exact HL|]. split; [now apply byte_count_text|].
  split. { unfold s. rewrite byte_count_text by assumption. rewrite s_str_text by assumption. now rewrite E. }
  intros i c Hi. exists (char_of_code_point c).
  assert (HI : nth_error s i = Some (char_of_code_point c)) by (unfold s, string_of_code_points; now rewrite nth_error_map, Hi).
  assert (Hlt : (i < length s)%nat) by (apply nth_error_Some; congruence).
  unfold s_index, s_at, vec_get, s_size.
  replace (N.of_nat (length s) <=? N.of_nat i) with false by lia.
  rewrite Nnat.Nat2N.id, HI. split; [reflexivity|]. split; [reflexivity|].
  apply code_point_round_trip. apply nth_error_In in Hi. rewrite Forall_forall in H. apply H in Hi. lia.
Qed.

(** Concatenation *)

Lemma vec_set_app {A} (a : list A) y b x : vec_set (a ++ y :: b) (length a) x = Ok (a ++ x :: b).
Proof. induction a as [|z a IH]; cbn; [reflexivity|]. now rewrite IH. Qed.

Lemma copy_from_spec src : forall a rest, 
  copy_from (a ++ repeat [] (length src) ++ rest) (length a) src = Ok (a ++ src ++ rest).
Proof.
  induction src as [|c r IH]; intros a rest; [reflexivity|].
  cbn [copy_from repeat length app]. rewrite vec_set_app. cbn [bind].
  specialize (IH (a ++ [c]) rest). rewrite app_length in IH. cbn in IH.
  replace (length a + 1)%nat with (S (length a)) in IH by lia.
  rewrite <- !app_assoc in IH. exact IH.
Qed.

Lemma s_plus_app s t : s_plus s t = Ok (s ++ t).
Proof.
  unfold s_plus. rewrite repeat_app.
  pose proof (copy_from_spec s [] (repeat [] (length t))) as H. cbn [app length] in H. rewrite H. cbn [bind].
  pose proof (copy_from_spec t s []) as H2. rewrite !app_nil_r in H2.
 rewrite H2. reflexivity.
Qed.

Lemma s_str_app s t : s_str (s ++ t) = s_str s ++ s_str t.
Proof. unfold s_str. now rewrite map_app, concat_app. Qed.

Lemma string_of_cstr_append s t u v r : Forall is_byte (s ++ t) -> ~ In 0 (s ++ t) ->
  string_of_cstr (s ++ 0 :: r) = Ok u -> string_of_cstr (t ++ 0 :: r) = Ok v -> Forall is_byte r ->
  string_of_cstr ((s ++ t) ++ 0 :: r) = Ok (u ++ v).
Proof.
  intros HB HN Hu Hv Hr. apply Forall_app in HB. destruct HB as [Hs Ht].
  apply string_of_cstr_ok in Hu; [|apply Forall_app; split; [assumption|constructor; [reflexivity|assumption]]].
  apply string_of_cstr_ok in Hv; [|apply Forall_app; split; [assumption|constructor; [reflexivity|assumption]]].
  destruct Hu as (HTu & ru & Eu). destruct Hv as (HTv & rv & Ev).
  assert (N1 : ~ In 0 s) by (intros ?; apply HN, in_or_app; now left).
  assert (N2 : ~ In 0 t) by (intros ?; apply HN, in_or_app; now right).
  apply nul_split in Eu; [|assumption|now apply text_no_nul].
  apply nul_split in Ev; [|assumption|now apply text_no_nul].
  destruct Eu as [-> _]. destruct Ev as [-> _]. rewrite <- concat_app.
  apply string_of_cstr_text. apply Forall_app. auto.
Qed.

Lemma append_n_cstr_ok c : forall n s p, char_of_cstr p = Ok c -> s_append_n_cstr s n p = Ok (s ++ repeat c n).
Proof.
  induction n as [|n IH]; intros s p H; cbn; [now rewrite app_nil_r|].
  rewrite H. cbn. rewrite IH by assumption. now rewrite <- app_assoc.
Qed.

Lemma append_n_self_iff cap : forall n s i c, nth_error s i = Some c -> (length s <= cap)%nat ->
  (s_append_n_self cap s n i = Ok (s ++ repeat c n) <-> (n <= cap - length s + 1)%nat) /\
  (s_append_n_self cap s n i = UB <-> (cap - length s + 1 < n)%nat).
Proof.
  induction n as [|n IH]; intros s i c Hi Hc.
  - cbn. rewrite app_nil_r. split; split; intros; try lia; try reflexivity; discriminate.
  - cbn [s_append_n_self]. unfold vec_get. rewrite Hi. cbn [bind].
    destruct (Nat.ltb_spec (length s) cap) as [L|L].
    + specialize (IH (s ++ [c]) i c). rewrite nth_error_app1 in IH by (apply nth_error_Some; congruence).
      rewrite app_length in IH. cbn [length] in IH. destruct (IH Hi ltac:(lia)) as [IH1 IH2].
      cbn [repeat]. replace (s ++ c :: repeat c n) with ((s ++ [c]) ++ repeat c n) by now rewrite <- app_assoc.
      rewrite IH1, IH2. split; lia.
    + destruct n; cbn; split; split; intros; try lia; try reflexivity; try discriminate.
Qed.

(** Substring and Insert *)

Lemma s_substring_spec s pos count :
  (pos <= N.of_nat (length s) ->
     s_substring s pos count = Ok (firstn (N.to_nat (N.min count (N.of_nat (length s)))) (skipn (N.to_nat pos) s))) /\
  (N.of_nat (length s) < pos -> s_substring s pos count = Throw EOutOfRange).
Proof.
  unfold s_substring, string_of_chars. split; intros H.
  - replace (N.of_nat (length s) <? pos) with false by lia. f_equal.
    destruct (N.le_gt_cases (N.of_nat (length s) - pos) count) as [L|L].
    + rewrite !firstn_all2; [reflexivity|rewrite skipn_length; lia..].
    + f_equal. lia.
  - now replace (N.of_nat (length s) <? pos) with true by lia.
Qed.

Lemma s_substring_ok s pos count : pos <= N.of_nat (length s) ->
  exists a m b, s = a ++ m ++ b /\ N.of_nat (length a) = pos /\
    N.of_nat (length m) = N.min count (N.of_nat (length s) - pos) /\
    s_substring s pos count = Ok m.
Proof.
  intros H. unfold s_substring, string_of_chars.
  replace (N.of_nat (length s) <? pos) with false by lia.
  set (n := N.to_nat (N.min count (N.of_nat (length s) - pos))).
  exists (firstn (N.to_nat pos) s), (firstn n (skipn (N.to_nat pos) s)), (skipn n (skipn (N.to_nat pos) s)).
  rewrite firstn_skipn, firstn_skipn. split; [reflexivity|].
  rewrite firstn_length, firstn_length, skipn_length. unfold n. split; [lia|]. split; [lia|reflexivity].
Qed.

Lemma s_substring_split s pos : pos <= N.of_nat (length s) ->
  exists a b, s_substring s 0 pos = Ok a /\ s_substring s pos size_max = Ok b /\
    (N.of_nat (length s) <= size_max -> a ++ b = s).
Proof.
  intros H. destruct (s_substring_spec s 0 pos) as [H1 _]. destruct (s_substring_spec s pos size_max) as [H2 _].
  rewrite H1, H2 by lia. eexists. eexists. split; [reflexivity|]. split; [reflexivity|].
  intros HM. cbn [N.to_nat skipn]. rewrite (firstn_all2 (skipn _ _)) by (rewrite skipn_length; lia).
  replace (N.min pos (N.of_nat (length s))) with pos by lia. apply firstn_skipn.
Qed.

Lemma s_insert_spec s pos t r : s_insert s pos (Other t) = Ok r ->
  exists a b, s = a ++ b /\ N.of_nat (length a) = pos /\ r = a ++ t ++ b /\
    s_substring r pos (N.of_nat (length t)) = Ok t.
Proof.
  unfold s_insert. destruct (N.ltb_spec (N.of_nat (length s)) pos) as [L|L]; [discriminate|].
  intros H. injection H as <-. unfold vec_insert.
  set (a := firstn (N.to_nat pos) s). set (b := skipn (N.to_nat pos) s).
  assert (Ha : length a = N.to_nat pos) by (unfold a; rewrite firstn_length; lia).
  exists a, b. split; [symmetry; apply firstn_skipn|]. split; [lia|]. split; [reflexivity|].
  destruct (s_substring_spec (a ++ t ++ b) pos (N.of_nat (length t))) as [H1 _].
  rewrite H1 by (rewrite !app_length; lia). rewrite <- Ha, skipn_app_l. f_equal.
  rewrite !app_length. replace (N.to_nat _) with (length t) by lia. apply firstn_app_l.
Qed.

(** Prefix, suffix, search *)

Lemma char_eqb_iff a b : char_eqb a b = true <-> a = b.
Proof. apply bytes_eqb_iff. Qed.

Lemma std_equal_spec p : forall s, (length p <= length s)%nat ->
  exists v, std_equal p s = Ok v /\ (v = true <-> exists r, s = p ++ r).
Proof.
  induction p as [|a p IH]; intros s H.
  - exists true. split; [reflexivity|]. split; [intros _; now exists s|reflexivity].
  - destruct s as [|b s]; [cbn in H; lia|]. cbn [std_equal].
    destruct (char_eqb a b) eqn:E.
    + apply char_eqb_iff in E. subst b. destruct (IH s) as (v & Hv & HE); [cbn in H; lia|].
      exists v. split; [assumption|]. rewrite HE. split; intros [r Hr]; exists r; cbn in *; congruence.
    + exists false. split; [reflexivity|]. split; [discriminate|]. intros [r Hr]. injection Hr as -> _.
      assert (char_eqb a a = true) by now apply char_eqb_iff. congruence.
Qed.

Lemma starts_with_spec s p : exists v, s_starts_with s p = Ok v /\ (v = true <-> exists r, s = p ++ r).
Proof.
  unfold s_starts_with. destruct (Nat.ltb_spec (length s) (length p)).
  - exists false. split; [reflexivity|]. split; [discriminate|]. intros [r ->]. rewrite app_length in H. lia.
  - now apply std_equal_spec.
Qed.

Lemma ends_with_spec s p : exists v, s_ends_with s p = Ok v /\ (v = true <-> exists r, s = r ++ p).
Proof.
  unfold s_ends_with. destruct (Nat.ltb_spec (length s) (length p)).
  - exists false. split; [reflexivity|]. split; [discriminate|]. intros [r ->]. rewrite app_length in H. lia.
  - destruct (std_equal_spec (rev p) (rev s)) as (v & Hv & HE); [now rewrite !rev_length|].
    exists v. split; [assumption|]. rewrite HE. split; intros [r Hr].
    + exists (rev r). rewrite <- (rev_involutive s), Hr, rev_app_distr, rev_involutive. reflexivity.
    + exists (rev r). now rewrite Hr, rev_app_distr.
Qed.

Lemma match_at_iff n : forall h, match_at n h = true <-> exists r, h = n ++ r.
Proof.
  induction n as [|a n IH]; intros h.
  - split; [intros _; now exists h|reflexivity].
  - destruct h as [|b h]; cbn.
    + split; [discriminate|]. now intros [r Hr].
    + rewrite andb_true_iff, char_eqb_iff, IH. split.
      * intros [-> [r ->]]. now exists r.
      * intros [r Hr]. injection Hr as -> ->. split; [reflexivity|now exists r].
Qed.

Lemma occurs_at_0 {A} (t s : list A) : occurs_at t s 0 <-> exists r, s = t ++ r.
Proof.
  split.
  - intros ([|x a] & b & -> & H); [now exists b|discriminate].
  - intros [r ->]. now exists [], r.
Qed.

Lemma occurs_at_S {A} (t : list A) x s i : occurs_at t (x :: s) (S i) <-> occurs_at t s i.
Proof.
  split.
  - intros ([|y a] & b & E & H); [discriminate|]. injection E as _ ->. exists a, b. split; [reflexivity|]. cbn in H; lia.
  - intros (a & b & -> & H). exists (x :: a), b. split; [reflexivity|]. cbn; lia.
Qed.

Lemma occurs_at_le {A} (t s : list A) i : occurs_at t s i -> (i + length t <= length s)%nat.
Proof. intros (a & b & -> & <-). rewrite !app_length. lia. Qed.

Lemma std_search_spec t : forall s,
  (std_search s t <= length s)%nat /\
  (forall j, (j < std_search s t)%nat -> ~ occurs_at t s j) /\
  (occurs_at t s (std_search s t) \/ std_search s t = length s /\ forall j, ~ occurs_at t s j).
Proof.
  induction s as [|x s IH]; cbn [std_search].
  - assert (E : (if match_at t [] then 0%nat else 0%nat) = 0%nat) by (destruct (match_at t []); reflexivity).
    rewrite E. split; [cbn; lia|]. split; [intros; lia|].
    destruct (match_at t []) eqn:M.
    + left. apply occurs_at_0, match_at_iff, M.
    + right. split; [reflexivity|]. intros j HO. pose proof (occurs_at_le _ _ _ HO). cbn in H.
      destruct t; [discriminate M|cbn in H; lia].
  - destruct (match_at t (x :: s)) eqn:M.
    + split; [lia|]. split; [intros; lia|]. left. apply occurs_at_0, match_at_iff, M.
    + destruct IH as (I1 & I2 & I3). split; [cbn; lia|].
      assert (H0 : ~ occurs_at t (x :: s) 0).
      { intros H. apply occurs_at_0, match_at_iff in H. congruence. }
      split.
      * intros [|j] Hj; [assumption|]. rewrite occurs_at_S. apply I2. lia.
      * destruct I3 as [I3|[I3 I4]]; [left; now apply occurs_at_S|].
        right. split; [cbn; lia|]. intros [|j]; [assumption|]. rewrite occurs_at_S. apply I4.
Qed.

Lemma occurs_iff {A} (t s : list A) : occurs t s <-> exists i, occurs_at t s i.
Proof.
  split; [intros (a & b & ->); exists (length a), a, b; auto|intros (i & a & b & -> & _); now exists a, b].
Qed.

Lemma contains_spec s t : t <> [] \/ s <> [] -> (s_contains s t = true <-> occurs t s).
Proof.
  intros Hne. unfold s_contains. rewrite negb_true_iff, Nat.eqb_neq, occurs_iff.
  destruct (std_search_spec t s) as (H1 & H2 & H3). destruct H3 as [H3|[H3 H4]].
  - split; [intros _; eauto|]. intros _ E. pose proof (occurs_at_le _ _ _ H3).
    destruct t; [|cbn in H; lia]. destruct s; [tauto|]. cbn in E. discriminate.
  - split; [tauto|]. intros [i Hi]. exfalso. eapply H4; eauto.
Qed.

Lemma contains_empty : s_contains [] [] = false /\ occurs (A := Chr) [] [].
Proof. split; [reflexivity|]. now exists [], []. Qed.

Lemma occurs_at_skipn {A} (t s : list A) p i : (p <= length s)%nat ->
  occurs_at t (skipn p s) i <-> occurs_at t s (p + i).
Proof.
  revert s. induction p as [|p IH]; intros s H; [reflexivity|].
  destruct s as [|x s]; [cbn in H; lia|]. cbn [skipn Nat.add]. rewrite occurs_at_S. apply IH. cbn in H; lia.
Qed.

Lemma find_spec s t pos : t <> [] -> pos <= N.of_nat (length s) ->
  exists r, s_find s t pos = Ok r /\
    match r with
    | Some i => pos <= N.of_nat i /\ occurs_at t s i /\
                forall j, pos <= N.of_nat j -> occurs_at t s j -> (i <= j)%nat
    | None => forall j, pos <= N.of_nat j -> ~ occurs_at t s j
    end.
Proof.
  intros Ht Hp. unfold s_find. replace (N.of_nat (length s) <? pos) with false by lia.
  set (p := N.to_nat pos). destruct (std_search_spec t (skipn p s)) as (H1 & H2 & H3).
  rewrite skipn_length in *. eexists. split; [reflexivity|].
  destruct (Nat.eqb_spec (p + std_search (skipn p s) t) (length s)) as [E|E].
  - intros j Hj HO. destruct H3 as [H3|[H3 H4]].
    + apply occurs_at_skipn in H3; [|lia]. apply occurs_at_le in H3. destruct t; [congruence|cbn in H3; lia].
    + apply (H4 (j - p)%nat). apply occurs_at_skipn; [lia|]. now replace (p + (j - p))%nat with j by lia.
  - destruct H3 as [H3|[H3 H4]]; [|lia]. apply occurs_at_skipn in H3; [|lia].
    split; [lia|]. split; [assumption|]. intros j Hj HO.
    destruct (Nat.le_gt_cases (p + std_search (skipn p s) t) j) as [L|L]; [assumption|].
    exfalso. apply (H2 (j - p)%nat); [lia|]. apply occurs_at_skipn; [lia|]. now replace (p + (j - p))%nat with j by lia.
Qed.

Lemma find_empty s pos : 
  (pos < N.of_nat (length s) -> s_find s [] pos = Ok (Some (N.to_nat pos))) /\
  (pos = N.of_nat (length s) -> s_find s [] pos = Ok None) /\
  (N.of_nat (length s) < pos -> forall t, s_find s t pos = UB).
Proof.
  unfold s_find. assert (E : forall h, std_search h [] = 0%nat) by (intros []; reflexivity).
  split; [|split].
  - intros H. replace (N.of_nat (length s) <? pos) with false by lia. rewrite E, Nat.add_0_r.
    now replace (Nat.eqb _ _) with false by (symmetry; apply Nat.eqb_neq; lia).
  - intros ->. rewrite N.ltb_irrefl, E, Nat.add_0_r, Nnat.Nat2N.id, Nat.eqb_refl. reflexivity.
  - intros H t. now replace (N.of_nat (length s) <? pos) with true by lia.
Qed.

Lemma occurs_at_rev {A} (t s : list A) k : (k + length t <= length s)%nat ->
  occurs_at (rev t) (rev s) k <-> occurs_at t s (length s - k - length t).
Proof.
  intros HK. split.
  - intros (a & b & E & Hk). apply (f_equal (@rev A)) in E. rewrite rev_involutive, !rev_app_distr, rev_involutive in E.
    exists (rev b), (rev a). rewrite <- app_assoc in E. split; [assumption|].
    rewrite E, !app_length, !rev_length. lia.
  - intros (a & b & E & Hk). exists (rev b), (rev a). rewrite E, !rev_app_distr, <- app_assoc.
    split; [reflexivity|]. rewrite E, !app_length in Hk, HK. rewrite rev_length. lia.
Qed.

Lemma occurs_ending_iff {A} (t s : list A) e : t <> [] ->
  occurs_ending_at t s e <-> (length t <= e + 1)%nat /\ occurs_at t s (e + 1 - length t).
Proof.
  intros Ht. unfold occurs_ending_at, occurs_at. split.
  - intros (a & b & E & H). split; [lia|]. exists a, b. split; [assumption|lia].
  - intros (H & a & b & E & H'). exists a, b. split; [assumption|lia].
Qed.

Lemma wrap64_small z : (0 <= z < 18446744073709551616)%Z -> wrap64 z = Z.to_N z.
Proof. intros H. unfold wrap64. now rewrite Z.mod_small. Qed.

Lemma reverse_find_spec s t pos : t <> [] -> N.of_nat (length s) <= size_max ->
  exists r, s_reverse_find s t pos = Ok r /\
    match r with
    | Some e => N.of_nat e <= pos /\ occurs_ending_at t s e /\
                forall j, N.of_nat j <= pos -> occurs_ending_at t s j -> (j <= e)%nat
    | None => forall j, N.of_nat j <= pos -> ~ occurs_ending_at t s j
    end.
Proof.
  intros Ht HM. unfold s_reverse_find.
  destruct (Nat.ltb_spec (length s) (length t)) as [L|L].
  - exists None. split; [reflexivity|]. intros j _ (a & b & E & _).
    apply (f_equal (@length _)) in E. rewrite !app_length in E. lia.
  - assert (Hs : (1 <= length s)%nat) by (destruct t; [congruence|cbn in L; lia]).
    cbv zeta. set (p' := if N.of_nat (length s) <=? pos then _ else pos).
    assert (Hp' : p' = N.min pos (N.of_nat (length s) - 1)).
    { unfold p'. destruct (N.leb_spec (N.of_nat (length s)) pos).
      - rewrite wrap64_small by (unfold size_max in HM; lia). lia.
      - lia. }
    rewrite wrap64_small by (unfold size_max in HM; lia).
    replace (N.of_nat (length s) <? _) with false by lia.
    set (o := N.to_nat (Z.to_N (Z.of_nat (length s) - Z.of_N p' - 1))).
    assert (Ho : (o = length s - N.to_nat p' - 1)%nat) by lia.
    assert (Hol : (o <= length (rev s))%nat) by (rewrite rev_length; lia).
    destruct (std_search_spec (rev t) (skipn o (rev s))) as (H1 & H2 & H3).
    rewrite skipn_length, rev_length in *.
    set (k := std_search (skipn o (rev s)) (rev t)) in *.
    assert (Hlt : (1 <= length t)%nat) by (destruct t; [congruence|cbn; lia]).
    assert (KEY : forall j, (j < length s)%nat -> N.of_nat j <= pos -> occurs_ending_at t s j -> 
               occurs_at (rev t) (skipn o (rev s)) (length s - 1 - j - o)%nat).
    { intros j Hj Hjp HO. apply occurs_ending_iff in HO; [|assumption]. destruct HO as [HO1 HO].
      apply occurs_at_skipn; [rewrite rev_length; lia|]. apply occurs_at_rev; [lia|].
      replace (length s - (o + (length s - 1 - j - o)) - length t)%nat with (j + 1 - length t)%nat by lia. assumption. }
    assert (BND : forall j, occurs_ending_at t s j -> (j < length s)%nat).
    { intros j (a & b & E & H). rewrite E, !app_length. lia. }
    eexists. split; [reflexivity|].
    destruct (Nat.eqb_spec (o + k) (length s)) as [E|E].
    + intros j Hj HO. pose proof (BND j HO). apply KEY in HO; [|assumption..].
      destruct H3 as [H3|[H3 H4]]; [|eapply H4; eassumption].
      apply occurs_at_le in H3. rewrite skipn_length, !rev_length in H3. lia.
    + destruct H3 as [H3|[H3 H4]]; [|lia].
      pose proof (occurs_at_le _ _ _ H3) as HL. rewrite skipn_length, !rev_length in HL.
      apply occurs_at_skipn in H3; [|rewrite rev_length; lia]. apply occurs_at_rev in H3; [|lia].
      split; [lia|]. split.
      * apply occurs_ending_iff; [assumption|]. split; [lia|].
        now replace (length s - 1 - (o + k) + 1 - length t)%nat with (length s - (o + k) - length t)%nat by lia.
      * intros j Hj HO. pose proof (BND j HO). apply KEY in HO; [|assumption..].
        destruct (Nat.le_gt_cases j (length s - 1 - (o + k))) as [L2|L2]; [assumption|].
        exfalso. apply (H2 (length s - 1 - j - o)%nat); [lia|assumption].
Qed.

Lemma reverse_find_single s c pos : N.of_nat (length s) <= size_max ->
  exists r, s_reverse_find s [c] pos = Ok r /\
    match r with
    | Some i => N.of_nat i <= pos /\ occurs_at [c] s i /\
                forall j, N.of_nat j <= pos -> occurs_at [c] s j -> (j <= i)%nat
    | None => forall j, N.of_nat j <= pos -> ~ occurs_at [c] s j
    end.
Proof.
  intros HM. destruct (reverse_find_spec s [c] pos) as (r & Hr & H); [discriminate|assumption|].
  exists r. split; [assumption|].
  assert (EQ : forall j, occurs_ending_at [c] s j <-> occurs_at [c] s j).
  { intros j. rewrite occurs_ending_iff by discriminate. cbn [length].
    replace (j + 1 - 1)%nat with j by lia. split; [tauto|]. split; [lia|assumption]. }
  destruct r as [i|]; [destruct H as (H1 & H2 & H3)|]; setoid_rewrite EQ in H || idtac.
  - rewrite EQ in H2. split; [assumption|]. split; [assumption|].
    intros j Hj HO. apply H3; [assumption|]. now apply EQ.
  - intros j Hj HO. apply (H j Hj). assumption.
Qed.

Lemma reverse_find_wrong :
  exists s t i, s_reverse_find s t size_max = Ok (Some i) /\ ~ occurs_at t s i /\ occurs t s.
Proof.
  exists [[0x61]; [0x62]; [0x63]], [[0x61]; [0x62]], 1%nat. split; [reflexivity|]. split.
  - intros (a & b & E & H). destruct a as [|x [|y a]]; try discriminate.
  - exists [], [[0x63]]. reflexivity.
Qed.

(** Order *)

Lemma s_eqb_iff s : forall t, s_eqb s t = true <-> s = t.
Proof.
  induction s as [|a s IH]; intros [|b t]; cbn; try (split; (reflexivity || discriminate)).
  rewrite andb_true_iff, char_eqb_iff, IH. split; [intros [-> ->]; reflexivity|intros H; injection H; auto].
Qed.

Lemma s_ltb_iff s : forall t, s_ltb s t = true <-> lex lex_lt s t.
Proof.
  unfold char_ltb. induction s as [|a s IH]; intros [|b t]; cbn.
  - split; [discriminate|intros H; inversion H].
  - split; [intros _; constructor|reflexivity].
  - split; [discriminate|intros H; inversion H].
  - unfold char_ltb. destruct (bytes_ltb a b) eqn:E1.
    + apply bytes_ltb_iff in E1. split; [intros _; now constructor|reflexivity].
    + destruct (bytes_ltb b a) eqn:E2.
      * split; [discriminate|]. intros H. inversion H; subst.
        -- apply bytes_ltb_iff in H1. congruence.
        -- apply bytes_ltb_iff in E2. now apply lex_lt_irrefl in E2.
      * assert (a = b).
        { destruct (lex_lt_total a b) as [H|[H|H]]; [|assumption|]; apply bytes_ltb_iff in H; congruence. }
        subst b. rewrite IH. split; [now constructor|]. intros H. inversion H; subst; [|assumption].
        apply lex_lt_irrefl in H1. contradiction.
Qed.

Section Lex.
  Context {A : Type} (lt : A -> A -> Prop).
  Hypothesis irr : forall x, ~ lt x x.
  Hypothesis tr : forall x y z, lt x y -> lt y z -> lt x z.
  Hypothesis tot : forall x y, lt x y \/ x = y \/ lt y x.
  Lemma lex_irr s : ~ lex lt s s.
  Proof. induction s; intros H; inversion H; subst; [eapply irr; eassumption|auto]. Qed.
  Lemma lex_tr s : forall t u, lex lt s t -> lex lt t u -> lex lt s u.
  Proof.
    induction s; intros t u H1 H2.
    - inversion H1; subst; inversion H2; subst; constructor.
    - inversion H1; subst; inversion H2; subst; try (now constructor).
      + constructor. eapply tr; eassumption.
      + apply lex_tail'. eapply IHs; eassumption.
  Qed.
  Lemma lex_tot s : forall t, lex lt s t \/ s = t \/ lex lt t s.
  Proof.
    induction s as [|a s IH]; intros [|b t]; try (now (left; constructor)); try (now (right; right; constructor)); auto.
    destruct (tot a b) as [H|[H|H]].
    - left. now constructor.
    - subst b. destruct (IH t) as [H|[H|H]].
      + left. now apply lex_tail'.
      + subst. auto.
      + right. right. now apply lex_tail'.
    - right. right. now constructor.
  Qed.
End Lex.

Lemma s_order_total :
  (forall s, s_ltb s s = false) /\
  (forall s t u, s_ltb s t = true -> s_ltb t u = true -> s_ltb s u = true) /\
  (forall s t, s_ltb s t = true \/ s = t \/ s_ltb t s = true).
Proof.
  split; [|split].
  - intros s. destruct (s_ltb s s) eqn:E; [|reflexivity]. apply s_ltb_iff in E.
    exfalso. revert E. apply lex_irr. exact lex_lt_irrefl.
  - intros s t u. rewrite !s_ltb_iff. apply lex_tr. exact lex_lt_trans.
  - intros s t. rewrite !s_ltb_iff. apply lex_tot. exact lex_lt_total.
Qed.

Lemma s_order_consistent s t :
  (s_eqb s t = true <-> s = t) /\
  s_neb s t = negb (s_eqb s t) /\
  s_gtb s t = s_ltb t s /\
  s_leb s t = s_ltb s t || s_eqb s t /\
  s_geb s t = s_ltb t s || s_eqb s t.
Proof.
  assert (LE : forall s t, s_leb s t = s_ltb s t || s_eqb s t).
  { intros x y. unfold s_leb. destruct s_order_total as (IR & TR & TO).
    destruct (s_ltb y x) eqn:E; cbn.
    - symmetry. apply orb_false_iff. split.
      + destruct (s_ltb x y) eqn:E2; [|reflexivity]. pose proof (TR _ _ _ E E2). rewrite IR in H. discriminate.
      + destruct (s_eqb x y) eqn:E2; [|reflexivity]. apply s_eqb_iff in E2. subst. now rewrite IR in E.
    - symmetry. apply orb_true_iff. destruct (TO x y) as [H|[H|H]]; [now left|right; now apply s_eqb_iff|congruence]. }
  split; [apply s_eqb_iff|]. split; [reflexivity|]. split; [reflexivity|]. split; [apply LE|].
  change (s_geb s t) with (s_leb t s). rewrite LE. f_equal.
  apply bool_eq_iff. rewrite !s_eqb_iff. split; auto.
Qed.

(** Units are a prefix code, so comparing Chars is comparing bytes. *)

Lemma unit_prefix_free u v x y : utf8_unit u -> utf8_unit v -> u ++ x = v ++ y -> u = v /\ x = y.
Proof.
  intros Hu Hv E.
  inversion Hu; subst; inversion Hv; subst; cbn in E;
   injection E as; subst; unfold continuation in *; try (exfalso; lia); split; reflexivity || assumption.
Qed.

Lemma lex_unit_app u v x y : utf8_unit u -> utf8_unit v -> lex_lt u v -> lex_lt (u ++ x) (v ++ y).
Proof.
  intros Hu Hv H.
  assert (NP : forall r, v <> u ++ r \/ r = []).
  { intros r. destruct r as [|z r]; [now right|left]. intros E.
    assert (E' : u ++ (z :: r) = v ++ []) by (now rewrite app_nil_r).
    apply unit_prefix_free in E'; [|assumption..]. destruct E'; discriminate. }
  clear Hu Hv. revert NP. induction H as [z b|a b u v Hab|a u v H IH]; intros NP.
  - exfalso. destruct (NP (z :: b)) as [H|H]; [now apply H|discriminate].
  - cbn. now constructor.
  - cbn. apply lex_tail. apply IH. intros r. destruct (NP r) as [H1|H1]; [left|now right].
    intros ->. now apply H1.
Qed.

Lemma lex_lt_app_same c x y : lex_lt (c ++ x) (c ++ y) <-> lex_lt x y.
Proof.
  induction c as [|b c IH]; cbn; [reflexivity|]. rewrite <- IH. split; [|now constructor].
  intros H. inversion H; subst; [lia|assumption].
Qed.

Lemma lex_concat s : forall t, text s -> text t -> lex lex_lt s t -> lex_lt (concat s) (concat t).
Proof.
  intros t Hs Ht H. induction H as [v t|u v s t Huv|u s t H IH]; cbn.
  - inversion Ht; subst. destruct v; [destruct H1 as [H1 _]; inversion H1|]. constructor.
  - inversion Hs; inversion Ht; subst. apply lex_unit_app; [apply H1|apply H5|assumption].
  - apply lex_lt_app_same. inversion Hs; inversion Ht; subst. auto.
Qed.

Lemma concat_text_inj s : forall t, text s -> text t -> concat s = concat t -> s = t.
Proof.
  intros t Hs Ht E. pose proof (string_of_cstr_text s [] Hs) as H1. rewrite E in H1.
  rewrite string_of_cstr_text in H1 by assumption. congruence.
Qed.

Lemma s_ltb_bytes s t : text s -> text t ->
  s_ltb s t = bytes_ltb (s_str s) (s_str t) /\ s_eqb s t = bytes_eqb (s_str s) (s_str t).
Proof.
  intros Hs Ht. rewrite !s_str_text by assumption. split; apply bool_eq_iff.
  - rewrite s_ltb_iff, bytes_ltb_iff. split; [now apply lex_concat|].
    intros H. destruct (lex_tot lex_lt lex_lt_total s t) as [L|[->|L]]; [assumption|..].
    + now apply lex_lt_irrefl in H.
    + apply lex_concat in L; [|assumption..]. exfalso. eapply lex_lt_irrefl, lex_lt_trans; eassumption.
  - rewrite s_eqb_iff, bytes_eqb_iff. split; [congruence|now apply concat_text_inj].
Qed.

Lemma s_ltb_code_points a b : Forall (fun c => c <= 0x10FFFF) a -> Forall (fun c => c <= 0x10FFFF) b ->
  (s_ltb (string_of_code_points a) (string_of_code_points b) = true <-> lex_lt a b) /\
  (s_eqb (string_of_code_points a) (string_of_code_points b) = true <-> a = b).
Proof.
  intros Ha. revert b. induction Ha as [|x a Hx Ha IH]; intros b Hb; destruct Hb as [|y b Hy Hb]; cbn.
  - split; split; try discriminate; try reflexivity; intros H; inversion H.
  - split; split; try discriminate; try reflexivity. intros _. constructor.
  - split; split; try discriminate; intros H; inversion H.
  - destruct (C05_lemma x y Hx Hy) as (L1 & _ & L2 & _ & L3 & _). unfold char_gtb in L2.
    change (bytes_ltb (char_of_code_point y) (char_of_code_point x)) with (char_ltb (char_of_code_point y) (char_of_code_point x)) in L2.
    rewrite L1, L2, L3. destruct (IH b Hb) as [I1 I2]. unfold string_of_code_points in *.
    split.
    + destruct (N.ltb_spec x y); [split; [intros _; now constructor|reflexivity]|].
      destruct (N.ltb_spec y x); [split; [discriminate|intros H1; inversion H1; subst; lia]|].
      assert (x = y) by lia. subst y. rewrite I1. split; [now constructor|].
      intros H1; inversion H1; subst; [lia|assumption].
    + rewrite andb_true_iff, I2. split; [intros [E ->]; f_equal; lia|].
      intros E; injection E as -> ->. split; [lia|reflexivity].
Qed.

(** Case conversion *)

Lemma mapM_map {A B C} (f : A -> outcome B) (g : C -> A) (h : C -> B) l :
  (forall x, In x l -> f (g x) = Ok (h x)) -> mapM f (map g l) = Ok (map h l).
Proof.
  induction l as [|x l IH]; intros H; cbn; [reflexivity|].
  rewrite H by now left. cbn. rewrite IH by (intros; apply H; now right). reflexivity.
Qed.

Lemma case_code_points cps : Forall (fun c => c < 0x200000) cps ->
  s_to_uppercase (string_of_code_points cps) = Ok (string_of_code_points (map to_uppercase cps)) /\
  s_to_lowercase (string_of_code_points cps) = Ok (string_of_code_points (map to_lowercase cps)).
Proof.
  intros H. rewrite Forall_forall in H. unfold s_to_uppercase, s_to_lowercase, string_of_code_points.
  rewrite !map_map. split; apply mapM_map; intros x Hx;
  rewrite (proj2 (code_point_round_trip x) (H x Hx)); reflexivity.
Qed.

Lemma mapM_length {A B} (f : A -> outcome B) l r : mapM f l = Ok r -> length r = length l.
Proof.
  revert r. induction l as [|x l IH]; cbn; intros r H; [injection H as <-; reflexivity|].
  apply bind_ok in H. destruct H as (y & _ & H). apply bind_ok in H. destruct H as (ys & H1 & H).
  injection H as <-. cbn. f_equal. now apply IH.
Qed.

Lemma mapM_nth {A B} (f : A -> outcome B) l r : mapM f l = Ok r ->
  forall i x, nth_error l i = Some x -> exists y, nth_error r i = Some y /\ f x = Ok y.
Proof.
  revert r. induction l as [|x l IH]; cbn; intros r H i z Hz; [destruct i; discriminate|].
  apply bind_ok in H. destruct H as (y & Hy & H). apply bind_ok in H. destruct H as (ys & H1 & H).
  injection H as <-. destruct i as [|i]; cbn in *; [injection Hz as <-; eauto|eauto].
Qed.

Lemma case_text s : text s ->
  (exists u, s_to_uppercase s = Ok u) /\ (exists l, s_to_lowercase s = Ok l).
Proof.
  intros H. unfold s_to_uppercase, s_to_lowercase.
  assert (G : forall g : N -> Chr, exists u, mapM (fun c => cp <- get_code_point c ;; Ok (g cp)) s = Ok u).
  { intros g. induction H as [|c s Hc H IH]; [now exists []|]. cbn.
    rewrite get_code_point_unit by apply Hc. cbn. destruct IH as [u ->]. cbn. eauto. }
  split; apply (G (fun cp => from_code_point _)).
Qed.

Lemma s_at_spec s i :
  (i < N.of_nat (s_size s) -> exists c, nth_error s (N.to_nat i) = Some c /\ s_at s i = Ok c) /\
  (N.of_nat (s_size s) <= i -> s_at s i = Throw EOutOfRange).
Proof.
  unfold s_at, s_size, vec_get. split; intros H.
  - replace (N.of_nat (length s) <=? i) with false by lia.
    destruct (nth_error s (N.to_nat i)) eqn:E; [eauto|]. apply nth_error_None in E. lia.
  - now replace (N.of_nat (length s) <=? i) with true by lia.
Qed.

Lemma embedded_nul s r t : Forall is_byte (s ++ 0 :: r) -> ~ In 0 s ->
  string_of_std s = Ok t -> string_of_std (s ++ 0 :: r) = Ok t.
Proof.
  intros HB HN H. unfold string_of_std in *. rewrite <- app_assoc. cbn [app].
  apply Forall_app in HB. destruct HB as [HB _].
  apply string_of_cstr_ok in H; [|apply Forall_app; split; [assumption|repeat constructor]].
  destruct H as (HT & r' & E). apply nul_split in E; [|assumption|now apply text_no_nul].
  destruct E as [-> _]. now apply string_of_cstr_text.
Qed.

Lemma concatenation s t :
  s_plus s t = Ok (s ++ t) /\ s_append_assign s (Other t) = Ok (s ++ t) /\
  (forall c, s_push_back s c = s ++ [c]) /\
  (forall c n, s_append_n_char s n c = s ++ repeat c n) /\
  s_str (s ++ t) = s_str s ++ s_str t.
Proof. split; [apply s_plus_app|]. repeat split. apply s_str_app. Qed.

Lemma append_bytes s t u : Forall is_byte t -> ~ In 0 t -> s_append_cstr s (t ++ [0]) = Ok u ->
  s_str u = s_str s ++ t /\ exists v, u = s ++ v.
Proof.
  intros HB HN H. unfold s_append_cstr in H. apply bind_ok in H. destruct H as (v & Hv & H).
  injection H as <-. apply bytes_in_bytes_out in Hv;
    [|apply Forall_app; split; [assumption|repeat constructor]|assumption].
  rewrite s_str_app. destruct Hv as (-> & _ & _). split; [reflexivity|now exists v].
Qed.

Lemma insert_lemma s pos t :
  (N.of_nat (length s) < pos -> s_insert s pos (Other t) = Throw EOutOfRange) /\
  (pos <= N.of_nat (length s) ->
   exists a b, s = a ++ b /\ N.of_nat (length a) = pos /\
     s_insert s pos (Other t) = Ok (a ++ t ++ b) /\
     s_substring (a ++ t ++ b) pos (N.of_nat (length t)) = Ok t).
Proof.
  split; intros H.
  - unfold s_insert. now replace (N.of_nat (length s) <? pos) with true by lia.
  - destruct (s_insert s pos (Other t)) as [r|e| |] eqn:E.
    + destruct (s_insert_spec _ _ _ _ E) as (a & b & H1 & H2 & -> & H3). exists a, b. auto.
    + unfold s_insert in E. replace (N.of_nat (length s) <? pos) with false in E by lia. discriminate.
    + unfold s_insert in E. replace (N.of_nat (length s) <? pos) with false in E by lia. discriminate.
    + unfold s_insert in E. replace (N.of_nat (length s) <? pos) with false in E by lia. discriminate.
Qed.

Lemma insert_variants s pos : pos <= N.of_nat (length s) ->
  (forall n ch, s_insert_n_char s pos n ch = s_insert s pos (Other (repeat ch n))) /\
  (forall mem t, string_of_cstr mem = Ok t -> s_insert_cstr s pos mem = s_insert s pos (Other t)).
Proof.
  intros H. unfold s_insert_n_char, s_insert_cstr, s_insert. split; [reflexivity|].
  intros mem t ->. reflexivity.
Qed.

Lemma find_empty_witness : exists s pos, s_find s [] pos = Ok None /\ occurs_at [] s (N.to_nat pos).
Proof. exists [], 0. split; [reflexivity|]. now exists [], []. Qed.

Lemma order_of_bytes s t : text s -> text t ->
  (s_ltb s t = true <-> lex_lt (s_str s) (s_str t)) /\ (s_eqb s t = true <-> s_str s = s_str t).
Proof.
  intros Hs Ht. destruct (s_ltb_bytes s t Hs Ht) as [-> ->]. now rewrite bytes_ltb_iff, bytes_eqb_iff.
Qed.

Lemma order_with_c_strings s t : text s -> text t ->
  s_lt_cstr s (s_str t) = s_ltb s t /\ s_gt_cstr s (s_str t) = s_gtb s t /\
  s_le_cstr s (s_str t) = s_leb s t /\ s_ge_cstr s (s_str t) = s_geb s t /\
  s_eq_cstr s (s_str t) = s_eqb s t /\ s_ne_cstr s (s_str t) = s_neb s t.
Proof.
  intros Hs Ht. unfold s_lt_cstr, s_gt_cstr, s_le_cstr, s_ge_cstr, s_eq_cstr, s_ne_cstr, s_gtb, s_leb, s_geb, s_neb.
  destruct (s_ltb_bytes s t Hs Ht) as [-> ->]. destruct (s_ltb_bytes t s Ht Hs) as [-> _]. repeat split.
Qed.

Lemma case_length s u : s_to_uppercase s = Ok u \/ s_to_lowercase s = Ok u -> length u = length s.
Proof. intros [H|H]; eapply mapM_length, H. Qed.

From Verif Require Import SpecChar CharUtilProofs.

Lemma case_ascii cps : Forall (fun c => c < 0x80) cps ->
  exists u l, s_to_uppercase (string_of_code_points cps) = Ok (string_of_code_points u) /\
    s_to_lowercase (string_of_code_points cps) = Ok (string_of_code_points l) /\
    Forall2 (fun c d => (ascii_lower c -> d = c - 32) /\ (~ ascii_lower c -> d = c)) cps u /\
    Forall2 (fun c d => (ascii_upper c -> d = c + 32) /\ (~ ascii_upper c -> d = c)) cps l.
Proof.
  intros H. exists (map to_uppercase cps), (map to_lowercase cps).
  destruct (case_code_points cps) as [-> ->].
  { eapply Forall_impl; [|exact H]. cbn; intros; lia. }
  split; [reflexivity|]. split; [reflexivity|].
  split; induction H as [|c cps Hc H IH]; cbn; constructor; try assumption;
  destruct (ascii_case c Hc) as (A1 & A2 & A3); unfold ascii_upper, ascii_lower in *.
  - split; [intros L; apply A1, L|]. intros NL.
    destruct (N.le_gt_cases 0x41 c); [destruct (N.le_gt_cases c 0x5A)|];
      [apply A2; lia|apply A3; lia|apply A3; lia].
  - split; [intros L; apply A2, L|]. intros NL.
    destruct (N.le_gt_cases 0x61 c); [destruct (N.le_gt_cases c 0x7A)|];
      [apply A1; lia|apply A3; lia|apply A3; lia].
Qed.

Lemma lowercase_changes_text : exists cps,
  Forall (fun c => c <= 0x10FFFF) cps /\ Forall (fun c => is_letter c = false) cps /\
  s_to_lowercase (string_of_code_points cps) <> Ok (string_of_code_points cps).
Proof.
  exists [0x4E16]. split; [repeat constructor; vm_compute; congruence|]. split; [repeat constructor|].
  vm_compute. discriminate.
Qed.
