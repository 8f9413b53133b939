(** The JSON parser on texts: objects, arrays and whole documents; it succeeds exactly on the texts of the
    library's grammar. *)
From Coq Require Import List NArith ZArith Bool Arith Lia.
From Verif Require Import Outcome CharModel CharUtil StrModel StrUtil Dec JsonData JsonParse SpecJson SpecUtf8 SpecStr SpecChar SpecInt
  SpecJsonText CharProofs CharUtilProofs StrProofs StrUtilProofs DecProofs JsonDataProofs JsonParseSafe JsonParseProofs.
Import ListNotations.
Local Open Scope list_scope.
Local Arguments is_space : simpl never.
Local Arguments is_digit : simpl never.
Local Arguments get_code_point : simpl never.
Local Arguments white_space : simpl never.

Scheme vt_mind := Minimality for value_text Sort Prop
  with mt_mind := Minimality for member_text Sort Prop
  with mst_mind := Minimality for members_text Sort Prop
  with est_mind := Minimality for elements_text Sort Prop.
Combined Scheme text_mutind from vt_mind, mt_mind, mst_mind, est_mind.

Lemma put_upd {F} (ms : list (Str * json F)) k v : upd ms k (fun _ => v) = put_member ms k v.
Proof.
  induction ms as [|[k' x] r IH]; cbn; [reflexivity|]. rewrite s_eqb_dec, IH. destruct (key_dec k' k) as [->|]; reflexivity.
Qed.
Definition puts {F} (ms : list (Str * json F)) (ps : list (Str * json F)) := fold_left (fun ms p => put_member ms (fst p) (snd p)) ps ms.

Section Grammar.
Context {F : Type}.
Variable f_zero : F.
Variable stod : list N -> conversion F.
Variable s : Str.
Hypothesis T : text s.
Notation json := (json F).
Notation result := (json * nat * jerror)%type.
Notation simple := (lib_simple (concat s) hex_of (real_of stod)).
Notation VT := (value_text lib_ws lib_key simple).
Notation MT := (member_text lib_ws lib_key simple).
Notation MST := (members_text lib_ws lib_key simple).
Notation EST := (elements_text lib_ws lib_key simple).

Lemma index_char p c : s_index s p = Ok c -> nth_error s p = Some c /\ (p < length s)%nat.
Proof. apply s_index_ok. Qed.

Lemma skip_skip p q : skip_space s p = Ok q -> (q < length s)%nat -> skip_space s q = Ok q.
Proof.
  intros H L. destruct (skip_inv s T p q H) as (w & _ & _ & N); [lia|]. destruct (nth_error s q) as [c|] eqn:E.
  - eapply skip_here; eauto.
  - apply nth_error_None in E. lia.
Qed.

(** ** What is accepted is in the grammar *)
Definition pv_sound (lo : nat) (pv : nat -> jerror -> outcome result) : Prop :=
  forall pos err v q p, (lo <= pos)%nat -> pv pos err = Ok (v, q, NoError) -> skip_space s pos = Ok p -> (p < length s)%nat ->
    (q <= length s)%nat -> err = NoError /\ exists t, seg s p q t /\ VT p t v.

Lemma key_found p e : s_find s [[0x22%N]] (N.of_nat p) = Ok (Some e) -> (p <= length s)%nat ->
  exists kt, seg s p e kt /\ ~ In (ch 0x22%N) kt /\ nth_error s e = Some (ch 0x22%N).
Proof.
  intros H L. destruct (find_spec s [[0x22%N]] (N.of_nat p)) as (r & E & K); [discriminate|lia|]. assert (r = Some e) as -> by congruence.
  destruct K as (Le & (a & b & Es & La) & M). assert (G : seg s e (S e) [ch 0x22%N]) by (exists a, b; repeat split; auto; cbn; lia).
  apply seg_head in G as [Hq _].
  assert (Lt : (e < length s)%nat) by (apply nth_error_Some; congruence).
  exists (firstn (e - p) (skipn p s)). pose proof (seg_of s p e) as G. assert (Hpe : (p <= e <= length s)%nat) by lia.
  specialize (G Hpe). split; [exact G|]. split; [|exact Hq]. intros I. apply in_split in I as (x & y & Exy). rewrite Exy in G.
  apply seg_split in G as [_ G]. apply seg_head in G as [G G']. apply seg_le in G' as [G' _].
  apply nth_error_split in G as (a' & b' & Es' & La'). assert (e <= p + length x)%nat; [|lia]. apply M; [lia|]. now exists a', b'.
Qed.

Lemma object_sound lo pv : pv_sound lo pv -> pv_good lo pv -> forall fuel ms pos err v q, (lo <= pos)%nat ->
  object_loop f_zero s pv fuel (JObj ms) pos err = Ok (v, q, NoError) -> skip_space s pos = Ok pos ->
  err = NoError /\
  (nth_error s pos = Some (ch 0x7D%N) /\ v = JObj ms /\ q = S pos \/
   exists t ps, seg s pos q (t ++ [ch 0x7D%N]) /\ MST pos t ps /\ v = JObj (puts ms ps)).
Proof.
  intros P PG. induction fuel as [|f IH]; intros ms pos err v q Lo H Sk; [discriminate|]. cbn [object_loop] in H.
  destruct (Nat.ltb_spec pos (length s)) as [L|L]; [|discriminate]. rewrite Sk in H. cbn [bind] in H.
  apply bind_ok in H as (c & Hc & H). apply index_char in Hc as [Hc _].
  destruct (is_ascii c 0x7D) eqn:E7.
  { apply is_ascii_iff in E7 as ->. injection H as <- <- ->. auto. }
  destruct (is_ascii c 0x22) eqn:E2; [|discriminate]. apply is_ascii_iff in E2 as ->.
  apply bind_ok in H as ([e|] & He & H); [|discriminate]. apply key_found in He as (kt & Gk & Nk & Hq); [|lia].
  apply bind_ok in H as (key & Hkey & H). rewrite (seg_substring _ _ _ _ _ Gk) in Hkey by reflexivity. assert (key = kt) as -> by congruence. clear Hkey.
  apply bind_ok in H as (p1 & Hp1 & H). apply bind_ok in H as (c1 & Hc1 & H). apply index_char in Hc1 as [Hc1 L1].
  destruct (is_ascii c1 0x3A) eqn:E3; [|discriminate]. apply is_ascii_iff in E3 as ->.
  apply bind_ok in H as (p2 & Hp2 & H). apply bind_ok in H as ([[v1 p3] e1] & Hv & H).
  apply bind_ok in H as (p4 & Hp4 & H). apply bind_ok in H as (c4 & Hc4 & H). apply index_char in Hc4 as [Hc4 L4].
  unfold store_key in H. rewrite update_key_obj, put_upd in H.
  pose proof (skip_le _ _ _ Hp1). pose proof (skip_le _ _ _ Hp2). pose proof (skip_le _ _ _ Hp4).
  destruct (skip_inv s T _ _ Hp1) as (w1 & G1 & W1 & _); [lia|].
  destruct (skip_inv s T _ _ Hp4) as (w3 & G3 & W3 & _); [lia|].
  (* what is needed of the member once its error is known *)
  assert (Lk : (S pos <= e)%nat) by (apply seg_le in Gk; lia).
  assert (L3 : (p2 <= p3)%nat) by (destruct (PG p2 err) as [_ G]; [lia|]; apply (G _ _ _ Hv)).
  assert (K : e1 = NoError -> err = NoError /\ exists tm, seg s pos p4 tm /\ MT pos tm (kt, v1)).
  { intros ->. destruct (skip_inv s T _ _ Hp2) as (w2 & G2 & W2 & _); [lia|].
    destruct (P p2 err v1 p3 p2) as (-> & t & Gt & Vt); [lia|exact Hv|apply (skip_skip (S p1)); [exact Hp2|lia]|lia|lia|]. split; [reflexivity|].
    exists (ch 0x22%N :: kt ++ ch 0x22%N :: w1 ++ ch 0x3A%N :: w2 ++ t ++ w3). split.
    - apply seg_cons; [exact Hc|]. eapply seg_app; [exact Gk|]. apply seg_cons; [exact Hq|]. eapply seg_app; [exact G1|].
      apply seg_cons; [exact Hc1|]. eapply seg_app; [exact G2|]. eapply seg_app; [exact Gt|exact G3].
    - apply mt_member; auto; [now split|]. apply seg_le in Gk as [_ Ek]. apply seg_le in G1 as [_ Eq1]. apply seg_le in G2 as [_ Eq2].
      replace (pos + (length kt + 3 + length w1 + length w2))%nat with p2 by lia. exact Vt. }
  destruct (is_ascii c4 0x2C) eqn:E4.
  - apply is_ascii_iff in E4 as ->. apply bind_ok in H as (p5 & Hp5 & H). apply bind_ok in H as (c5 & Hc5 & H). apply index_char in Hc5 as [Hc5 L5].
    destruct (is_ascii c5 0x7D) eqn:E5; [discriminate|]. pose proof (skip_le _ _ _ Hp5).
    destruct (skip_inv s T _ _ Hp5) as (w5 & G5 & W5 & _); [lia|].
    apply IH in H as (-> & [(X & _)|(t & ps & Gt & Mt & ->)]); [rewrite Hc5 in X; injection X as ->; discriminate| |lia|now apply (skip_skip (S p4))].
    destruct (K eq_refl) as (-> & tm & Gm & Mm). split; [reflexivity|]. right. exists (tm ++ ch 0x2C%N :: w5 ++ t), ((kt, v1) :: ps).
    split; [|split; [|reflexivity]].
    + rewrite <- app_assoc. eapply seg_app; [exact Gm|]. cbn [app]. apply seg_cons; [exact Hc4|]. rewrite <- app_assoc. eapply seg_app; [exact G5|exact Gt].
    + apply ms_more; auto. apply seg_le in Gm as [_ Em]. apply seg_le in G5 as [_ E5'].
      replace (pos + (length tm + 1 + length w5))%nat with p5 by lia. exact Mt.
  - destruct (is_ascii c4 0x7D) eqn:E5; [|discriminate]. apply is_ascii_iff in E5 as ->. injection H as <- <- ->.
    destruct (K eq_refl) as (-> & tm & Gm & Mm). split; [reflexivity|]. right. exists tm, [(kt, v1)]. split; [|split; [now apply ms_one|reflexivity]].
    eapply seg_app; [exact Gm|]. now apply seg_char.
Qed.

Lemma array_sound lo pv : pv_sound lo pv -> pv_good lo pv -> forall fuel l pos err v q, (lo <= pos)%nat ->
  array_loop f_zero s pv fuel (JArr l) pos err = Ok (v, q, NoError) -> skip_space s pos = Ok pos ->
  err = NoError /\
  (nth_error s pos = Some (ch 0x5D%N) /\ v = JArr l /\ q = S pos \/
   exists t vs, seg s pos q (t ++ [ch 0x5D%N]) /\ EST pos t vs /\ v = JArr (l ++ vs)).
Proof.
  intros P PG. induction fuel as [|f IH]; intros l pos err v q Lo H Sk; [discriminate|]. cbn [array_loop] in H.
  destruct (Nat.ltb_spec pos (length s)) as [L|L]; [|discriminate]. rewrite Sk in H. cbn [bind] in H.
  apply bind_ok in H as (c & Hc & H). apply index_char in Hc as [Hc _].
  destruct (is_ascii c 0x5D) eqn:E7.
  { apply is_ascii_iff in E7 as ->. injection H as <- <- ->. auto. }
  apply bind_ok in H as ([[v1 p3] e1] & Hv & H).
  apply bind_ok in H as (p4 & Hp4 & H). apply bind_ok in H as (c4 & Hc4 & H). apply index_char in Hc4 as [Hc4 L4].
  rewrite append1_arr in H. pose proof (skip_le _ _ _ Hp4).
  destruct (skip_inv s T _ _ Hp4) as (w3 & G3 & W3 & _); [lia|].
  assert (L3 : (pos <= p3)%nat) by (destruct (PG pos err Lo) as [_ G]; apply (G _ _ _ Hv)).
  assert (K : e1 = NoError -> err = NoError /\ exists t, seg s pos p3 t /\ VT pos t v1).
  { intros ->. destruct (P pos err v1 p3 pos) as (-> & t & Gt & Vt); auto; [lia|]. split; [reflexivity|]. eauto. }
  destruct (is_ascii c4 0x2C) eqn:E4.
  - apply is_ascii_iff in E4 as ->. apply bind_ok in H as (p5 & Hp5 & H). apply bind_ok in H as (c5 & Hc5 & H). apply index_char in Hc5 as [Hc5 L5].
    destruct (is_ascii c5 0x5D) eqn:E5; [discriminate|]. pose proof (skip_le _ _ _ Hp5).
    destruct (skip_inv s T _ _ Hp5) as (w5 & G5 & W5 & _); [lia|].
    apply IH in H as (-> & [(X & _)|(t & vs & Gt & Mt & ->)]); [rewrite Hc5 in X; injection X as ->; discriminate| |lia|now apply (skip_skip (S p4))].
    destruct (K eq_refl) as (-> & tv & Gv & Vv). split; [reflexivity|]. right. exists (tv ++ w3 ++ ch 0x2C%N :: w5 ++ t), (v1 :: vs).
    split; [|split; [|now rewrite <- app_assoc]].
    + rewrite <- !app_assoc. eapply seg_app; [exact Gv|]. eapply seg_app; [exact G3|]. cbn [app]. apply seg_cons; [exact Hc4|].
      rewrite <- app_assoc. eapply seg_app; [exact G5|exact Gt].
    + apply es_more; auto. apply seg_le in Gv as [_ Ev]. apply seg_le in G3 as [_ E3]. apply seg_le in G5 as [_ E5'].
      replace (pos + (length tv + length w3 + 1 + length w5))%nat with p5 by lia. exact Mt.
  - destruct (is_ascii c4 0x5D) eqn:E5; [|discriminate]. apply is_ascii_iff in E5 as ->. injection H as <- <- ->.
    destruct (K eq_refl) as (-> & tv & Gv & Vv). split; [reflexivity|]. right. exists (tv ++ w3), [v1].
    split; [|split; [now apply es_one|reflexivity]].
    rewrite <- app_assoc. eapply seg_app; [exact Gv|]. eapply seg_app; [exact G3|]. now apply seg_char.
Qed.

Lemma value_sound d : forall lo, (length s <= d + lo)%nat -> pv_sound lo (parse_value f_zero stod s d).
Proof.
  induction d as [|d IH]; intros lo Lo pos err v q p Lp H Sk L Lq.
  { pose proof (skip_le _ _ _ Sk). lia. }
  pose proof (skip_le _ _ _ Sk) as Lpp. cbn [parse_value] in H. rewrite Sk in H. cbn [bind] in H.
  destruct (Nat.leb_spec (length s) p); [lia|]. apply bind_ok in H as (c & Hc & H). apply index_char in Hc as [Hc _].
  assert (PS : pv_sound (S p) (parse_value f_zero stod s d)) by (apply IH; lia).
  assert (PG : pv_good (S p) (parse_value f_zero stod s d)) by (intros x e Hx; apply parse_value_good; lia).
  destruct (is_ascii c 0x22) eqn:E1.
  { apply is_ascii_iff in E1 as ->. apply (string_sound stod s T) in H as (-> & t & b & u & G & LS & -> & Tu & D); [|constructor].
    split; [reflexivity|]. exists (ch 0x22%N :: t ++ [ch 0x22%N]). split; [now apply seg_cons|]. apply vt_simple. eapply lp_string; eauto. }
  destruct (is_ascii c 0x7B) eqn:E2.
  { apply is_ascii_iff in E2 as ->. unfold parse_object in H. apply bind_ok in H as (p1 & Hp1 & H). pose proof (skip_le _ _ _ Hp1) as L1.
    destruct (Nat.lt_ge_cases p1 (length s)) as [L1'|L1'].
    2:{ cbn [object_loop] in H. destruct (Nat.ltb_spec p1 (length s)); [lia|discriminate]. }
    destruct (skip_inv s T _ _ Hp1) as (w & G & W & _); [lia|].
    apply (object_sound (S p)) in H; auto; [|now apply (skip_skip (S p))]. destruct H as (-> & [(X & -> & ->)|(t & ps & Gt & Mt & ->)]); (split; [reflexivity|]).
    - exists (ch 0x7B%N :: w ++ [ch 0x7D%N]). split; [|now apply vt_empty_object]. apply seg_cons; [exact Hc|]. eapply seg_app; [exact G|now apply seg_char].
    - exists (ch 0x7B%N :: w ++ t ++ [ch 0x7D%N]). split; [|apply vt_object; auto].
      + apply seg_cons; [exact Hc|]. eapply seg_app; [exact G|exact Gt].
      + apply seg_le in G as [_ G]. replace (p + 1 + length w)%nat with p1 by lia. exact Mt. }
  destruct (is_ascii c 0x5B) eqn:E3.
  { apply is_ascii_iff in E3 as ->. unfold parse_array in H. apply bind_ok in H as (p1 & Hp1 & H). pose proof (skip_le _ _ _ Hp1) as L1.
    destruct (Nat.lt_ge_cases p1 (length s)) as [L1'|L1'].
    2:{ cbn [array_loop] in H. destruct (Nat.ltb_spec p1 (length s)); [lia|discriminate]. }
    destruct (skip_inv s T _ _ Hp1) as (w & G & W & _); [lia|].
    apply (array_sound (S p)) in H; auto; [|now apply (skip_skip (S p))]. destruct H as (-> & [(X & -> & ->)|(t & vs & Gt & Mt & ->)]); (split; [reflexivity|]).
    - exists (ch 0x5B%N :: w ++ [ch 0x5D%N]). split; [|now apply vt_empty_array]. apply seg_cons; [exact Hc|]. eapply seg_app; [exact G|now apply seg_char].
    - exists (ch 0x5B%N :: w ++ t ++ [ch 0x5D%N]). split; [|cbn [app]; apply vt_array; auto].
      + apply seg_cons; [exact Hc|]. eapply seg_app; [exact G|exact Gt].
      + apply seg_le in G as [_ G]. replace (p + 1 + length w)%nat with p1 by lia. exact Mt. }
  destruct (is_ascii c 0x74 || is_ascii c 0x66) eqn:E4.
  { apply orb_true_iff in E4. rewrite !is_ascii_iff in E4. apply (boolean_sound stod s T p c) in H as (-> & t & G & V); auto.
    split; [reflexivity|]. exists t. split; [exact G|now apply vt_simple]. }
  destruct (is_ascii c 0x6E) eqn:E5.
  { apply is_ascii_iff in E5 as ->. apply (null_sound f_zero stod s T) in H as (-> & t & G & V); auto.
    split; [reflexivity|]. exists t. split; [exact G|now apply vt_simple]. }
  pose proof (char_text s T _ _ Hc) as [U _]. rewrite get_code_point_unit in H by exact U. cbn [bind] in H.
  destruct (is_digit (utf8_value c) || is_ascii c 0x2D || is_ascii c 0x2B) eqn:E6; [|discriminate].
  assert (NS : lib_num_start c).
  { rewrite !orb_true_iff, !is_ascii_iff, is_digit_spec in E6. unfold lib_num_start. tauto. }
  apply (number_sound stod s T p c) in H as (-> & t & G & V); auto.
  split; [reflexivity|]. exists (c :: t). split; [exact G|now apply vt_simple].
Qed.

(** ** What is in the grammar is accepted *)
Definition value_head (c : Chr) : Prop := ~ lib_ws c /\ c <> ch 0x5D%N /\ c <> ch 0x7D%N.

Lemma ascii_head b : (b < 128)%N -> ~ (9 <= b <= 13)%N -> b <> 32%N -> b <> 0x5D%N -> b <> 0x7D%N -> value_head (ch b).
Proof. intros. split; [now apply ascii_not_ws|]. split; congruence. Qed.
Lemma num_head c : lib_num_start c -> value_head c.
Proof.
  intros N. split; [now apply num_start_not_ws|]. assert (K : forall b, (b < 128)%N -> ~ ascii_digit b -> b <> 0x2D%N -> b <> 0x2B%N -> c <> ch b).
  { intros b L D N1 N2 ->. destruct N as [(v & V)|[[= ->]|[= ->]]]; [|congruence|congruence]. rewrite ascii_value in V. apply digit_ascii in V; auto. }
  split; apply K; unfold ascii_digit; lia.
Qed.
Lemma simple_head p t v : simple p t v -> exists c r, t = c :: r /\ value_head c.
Proof.
  intros V. destruct V as [p t b u _ _ _|p c t _ C _|p c t _ C _|p t _ _|p c t z N _ _ _ _|p c t x N _ _ _];
    eexists _, _; (split; [reflexivity|]); try (now apply num_head); try (destruct C as [->| ->]); apply ascii_head; lia.
Qed.
Lemma value_text_head p t v : VT p t v -> exists c r, t = c :: r /\ value_head c.
Proof.
  intros V. destruct V as [p t v V|p w _|p w t ps _ _|p w _|p w t vs _ _]; [eapply simple_head; eauto|..];
    eexists _, _; (split; [reflexivity|]); apply ascii_head; lia.
Qed.
Lemma members_head p t ps : MST p t ps -> exists r, t = ch 0x22%N :: r.
Proof.
  intros M. destruct M as [p t m M|p t m w r ms M]; destruct M; cbn [app]; eauto.
Qed.
Lemma elements_head p t vs : EST p t vs -> exists c r, t = c :: r /\ value_head c.
Proof.
  intros M. destruct M as [p t v w V|p t v w0 w r vs V]; destruct (value_text_head _ _ _ V) as (c & r' & -> & Hh); cbn [app]; eauto.
Qed.

(** No number goes on at [q]. *)
Definition stops (q : nat) : Prop := forall x, nth_error s q = Some x -> ~ lib_num_char x.

Lemma ws_not_num c : lib_ws c -> ~ lib_num_char c.
Proof. intros W N. now apply num_char_not_ws in N. Qed.
Lemma stops_ws p q w : seg s p q w -> ws lib_ws w -> stops q -> stops p.
Proof.
  intros G W H. destruct w as [|c w].
  - apply seg_le in G as [_ ->]. cbn in H. now rewrite Nat.add_0_r in H.
  - apply seg_head in G as [G _]. intros x Hx. assert (x = c) as -> by congruence. apply ws_not_num. now inversion W.
Qed.
Lemma stops_char q b : nth_error s q = Some (ch b) -> (b < 128)%N -> ~ ascii_digit b -> ~ In b [0x2E; 0x65; 0x45; 0x2D; 0x2B]%N -> stops q.
Proof. intros H L D I x Hx. assert (x = ch b) as -> by congruence. now apply ascii_not_num. Qed.

Ltac not_num := unfold ascii_digit; cbn [In]; lia.

(** What the loop of ParseObject does after a member. *)
Definition after_member (pv : nat -> jerror -> outcome result) (f : nat) (obj : json) (q : nat) (err : jerror) : outcome result :=
  c <- s_index s q ;;
  if is_ascii c 0x2C then
    pos <- skip_space s (S q) ;;
    c <- s_index s pos ;;
    if is_ascii c 0x7D then Ok (JNull, pos, TrailingComma) else object_loop f_zero s pv f obj pos err
  else if is_ascii c 0x7D then Ok (obj, S q, err)
  else Ok (JNull, q, UnexpectedCharacter).

Notation pv d := (parse_value f_zero stod s d).

(** A number ends where a character comes that cannot belong to it; the other values end by themselves. *)
Definition ends_at (v : json) (q : nat) : Prop := match v with JInt _ | JFloat _ => stops q | _ => True end.
Lemma stops_ends v q : stops q -> ends_at v q.
Proof. now destruct v. Qed.

Definition PV (p : nat) (t : Str) (v : json) : Prop := forall q err d, seg s p q t -> ends_at v q -> (length s <= d + p)%nat ->
  pv d p err = Ok (v, q, err).
Definition PM (p : nat) (t : Str) (m : Str * json) : Prop := forall q b err d f ms, seg s p q t -> nth_error s q = Some (ch b) ->
  b = 0x2C%N \/ b = 0x7D%N -> (length s <= d + p)%nat ->
  object_loop f_zero s (pv d) (S f) (JObj ms) p err = after_member (pv d) f (JObj (put_member ms (fst m) (snd m))) q err.
Definition PMS (p : nat) (t : Str) (ps : list (Str * json)) : Prop := forall q err d f ms, seg s p q t -> nth_error s q = Some (ch 0x7D%N) ->
  (length s <= d + p)%nat -> (length s < f + p)%nat ->
  object_loop f_zero s (pv d) f (JObj ms) p err = Ok (JObj (puts ms ps), S q, err).
Definition PES (p : nat) (t : Str) (vs : list json) : Prop := forall q err d f l, seg s p q t -> nth_error s q = Some (ch 0x5D%N) ->
  (length s <= d + p)%nat -> (length s < f + p)%nat ->
  array_loop f_zero s (pv d) f (JArr l) p err = Ok (JArr (l ++ vs), S q, err).

Lemma nth_lt p (c : Chr) : nth_error s p = Some c -> (p < length s)%nat.
Proof. intros H. apply nth_error_Some. congruence. Qed.

Lemma find_key_end p e kt : seg s p e kt -> ~ In (ch 0x22%N) kt -> nth_error s e = Some (ch 0x22%N) ->
  s_find s [[0x22%N]] (N.of_nat p) = Ok (Some e).
Proof.
  intros G N H. pose proof (seg_le _ _ _ _ G) as [L Ee]. destruct (find_spec s [[0x22%N]] (N.of_nat p)) as (r & E & K); [discriminate|lia|]. rewrite E.
  assert (O : occurs_at [[0x22%N]] s e) by (apply nth_error_split in H as (a & b & -> & La); now exists a, b).
  destruct r as [i|]; [|exfalso; eapply K; [|exact O]; lia].
  destruct K as (Li & (a & b & Es & La) & M). assert (i <= e)%nat by (apply M; [lia|exact O]).
  destruct (Nat.eq_dec i e) as [->|Ne]; [reflexivity|]. exfalso. apply N.
  assert (Hi : nth_error s i = Some (ch 0x22%N)) by (rewrite Es, nth_error_app2, La, Nat.sub_diag by lia; reflexivity).
  destruct G as (a' & b' & Es' & La' & _). rewrite Es', nth_error_app2, nth_error_app1 in Hi by lia. eapply nth_error_In, Hi.
Qed.

Lemma simple_complete p t v : simple p t v -> PV p t v.
Proof.
  intros V q err d G St Ld. destruct (simple_head _ _ _ V) as (c0 & r0 & Et & Hh). rewrite Et in G. pose proof (seg_head _ _ _ _ _ G) as [Hc _]. rewrite <- Et in G.
  pose proof (nth_lt _ _ Hc). destruct d as [|d]; [lia|]. cbn [parse_value]. rewrite (skip_here s T p c0 Hc) by apply Hh. cbn [bind].
  destruct (Nat.leb_spec (length s) p); [lia|]. rewrite (seg_index _ _ _ Hc). cbn [bind].
  destruct V as [p t b u LS Tu D|p c t L C O|p c t L C O|p t L O|p c t z N W X I R|p c t x N W X R].
  - injection Et as <- _. change (is_ascii [34%N] 34) with true. cbn match. unfold parse_string.
    apply seg_head in G as [_ G]. rewrite (string_complete stod s T t b LS _ _ q) by (exact G || lia). cbn [app].
    assert (E : j_of_std (F := F) b = Ok (JStr u)).
    { unfold j_of_std, string_of_std. destruct D as [->|(r & ->)]; [now rewrite string_of_cstr_text|].
      rewrite <- app_assoc. cbn [app]. now rewrite string_of_cstr_text. }
    now rewrite E.
  - injection Et as <- _. pose proof (seg_le _ _ _ _ G) as [_ ->]. rewrite L.
    assert (E : is_ascii c 34 = false /\ is_ascii c 123 = false /\ is_ascii c 91 = false /\ (is_ascii c 116 || is_ascii c 102) = true) by
      (destruct C as [->| ->]; auto).
    destruct E as (-> & -> & -> & ->). apply (true_complete stod); auto. lia.
  - injection Et as <- _. pose proof (seg_le _ _ _ _ G) as [_ ->]. rewrite L.
    assert (E : is_ascii c 34 = false /\ is_ascii c 123 = false /\ is_ascii c 91 = false /\ (is_ascii c 116 || is_ascii c 102) = true) by
      (destruct C as [->| ->]; auto).
    destruct E as (-> & -> & -> & ->). apply (false_complete stod); auto. lia.
  - injection Et as <- _. pose proof (seg_le _ _ _ _ G) as [_ ->]. cbn [length]. rewrite L.
    change (is_ascii [110%N] 34) with false. change (is_ascii [110%N] 123) with false. change (is_ascii [110%N] 91) with false.
    change (is_ascii [110%N] 116) with false. change (is_ascii [110%N] 102) with false. change (is_ascii [110%N] 110) with true. cbn match. cbn [orb].
    apply (null_complete f_zero stod); auto. lia.
  - injection Et as <- _. pose proof (seg_text _ _ _ _ T G) as Tt.
    assert (K : forall b, (b < 128)%N -> ~ ascii_digit b -> b <> 0x2D%N -> b <> 0x2B%N -> is_ascii c b = false).
    { intros b Lb Db N1 N2. destruct (is_ascii c b) eqn:E; [|reflexivity]. apply is_ascii_iff in E as ->.
      destruct N as [(v & V)|[[= ->]|[= ->]]]; [|congruence|congruence]. rewrite ascii_value in V. apply digit_ascii in V; auto. contradiction. }
    rewrite !K by not_num. cbn [orb]. pose proof (char_text s T _ _ Hc) as [U _]. rewrite get_code_point_unit by exact U. cbn [bind].
    assert (E : is_digit (utf8_value c) || is_ascii c 0x2D || is_ascii c 0x2B = true).
    { rewrite !orb_true_iff, !is_ascii_iff, is_digit_spec. unfold lib_num_start in N. tauto. }
    rewrite E. destruct (number_eq stod s T p q c t err G W St) as [_ HN]. rewrite HN by exact X.
    rewrite (stoll_integer _ _ Tt I). apply in_int64_iff in R as ->. reflexivity.
  - injection Et as <- _.
    assert (K : forall b, (b < 128)%N -> ~ ascii_digit b -> b <> 0x2D%N -> b <> 0x2B%N -> is_ascii c b = false).
    { intros b Lb Db N1 N2. destruct (is_ascii c b) eqn:E; [|reflexivity]. apply is_ascii_iff in E as ->.
      destruct N as [(v & V)|[[= ->]|[= ->]]]; [|congruence|congruence]. rewrite ascii_value in V. apply digit_ascii in V; auto. contradiction. }
    rewrite !K by not_num. cbn [orb]. pose proof (char_text s T _ _ Hc) as [U _]. rewrite get_code_point_unit by exact U. cbn [bind].
    assert (E : is_digit (utf8_value c) || is_ascii c 0x2D || is_ascii c 0x2B = true).
    { rewrite !orb_true_iff, !is_ascii_iff, is_digit_spec. unfold lib_num_start in N. tauto. }
    rewrite E. destruct (number_eq stod s T p q c t err G W St) as [HE _]. rewrite HE by exact X.
    unfold real_of in R. now rewrite R.
Qed.

Lemma complete :
  (forall p t v, VT p t v -> PV p t v) /\ (forall p t m, MT p t m -> PM p t m) /\
  (forall p t ps, MST p t ps -> PMS p t ps) /\ (forall p t vs, EST p t vs -> PES p t vs).
Proof.
  apply text_mutind.
  - apply simple_complete.
  - (* {} *) intros p w W q err d G St Ld. pose proof (seg_le _ _ _ _ G) as [L Eq]. cbn [length] in Eq. rewrite app_length in Eq. cbn [length] in Eq.
    apply seg_head in G as [Hc G]. pose proof (nth_lt _ _ Hc). destruct d as [|d]; [lia|].
    cbn [parse_value]. rewrite (skip_here s T p _ Hc) by (apply ascii_not_ws; lia). cbn [bind]. destruct (Nat.leb_spec (length s) p); [lia|].
    rewrite (seg_index _ _ _ Hc). cbn [bind]. change (is_ascii [123%N] 34) with false. change (is_ascii [123%N] 123) with true. cbn match.
    apply seg_split in G as [Gw Ge]. apply seg_head in Ge as [He _]. unfold parse_object.
    rewrite (skip_ws s T w _ _ _ Gw W He) by (apply ascii_not_ws; lia). cbn [bind object_loop]. pose proof (nth_lt _ _ He).
    destruct (Nat.ltb_spec (S p + length w) (length s)); [|lia]. rewrite (skip_here s T _ _ He) by (apply ascii_not_ws; lia). cbn [bind].
    rewrite (seg_index _ _ _ He). cbn [bind]. change (is_ascii [125%N] 125) with true. cbn match. change (make_object f_zero) with (@JObj F []).
    repeat f_equal. lia.
  - (* object *) intros p w t ps W M IH q err d G St Ld. pose proof (seg_le _ _ _ _ G) as [L Eq]. cbn [length] in Eq. rewrite !app_length in Eq. cbn [length] in Eq.
    apply seg_head in G as [Hc G]. pose proof (nth_lt _ _ Hc). destruct d as [|d]; [lia|].
    cbn [parse_value]. rewrite (skip_here s T p _ Hc) by (apply ascii_not_ws; lia). cbn [bind]. destruct (Nat.leb_spec (length s) p); [lia|].
    rewrite (seg_index _ _ _ Hc). cbn [bind]. change (is_ascii [123%N] 34) with false. change (is_ascii [123%N] 123) with true. cbn match.
    apply seg_split in G as [Gw G]. apply seg_split in G as [Gt Ge]. apply seg_head in Ge as [He _]. unfold parse_object.
    destruct (members_head _ _ _ M) as (r & Er). pose proof Gt as Gt'. rewrite Er in Gt'. apply seg_head in Gt' as [Ht _].
    rewrite (skip_ws s T w _ _ _ Gw W Ht) by (apply ascii_not_ws; lia). cbn [bind]. change (make_object f_zero) with (@JObj F []).
    replace (p + 1 + length w)%nat with (S p + length w)%nat in IH by lia.
    rewrite (IH _ err d (S (length s)) [] Gt He) by lia. unfold puts, collect. repeat f_equal. lia.
  - (* [] *) intros p w W q err d G St Ld. pose proof (seg_le _ _ _ _ G) as [L Eq]. cbn [length] in Eq. rewrite app_length in Eq. cbn [length] in Eq.
    apply seg_head in G as [Hc G]. pose proof (nth_lt _ _ Hc). destruct d as [|d]; [lia|].
    cbn [parse_value]. rewrite (skip_here s T p _ Hc) by (apply ascii_not_ws; lia). cbn [bind]. destruct (Nat.leb_spec (length s) p); [lia|].
    rewrite (seg_index _ _ _ Hc). cbn [bind]. change (is_ascii [91%N] 34) with false. change (is_ascii [91%N] 123) with false. change (is_ascii [91%N] 91) with true. cbn match.
    apply seg_split in G as [Gw Ge]. apply seg_head in Ge as [He _]. unfold parse_array.
    rewrite (skip_ws s T w _ _ _ Gw W He) by (apply ascii_not_ws; lia). cbn [bind array_loop]. pose proof (nth_lt _ _ He).
    destruct (Nat.ltb_spec (S p + length w) (length s)); [|lia]. rewrite (skip_here s T _ _ He) by (apply ascii_not_ws; lia). cbn [bind].
    rewrite (seg_index _ _ _ He). cbn [bind]. change (is_ascii [93%N] 93) with true. cbn match. change (make_array f_zero []) with (@JArr F []).
    repeat f_equal. lia.
  - (* array *) intros p w t vs W M IH q err d G St Ld. pose proof (seg_le _ _ _ _ G) as [L Eq]. cbn [length] in Eq. rewrite !app_length in Eq. cbn [length] in Eq.
    apply seg_head in G as [Hc G]. pose proof (nth_lt _ _ Hc). destruct d as [|d]; [lia|].
    cbn [parse_value]. rewrite (skip_here s T p _ Hc) by (apply ascii_not_ws; lia). cbn [bind]. destruct (Nat.leb_spec (length s) p); [lia|].
    rewrite (seg_index _ _ _ Hc). cbn [bind]. change (is_ascii [91%N] 34) with false. change (is_ascii [91%N] 123) with false. change (is_ascii [91%N] 91) with true. cbn match.
    apply seg_split in G as [Gw G]. apply seg_split in G as [Gt Ge]. apply seg_head in Ge as [He _]. unfold parse_array.
    destruct (elements_head _ _ _ M) as (c & r & Er & Hh). pose proof Gt as Gt'. rewrite Er in Gt'. apply seg_head in Gt' as [Ht _].
    rewrite (skip_ws s T w _ _ _ Gw W Ht) by apply Hh. cbn [bind]. change (make_array f_zero []) with (@JArr F []).
    replace (p + 1 + length w)%nat with (S p + length w)%nat in IH by lia.
    rewrite (IH _ err d (S (length s)) [] Gt He) by lia. cbn [app]. repeat f_equal. lia.
  - (* member *) intros p kt k w1 w2 t v w3 [-> Nk] W1 W2 W3 V IH q b err d f ms G Hq Hb Ld. cbn [fst snd].
    pose proof (seg_le _ _ _ _ G) as [L Eq]. apply seg_head in G as [Hc G]. apply seg_split in G as [Gk G]. apply seg_head in G as [Hk G].
    apply seg_split in G as [G1 G]. apply seg_head in G as [H1 G]. apply seg_split in G as [G2 G]. apply seg_split in G as [Gt G3].
    destruct (value_text_head _ _ _ V) as (cv & rv & Ev & Hv). pose proof Gt as Gt'. rewrite Ev in Gt'. apply seg_head in Gt' as [Hcv _].
    pose proof (nth_lt _ _ Hc). cbn [object_loop]. destruct (Nat.ltb_spec p (length s)); [|lia].
    rewrite (skip_here s T p _ Hc) by (apply ascii_not_ws; lia). cbn [bind].
    rewrite (seg_index _ _ _ Hc). cbn [bind]. change (is_ascii [34%N] 125) with false. change (is_ascii [34%N] 34) with true. cbn match.
    rewrite (find_key_end _ _ _ Gk Nk Hk). cbn [bind]. rewrite (seg_substring _ _ _ _ _ Gk) by reflexivity. cbn [bind].
    rewrite (skip_ws s T w1 _ _ _ G1 W1 H1) by (apply ascii_not_ws; lia). cbn [bind]. rewrite (seg_index _ _ _ H1). cbn [bind].
    change (is_ascii [58%N] 58) with true. cbn match. rewrite (skip_ws s T w2 _ _ _ G2 W2 Hcv) by apply Hv. cbn [bind].
    assert (Hsq : ~ lib_ws (ch b) /\ stops q).
    { destruct Hb as [->| ->]; (split; [apply ascii_not_ws; lia|eapply stops_char; [exact Hq|lia|not_num|not_num]]). }
    assert (St : stops (S (S (S p + length k) + length w1) + length w2 + length t)) by (eapply stops_ws; [exact G3|exact W3|apply Hsq]).
    replace (p + (length k + 3 + length w1 + length w2))%nat with (S (S (S p + length k) + length w1) + length w2)%nat in IH by lia.
    rewrite (IH _ err d Gt (stops_ends _ _ St)) by lia. cbn [bind].
    rewrite (skip_ws s T w3 _ _ _ G3 W3 Hq) by apply Hsq. cbn [bind]. unfold store_key. rewrite update_key_obj, put_upd. reflexivity.
  - (* last member *) intros p t m M IH q err d f ms G Hq Ld Lf. pose proof (nth_lt _ _ Hq). pose proof (seg_le _ _ _ _ G) as [L Eq]. destruct f as [|f]; [lia|].
    rewrite (IH q 0x7D%N err d f ms G Hq) by (auto; lia). unfold after_member. rewrite (seg_index _ _ _ Hq). cbn [bind].
    change (is_ascii [125%N] 44) with false. change (is_ascii [125%N] 125) with true. reflexivity.
  - (* member and more *) intros p t m w r ps M IHm W Ms IHs q err d f ms G Hq Ld Lf. pose proof (nth_lt _ _ Hq). pose proof (seg_le _ _ _ _ G) as [L Eq].
    apply seg_split in G as [Gt G]. apply seg_head in G as [Hc G]. apply seg_split in G as [Gw Gr].
    destruct (members_head _ _ _ Ms) as (r' & Er). pose proof Gr as Gr'. rewrite Er in Gr'. apply seg_head in Gr' as [Hr _].
    destruct f as [|f]; [lia|]. rewrite (IHm _ 0x2C%N err d f ms Gt Hc) by (auto; lia). unfold after_member. rewrite (seg_index _ _ _ Hc). cbn [bind].
    change (is_ascii [44%N] 44) with true. cbn match. rewrite (skip_ws s T w _ _ _ Gw W Hr) by (apply ascii_not_ws; lia). cbn [bind].
    rewrite (seg_index _ _ _ Hr). cbn [bind]. change (is_ascii [34%N] 125) with false. cbn match.
    replace (p + (length t + 1 + length w))%nat with (S (p + length t) + length w)%nat in IHs by lia.
    rewrite (IHs q err d f _ Gr Hq) by lia. reflexivity.
  - (* last element *) intros p t v w V IH W q err d f l G Hq Ld Lf. pose proof (nth_lt _ _ Hq). pose proof (seg_le _ _ _ _ G) as [L Eq].
    apply seg_split in G as [Gt Gw]. destruct (value_text_head _ _ _ V) as (c & r & Er & Hh). pose proof Gt as Gt'. rewrite Er in Gt'. apply seg_head in Gt' as [Hc _].
    destruct f as [|f]; [lia|]. cbn [array_loop]. pose proof (nth_lt _ _ Hc). destruct (Nat.ltb_spec p (length s)); [|lia].
    rewrite (skip_here s T p _ Hc) by apply Hh. cbn [bind]. rewrite (seg_index _ _ _ Hc). cbn [bind].
    destruct (is_ascii c 0x5D) eqn:E; [apply is_ascii_iff in E; now apply Hh in E|].
    assert (Hsq : stops q) by (eapply stops_char; [exact Hq|lia|not_num|not_num]).
    rewrite (IH _ err d Gt) by (try lia; apply stops_ends; eapply stops_ws; eauto). cbn [bind].
    rewrite (skip_ws s T w _ _ _ Gw W Hq) by (apply ascii_not_ws; lia). cbn [bind]. rewrite (seg_index _ _ _ Hq). cbn [bind].
    change (is_ascii [93%N] 44) with false. change (is_ascii [93%N] 93) with true. reflexivity.
  - (* element and more *) intros p t v w0 w r vs V IHv W0 W Es IHs q err d f l G Hq Ld Lf. pose proof (nth_lt _ _ Hq). pose proof (seg_le _ _ _ _ G) as [L Eq].
    apply seg_split in G as [Gt G]. apply seg_split in G as [G0 G]. apply seg_head in G as [Hm G]. apply seg_split in G as [Gw Gr].
    destruct (value_text_head _ _ _ V) as (c & r' & Er & Hh). pose proof Gt as Gt'. rewrite Er in Gt'. apply seg_head in Gt' as [Hc _].
    destruct (elements_head _ _ _ Es) as (c' & r'' & Er' & Hh'). pose proof Gr as Gr'. rewrite Er' in Gr'. apply seg_head in Gr' as [Hc' _].
    destruct f as [|f]; [lia|]. cbn [array_loop]. pose proof (nth_lt _ _ Hc). destruct (Nat.ltb_spec p (length s)); [|lia].
    rewrite (skip_here s T p _ Hc) by apply Hh. cbn [bind]. rewrite (seg_index _ _ _ Hc). cbn [bind].
    destruct (is_ascii c 0x5D) eqn:E; [apply is_ascii_iff in E; now apply Hh in E|].
    assert (Hsq : stops (p + length t + length w0)) by (eapply stops_char; [exact Hm|lia|not_num|not_num]).
    rewrite (IHv _ err d Gt) by (try lia; apply stops_ends; eapply stops_ws; eauto). cbn [bind].
    rewrite (skip_ws s T w0 _ _ _ G0 W0 Hm) by (apply ascii_not_ws; lia). cbn [bind]. rewrite (seg_index _ _ _ Hm). cbn [bind].
    change (is_ascii [44%N] 44) with true. cbn match. rewrite (skip_ws s T w _ _ _ Gw W Hc') by apply Hh'. cbn [bind].
    rewrite (seg_index _ _ _ Hc'). cbn [bind]. destruct (is_ascii c' 0x5D) eqn:E'; [apply is_ascii_iff in E'; now apply Hh' in E'|].
    rewrite append1_arr. replace (p + (length t + length w0 + 1 + length w))%nat with (S (p + length t + length w0) + length w)%nat in IHs by lia.
    rewrite (IHs q err d f _ Gr Hq) by lia. rewrite <- app_assoc. reflexivity.
Qed.

(** ** Documents *)

Lemma object_end pw fuel : forall ms pos err v q, object_loop f_zero s pw fuel (JObj ms) pos err = Ok (v, q, NoError) -> (q <= length s)%nat.
Proof.
  induction fuel as [|f IH]; intros ms pos err v q H; [discriminate|]. cbn [object_loop] in H.
  destruct (Nat.ltb_spec pos (length s)); [|discriminate]. apply bind_ok in H as (p & _ & H). apply bind_ok in H as (c & Hc & H). apply index_char in Hc as [_ Hc].
  destruct (is_ascii _ _); [injection H as <- <- _; lia|]. destruct (is_ascii _ _); [|discriminate].
  apply bind_ok in H as ([e|] & _ & H); [|discriminate]. do 3 (apply bind_ok in H as (? & _ & H)).
  destruct (is_ascii _ _); [|discriminate]. apply bind_ok in H as (? & _ & H). apply bind_ok in H as ([[v1 p1] e1] & _ & H).
  apply bind_ok in H as (p4 & _ & H). apply bind_ok in H as (c4 & Hc4 & H). apply index_char in Hc4 as [_ Hc4].
  unfold store_key in H. rewrite update_key_obj in H. destruct (is_ascii _ _).
  - do 2 (apply bind_ok in H as (? & _ & H)). destruct (is_ascii _ _); [discriminate|]. eapply IH, H.
  - destruct (is_ascii _ _); [injection H as <- <- _; lia|discriminate].
Qed.

(** What may follow the object: white space, or anything that ends in a closing brace and white space. *)
Definition tail_ok (r : Str) : Prop := ws lib_ws r \/ exists x w, r = x ++ ch 0x7D%N :: w /\ ws lib_ws w.

Definition accepts (v : json) : Prop :=
  exists w o r, s = w ++ o ++ r /\ ws lib_ws w /\ VT (length w) o v /\ j_type v = CObject /\ tail_ok r.

Lemma object_shape p o v : VT p o v -> j_type v = CObject -> exists m, o = ch 0x7B%N :: m ++ [ch 0x7D%N].
Proof.
  intros V Ty. destruct V as [p t v V|p w _|p w t ps _ _|p w _|p w t vs _ _]; try discriminate.
  - destruct V; discriminate.
  - eauto.
  - exists (w ++ t). now rewrite <- app_assoc.
Qed.

Lemma ws_nth w j (c : Chr) : ws lib_ws w -> nth_error w j = Some c -> lib_ws c.
Proof. intros W H. eapply Forall_forall; [exact W|]. eapply nth_error_In; eauto. Qed.
Lemma ws_of l : (forall j c, nth_error l j = Some c -> lib_ws c) -> ws lib_ws l.
Proof. intros H. apply Forall_forall. intros c I. apply In_nth_error in I as (j & E). eauto. Qed.

Lemma first_at w c r : s = w ++ c :: r -> ws lib_ws w -> ~ lib_ws c -> find_first_non_space s = Ok (length w).
Proof.
  intros E W N. destruct (find_first_spec s T) as (k & -> & L & B & A).
  assert (Hc : nth_error s (length w) = Some c) by (rewrite E, nth_error_app2, Nat.sub_diag by lia; reflexivity).
  f_equal. destruct (Nat.lt_trichotomy k (length w)) as [X|[X|X]]; [|exact X|].
  - exfalso. destruct (nth_error w k) as [y|] eqn:Ey; [|apply nth_error_None in Ey; lia].
    apply (A y). { rewrite E, nth_error_app1 by lia. exact Ey. } eapply ws_nth; eauto.
  - exfalso. apply N. eapply B; eauto.
Qed.
Lemma last_at a c r : s = a ++ c :: r -> a <> [] -> ws lib_ws r -> ~ lib_ws c -> find_last_non_space s = Ok (length a).
Proof.
  intros E Na W N. assert (Hc : nth_error s (length a) = Some c) by (rewrite E, nth_error_app2, Nat.sub_diag by lia; reflexivity).
  assert (La : (1 <= length a)%nat) by (destruct a; [congruence|cbn; lia]).
  destruct (find_last_spec s T) as (k & -> & [(Lk & A & B)|(-> & B)]).
  - rewrite E. destruct a; discriminate.
  - f_equal. destruct (Nat.lt_trichotomy k (length a)) as [X|[X|X]]; [|exact X|].
    + exfalso. apply N. eapply B; eauto.
    + exfalso. destruct (nth_error s k) as [y|] eqn:Ey; [|apply nth_error_None in Ey; lia]. apply (A y eq_refl).
      rewrite E, nth_error_app2 in Ey by lia. replace (k - length a)%nat with (S (k - length a - 1)) in Ey by lia. cbn in Ey. eapply ws_nth; eauto.
  - exfalso. apply N. eapply B; [|exact Hc]. lia.
Qed.

Lemma parse_zero : (0 < length s)%nat -> forall k, find_first_non_space s = Ok k -> skip_space s 0 = Ok k.
Proof. intros _ k H. exact H. Qed.

Lemma top_object D pos a err v q : skip_space s pos = Ok a -> nth_error s a = Some (ch 0x7B%N) ->
  parse_value f_zero stod s D pos err = Ok (v, q, NoError) -> (q <= length s)%nat /\ j_type v = CObject.
Proof.
  intros Sk Hc H. pose proof (nth_lt _ _ Hc) as La.
  destruct D as [|D]; cbn [parse_value] in H; rewrite Sk in H; cbn [bind] in H; (destruct (Nat.leb_spec (length s) a); [lia|]);
    rewrite (seg_index _ _ _ Hc) in H; cbn [bind] in H;
    change (is_ascii [123%N] 34) with false in H; change (is_ascii [123%N] 123) with true in H; cbn match in H; [discriminate|].
  unfold parse_object in H. apply bind_ok in H as (p1 & _ & H). split; [now apply object_end in H|eapply object_loop_type, H].
Qed.

Lemma parser_sound v : parser_parse f_zero stod s (length s) = Ok (v, NoError) -> accepts v.
Proof.
  unfold parser_parse. destruct (s_is_empty s) eqn:Em; [discriminate|].
  assert (Ls : (0 < length s)%nat) by (destruct s; [discriminate|cbn; lia]).
  intros H. apply bind_ok in H as (a & Ha & H). apply bind_ok in H as (b & Hb & H). apply bind_ok in H as (c & Hc & H).
  apply index_char in Hc as [Hc La]. destruct (negb (is_ascii c 0x7B)) eqn:Ec; [discriminate|].
  apply bind_ok in H as (c' & Hc' & H). apply index_char in Hc' as [Hc' Lb]. destruct (negb (is_ascii c' 0x7D)) eqn:Ec'; [discriminate|].
  apply negb_false_iff, is_ascii_iff in Ec as ->. apply negb_false_iff, is_ascii_iff in Ec' as ->.
  apply bind_ok in H as ([[v1 q] e1] & H & [= -> ->]). pose proof (parse_zero Ls a Ha) as Sk.
  destruct (top_object _ _ _ _ _ _ Sk Hc H) as [Lq Ty].
  destruct (value_sound (length s) 0 ltac:(lia) 0 NoError v q a ltac:(lia) H Sk La Lq) as (_ & o & G & V).
  destruct (skip_inv s T _ _ Sk) as (w & Gw & W & _); [lia|]. pose proof (seg_le _ _ _ _ Gw) as [_ Ew]. cbn in Ew.
  pose proof (seg_le _ _ _ _ G) as [Lo Eo].
  exists w, o, (skipn q s). split.
  { rewrite <- (seg_skipn _ _ _ _ G), <- (seg_skipn _ _ _ _ Gw). reflexivity. }
  split; [exact W|]. split; [rewrite <- Ew; exact V|]. split; [exact Ty|].
  destruct (find_last_spec s T) as (k & Ek & [(Lk & A & B)|(-> & B)]); [destruct s; [cbn in Ls; lia|discriminate]| |].
  2:{ assert (b = length s) by congruence. lia. }
  assert (k = b) as -> by congruence. destruct (Nat.lt_ge_cases b q) as [X|X].
  - left. apply ws_of. intros j c Hj. apply (B (q + j)%nat); [lia|]. rewrite <- (firstn_skipn q s), nth_error_app2; rewrite firstn_length; [|lia].
    rewrite <- Hj. f_equal. lia.
  - right. exists (firstn (b - q) (skipn q s)), (skipn (S b) s). split.
    + rewrite <- (nth_skipn _ _ _ Hc'). rewrite <- (firstn_skipn (b - q) (skipn q s)) at 1. f_equal.
      assert (E : seg s q b (firstn (b - q) (skipn q s))) by (apply seg_of; lia). apply seg_skipn in E.
      rewrite <- (firstn_skipn (b - q) (skipn q s)) in E at 1. now apply app_inv_head in E.
    + apply ws_of. intros j c Hj. apply (B (S b + j)%nat); [lia|]. rewrite <- (firstn_skipn (S b) s), nth_error_app2; rewrite firstn_length; [|lia].
      rewrite <- Hj. f_equal. lia.
Qed.

Lemma not_ws_open : ~ lib_ws (ch 0x7B%N).
Proof. apply ascii_not_ws; lia. Qed.
Lemma not_ws_close : ~ lib_ws (ch 0x7D%N).
Proof. apply ascii_not_ws; lia. Qed.

Lemma parser_complete v : accepts v -> parser_parse f_zero stod s (length s) = Ok (v, NoError).
Proof.
  intros (w & o & r & E & W & V & Ty & Tl). destruct (object_shape _ _ _ V Ty) as (m & Eo).
  assert (Es : s = w ++ ch 0x7B%N :: (m ++ ch 0x7D%N :: r)) by (rewrite E, Eo; cbn [app]; now rewrite <- app_assoc).
  unfold parser_parse. assert (Em : s_is_empty s = false) by (rewrite Es; destruct w; reflexivity). rewrite Em. clear Em.
  rewrite (first_at _ _ _ Es W not_ws_open). cbn [bind].
  assert (exists a r', s = a ++ ch 0x7D%N :: r' /\ a <> [] /\ ws lib_ws r') as (a & r' & Ea & Na & W').
  { destruct Tl as [Tl|(x & w' & -> & Tl)].
    - exists (w ++ ch 0x7B%N :: m), r. rewrite <- app_assoc. cbn [app]. split; [exact Es|]. split; [destruct w; discriminate|exact Tl].
    - exists (w ++ ch 0x7B%N :: (m ++ ch 0x7D%N :: x)), w'. rewrite <- app_assoc. cbn [app]. rewrite <- app_assoc. cbn [app].
      split; [exact Es|]. split; [destruct w; discriminate|exact Tl]. }
  rewrite (last_at _ _ _ Ea Na W' not_ws_close). cbn [bind].
  assert (H1 : nth_error s (length w) = Some (ch 0x7B%N)) by (rewrite Es, nth_error_app2, Nat.sub_diag by lia; reflexivity).
  assert (H2 : nth_error s (length a) = Some (ch 0x7D%N)) by (rewrite Ea, nth_error_app2, Nat.sub_diag by lia; reflexivity).
  rewrite (seg_index _ _ _ H1), (seg_index _ _ _ H2). cbn [bind]. change (is_ascii [123%N] 123) with true. change (is_ascii [125%N] 125) with true. cbn [negb].
  assert (G : seg s (length w) (length w + length o) o) by (exists w, r; auto).
  assert (Gw : seg s 0 (length w) w) by (exists [], (o ++ r); auto).
  pose proof (skip_ws s T w _ _ _ Gw W H1 not_ws_open) as Sk. pose proof (skip_here s T _ _ H1 not_ws_open) as Sk'.
  assert (P : pv (length s) (length w) NoError = Ok (v, (length w + length o)%nat, NoError)).
  { apply (proj1 complete _ _ _ V); [exact G| |lia]. destruct v; try discriminate. exact I. }
  assert (E0 : pv (length s) 0 NoError = pv (length s) (length w) NoError).
  { destruct (length s); cbn [parse_value]; rewrite Sk, Sk'; reflexivity. }
  rewrite E0, P. reflexivity.
Qed.

Lemma doc_accepts v : doc_parse f_zero stod s = Ok {| root := v; error := NoError |} <-> accepts v.
Proof.
  unfold doc_parse. split.
  - intros H. apply bind_ok in H as ([x e] & H & E). apply parser_sound. destruct e; try discriminate. injection E as ->. exact H.
  - intros H. now rewrite (parser_complete _ H).
Qed.
End Grammar.
