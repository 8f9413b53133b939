(** More about whole documents: which errors are reported, documents with one member, text after the document. *)
From Coq Require Import List NArith ZArith Bool Arith Lia.
From Verif Require Import Outcome CharModel CharUtil StrModel StrUtil Dec JsonData JsonParse SpecJson SpecUtf8 SpecStr SpecChar SpecInt
  SpecJsonText CharProofs CharUtilProofs StrProofs StrUtilProofs DecProofs JsonDataProofs JsonParseSafe JsonParseProofs JsonGrammar JsonPrintProofs.
Import ListNotations.
Local Open Scope list_scope.
Local Arguments is_space : simpl never.
Local Arguments is_digit : simpl never.
Local Arguments get_code_point : simpl never.
Local Arguments white_space : simpl never.

(** ** Errors that are never reported *)
Definition masked (e : jerror) : Prop :=
  In e [InvalidValue; InvalidNumber; OutOfRangeError; UnterminatedObject; UnterminatedArray; ExpectedStringKey; NumberConversionError].
Ltac unmasked := unfold masked; cbn; let X := fresh in intros X; repeat destruct X as [X|X]; try discriminate X; contradiction X.

Section Errors.
Context {F : Type}.
Variable f_zero : F.
Variable stod : list N -> conversion F.
Variable s : Str.
Hypothesis T : text s.
Notation json := (json F).
Notation result := (json * nat * jerror)%type.
(** the last character that is not white space *)
Variable e : nat.
Hypothesis Ee : nth_error s e = Some (ch 0x7D%N).
Hypothesis Ew : forall j c, (e < j)%nat -> nth_error s j = Some c -> lib_ws c.

(** A character after which neither an object nor an array goes on. *)
Definition stuck (p : nat) : Prop := exists c, nth_error s p = Some c /\ ~ lib_ws c /\ c <> ch 0x2C%N /\ c <> ch 0x7D%N /\ c <> ch 0x5D%N.

(** a value: a masked error leaves the position at such a character; an object or array: no masked error *)
Definition dim (r : outcome result) : Prop := forall v p x, r = Ok (v, p, x) -> masked x -> stuck p.
Definition lit_up (r : outcome result) : Prop := forall v p x, r = Ok (v, p, x) -> ~ masked x.

Lemma before_end p c : nth_error s p = Some c -> ~ lib_ws c -> (p <= e)%nat.
Proof. intros H N. destruct (Nat.le_gt_cases p e); [assumption|]. exfalso. apply N. eapply Ew; eauto. Qed.
Lemma e_lt : (e < length s)%nat.
Proof. apply nth_error_Some. congruence. Qed.
Lemma skip_before p q : (p <= e)%nat -> skip_space s p = Ok q -> (q <= e)%nat.
Proof.
  intros L H. pose proof e_lt. destruct (skip_stop s T p) as (w & q' & Hq & G & W & _); [lia|]. assert (q' = q) as -> by congruence.
  destruct (Nat.le_gt_cases q e) as [X|X]; [exact X|]. exfalso. destruct G as (a & b & Es & La & Lq). subst p.
  assert (X2 : nth_error w (e - length a) = Some (ch 0x7D%N)).
  { rewrite Es in Ee. rewrite nth_error_app2 in Ee by lia. rewrite nth_error_app1 in Ee by lia. exact Ee. }
  apply not_ws_close. eapply ws_nth; eauto.
Qed.
Lemma comma_before p : nth_error s p = Some (ch 0x2C%N) -> (S p <= e)%nat.
Proof.
  intros H. assert (p <= e)%nat by (eapply before_end; eauto; apply ascii_not_ws; lia).
  assert (p <> e) by congruence. lia.
Qed.

Lemma dim_string fuel : forall pos err out, ~ masked err -> lit_up (string_loop (F := F) s fuel pos err out).
Proof.
  induction fuel as [|f IH]; intros pos err out N v p x H; [discriminate|]. cbn [string_loop] in H.
  destruct (Nat.ltb pos (length s)).
  2:{ apply bind_ok in H as (c & _ & [= <- <- <-]). unmasked. }
  apply bind_ok in H as (c & _ & H). destruct (is_ascii c _).
  { apply bind_ok in H as (w & _ & [= <- <- <-]). exact N. }
  destruct (is_ascii c _); [|eapply IH; eauto].
  destruct (Nat.leb _ _); [injection H as <- <- <-; unmasked|]. apply bind_ok in H as (c' & _ & H).
  destruct (json_escape c'); [eapply IH; eauto|]. destruct (is_ascii c' _); [|injection H as <- <- <-; unmasked].
  destruct (Nat.leb _ _); [injection H as <- <- <-; unmasked|]. apply bind_ok in H as (h & _ & H).
  destruct (stoul16 (s_str h)); [eapply IH; eauto|injection H as <- <- <-; unmasked|injection H as <- <- <-; unmasked].
Qed.

Lemma stuck_char p c : nth_error s p = Some c -> (exists b, c = ch b /\ (b < 128)%N /\ ~ (9 <= b <= 13)%N /\ b <> 32%N /\ b <> 0x2C%N /\ b <> 0x7D%N /\ b <> 0x5D%N) ->
  stuck p.
Proof.
  intros H (b & -> & L & A & B & C & D & E'). exists (ch b). split; [exact H|]. split; [now apply ascii_not_ws|].
  repeat split; intros X; injection X as ->; congruence.
Qed.
Lemma stuck_num p c : nth_error s p = Some c -> lib_num_start c -> stuck p.
Proof.
  intros H N. exists c. split; [exact H|]. split; [now apply num_start_not_ws|].
  assert (D : forall b, ~ ascii_digit b -> b <> 0x2D%N -> b <> 0x2B%N -> (b < 128)%N -> c <> ch b).
  { intros b Nb N1 N2 Lb ->. destruct N as [(v & V)|[X|X]]; [|congruence|congruence]. rewrite ascii_value in V. apply Nb. eapply digit_ascii; eauto. }
  repeat split; apply D; unfold ascii_digit; lia.
Qed.

Lemma dim_null p err : ~ masked err -> nth_error s p = Some (ch 0x6E%N) -> dim (parse_null f_zero s p err).
Proof.
  intros N H v q x E M. unfold parse_null in E. apply bind_ok in E as (b & _ & E). destruct b; injection E as <- <- <-; [contradiction|].
  eapply stuck_char; [exact H|]. eexists; split; [reflexivity|lia].
Qed.
Lemma dim_boolean p c err : ~ masked err -> nth_error s p = Some c -> c = ch 0x74%N \/ c = ch 0x66%N -> dim (parse_boolean (F := F) s p err).
Proof.
  intros N H C v q x E M. unfold parse_boolean in E. apply bind_ok in E as (b & _ & E). destruct b; [injection E as <- <- <-; contradiction|].
  apply bind_ok in E as (b & _ & E). destruct b; injection E as <- <- <-; [contradiction|].
  eapply stuck_char; [exact H|]. destruct C as [->| ->]; (eexists; split; [reflexivity|lia]).
Qed.
Lemma dim_number p c err : ~ masked err -> nth_error s p = Some c -> lib_num_start c -> dim (parse_number stod s p err).
Proof.
  intros N H C v q x E M. unfold parse_number in E. do 5 (apply bind_ok in E as (? & _ & E)).
  match type of E with Ok (match ?m with _ => _ end) = _ => destruct m end; injection E as <- <- <-; [contradiction|..]; eapply stuck_num; eauto.
Qed.

Lemma lit_object pv : (forall p err, ~ masked err -> dim (pv p err)) -> forall fuel obj pos err, (pos <= e)%nat -> ~ masked err ->
  lit_up (object_loop f_zero s pv fuel obj pos err).
Proof.
  intros P. induction fuel as [|f IH]; intros obj pos err L N v p x H; [discriminate|]. cbn [object_loop] in H. pose proof e_lt.
  destruct (Nat.ltb_spec pos (length s)); [|lia].
  apply bind_ok in H as (p0 & _ & H). apply bind_ok in H as (c & _ & H).
  destruct (is_ascii c _); [injection H as <- <- <-; exact N|]. destruct (is_ascii c _); [|injection H as <- <- <-; unmasked].
  apply bind_ok in H as ([k|] & _ & H); [|injection H as <- <- <-; unmasked].
  apply bind_ok in H as (key & _ & H). apply bind_ok in H as (p1 & _ & H). apply bind_ok in H as (c1 & _ & H).
  destruct (is_ascii c1 _); [|injection H as <- <- <-; unmasked].
  apply bind_ok in H as (p2 & _ & H). apply bind_ok in H as ([[w p3] e3] & Hv & H).
  apply bind_ok in H as (p4 & H4 & H). apply bind_ok in H as (c4 & Hc4 & H). apply s_index_ok in Hc4 as [Hc4 _].
  assert (D : (masked e3 -> c4 <> ch 0x2C%N /\ c4 <> ch 0x7D%N)).
  { intros M. destruct (P p2 err N w p3 e3 Hv M) as (y & Hy & Ny & N1 & N2 & _). rewrite (skip_here s T _ _ Hy Ny) in H4.
    assert (p3 = p4) as -> by congruence. rewrite Hy in Hc4. injection Hc4 as ->. auto. }
  destruct (is_ascii c4 0x2C) eqn:E1.
  - apply is_ascii_iff in E1 as ->. apply bind_ok in H as (p5 & H5 & H). apply bind_ok in H as (c5 & _ & H).
    destruct (is_ascii c5 _); [injection H as <- <- <-; unmasked|]. eapply IH; [|intros M; now apply D in M as [? _]|exact H].
    eapply skip_before; [|exact H5]. now apply comma_before.
  - destruct (is_ascii c4 0x7D) eqn:E2; [|injection H as <- <- <-; unmasked]. injection H as <- <- <-.
    apply is_ascii_iff in E2 as ->. intros M. now apply D in M as [_ ?].
Qed.

Lemma lit_array pv : (forall p err, ~ masked err -> dim (pv p err)) -> forall fuel arr pos err, (pos <= e)%nat -> ~ masked err ->
  lit_up (array_loop f_zero s pv fuel arr pos err).
Proof.
  intros P. induction fuel as [|f IH]; intros arr pos err L N v p x H; [discriminate|]. cbn [array_loop] in H. pose proof e_lt.
  destruct (Nat.ltb_spec pos (length s)); [|lia].
  apply bind_ok in H as (p2 & _ & H). apply bind_ok in H as (c & _ & H).
  destruct (is_ascii c _); [injection H as <- <- <-; exact N|].
  apply bind_ok in H as ([[w p3] e3] & Hv & H).
  apply bind_ok in H as (p4 & H4 & H). apply bind_ok in H as (c4 & Hc4 & H). apply s_index_ok in Hc4 as [Hc4 _].
  assert (D : (masked e3 -> c4 <> ch 0x2C%N /\ c4 <> ch 0x5D%N)).
  { intros M. destruct (P p2 err N w p3 e3 Hv M) as (y & Hy & Ny & N1 & N2 & N3). rewrite (skip_here s T _ _ Hy Ny) in H4.
    assert (p3 = p4) as -> by congruence. rewrite Hy in Hc4. injection Hc4 as ->. auto. }
  destruct (is_ascii c4 0x2C) eqn:E1.
  - apply is_ascii_iff in E1 as ->. apply bind_ok in H as (p5 & H5 & H). apply bind_ok in H as (c5 & _ & H).
    destruct (is_ascii c5 _); [injection H as <- <- <-; unmasked|]. eapply IH; [|intros M; now apply D in M as [? _]|exact H].
    eapply skip_before; [|exact H5]. now apply comma_before.
  - destruct (is_ascii c4 0x5D) eqn:E2; [|injection H as <- <- <-; unmasked]. injection H as <- <- <-.
    apply is_ascii_iff in E2 as ->. intros M. now apply D in M as [_ ?].
Qed.

Lemma lit_dim r : lit_up r -> dim r.
Proof. intros H v p x E M. exfalso. exact (H v p x E M). Qed.

Lemma dim_value d : forall pos err, ~ masked err -> dim (parse_value f_zero stod s d pos err).
Proof.
  induction d as [|d IH]; intros pos err N v p x H; cbn [parse_value] in H; apply bind_ok in H as (q & _ & H);
    (destruct (Nat.leb _ _); [injection H as <- <- <-; intros M; contradiction|]); apply bind_ok in H as (c & Hc & H);
    apply s_index_ok in Hc as [Hc _]; (destruct (is_ascii c 0x22); [exact (lit_dim _ (dim_string _ _ _ _ N) v p x H)|]).
  - destruct (is_ascii c 0x7B); [discriminate|]. destruct (is_ascii c 0x5B); [discriminate|].
    destruct (is_ascii c 0x74 || is_ascii c 0x66) eqn:E1.
    { apply orb_true_iff in E1. rewrite !is_ascii_iff in E1. exact (dim_boolean q c err N Hc E1 v p x H). }
    destruct (is_ascii c 0x6E) eqn:E2. { apply is_ascii_iff in E2 as ->. exact (dim_null q err N Hc v p x H). }
    rewrite (get_code_point_unit c) in H by (eapply (char_text s); eauto). cbn [bind] in H.
    destruct (is_digit (utf8_value c) || is_ascii c 0x2D || is_ascii c 0x2B) eqn:E3; [|injection H as <- <- <-; unmasked].
    refine (dim_number q c err N Hc _ v p x H). rewrite !orb_true_iff, !is_ascii_iff, is_digit_spec in E3. unfold lib_num_start. tauto.
  - destruct (is_ascii c 0x7B) eqn:Eo.
    { apply is_ascii_iff in Eo as ->. unfold parse_object in H. apply bind_ok in H as (p1 & H1 & H). apply lit_dim in H; [exact H|]. apply lit_object; auto.
      apply (skip_before (S q)); [|exact H1]. assert (q <= e)%nat by (eapply before_end; eauto using not_ws_open). assert (q <> e) by congruence. lia. }
    destruct (is_ascii c 0x5B) eqn:Ea.
    { apply is_ascii_iff in Ea as ->. unfold parse_array in H. apply bind_ok in H as (p1 & H1 & H). apply lit_dim in H; [exact H|]. apply lit_array; auto.
      apply (skip_before (S q)); [|exact H1]. assert (q <= e)%nat by (eapply before_end; eauto; apply ascii_not_ws; lia). assert (q <> e) by congruence. lia. }
    destruct (is_ascii c 0x74 || is_ascii c 0x66) eqn:E1.
    { apply orb_true_iff in E1. rewrite !is_ascii_iff in E1. exact (dim_boolean q c err N Hc E1 v p x H). }
    destruct (is_ascii c 0x6E) eqn:E2. { apply is_ascii_iff in E2 as ->. exact (dim_null q err N Hc v p x H). }
    rewrite (get_code_point_unit c) in H by (eapply (char_text s); eauto). cbn [bind] in H.
    destruct (is_digit (utf8_value c) || is_ascii c 0x2D || is_ascii c 0x2B) eqn:E3; [|injection H as <- <- <-; unmasked].
    refine (dim_number q c err N Hc _ v p x H). rewrite !orb_true_iff, !is_ascii_iff, is_digit_spec in E3. unfold lib_num_start. tauto.
Qed.
End Errors.

Lemma reported {F} (f_zero : F) stod s d : text s -> doc_parse f_zero stod s = Ok d -> ~ masked (error d).
Proof.
  intros T H. unfold doc_parse, parser_parse in H. apply bind_ok in H as ([v x] & H & E).
  enough (N : ~ masked x) by (destruct x; injection E as <-; exact N). clear E.
  destruct (s_is_empty s) eqn:Em; [injection H as <- <-; unmasked|].
  assert (Ns : s <> []) by (destruct s; discriminate).
  apply bind_ok in H as (a & Ha & H). apply bind_ok in H as (b & Hb & H). apply bind_ok in H as (c & Hc & H).
  apply s_index_ok in Hc as [Hc La].
  destruct (is_ascii c 0x7B) eqn:Ec; cbn [negb] in H; [|injection H as <- <-; unmasked].
  apply bind_ok in H as (c' & Hc' & H). apply s_index_ok in Hc' as [Hc' Lb].
  destruct (is_ascii c' 0x7D) eqn:Ec'; cbn [negb] in H; [|injection H as <- <-; unmasked].
  apply is_ascii_iff in Ec as ->. apply is_ascii_iff in Ec' as ->.
  destruct (find_last_spec s T Ns) as (k & Ek & [(Lk & A & B)|(-> & B)]); [|assert (b = length s) by congruence; lia].
  assert (k = b) as -> by congruence. apply bind_ok in H as ([[w p] y] & H & [= <- <-]).
  assert (W : forall j c, (b < j)%nat -> nth_error s j = Some c -> lib_ws c) by (intros; eapply B; eauto).
  assert (Sk : skip_space s 0 = Ok a) by exact Ha. destruct (length s) as [|n] eqn:Ls; [lia|]. cbn [parse_value] in H. rewrite Sk in H. cbn [bind] in H.
  destruct (Nat.leb_spec (length s) a); [lia|]. rewrite (seg_index _ _ _ Hc) in H. cbn [bind] in H.
  change (is_ascii [123%N] 34) with false in H. change (is_ascii [123%N] 123) with true in H. cbn match in H.
  unfold parse_object in H. apply bind_ok in H as (p1 & H1 & H). refine (lit_object f_zero s T b Hc' W _ _ _ _ _ _ _ _ _ _ _ H); [ | |unmasked].
  - intros q err N. now apply (dim_value f_zero stod s T b Hc' W).
  - apply (skip_before s T b Hc' W (S a)); [|exact H1]. assert (a <= b)%nat by (eapply before_end; eauto using not_ws_open).
    assert (a <> b) by congruence. lia.
Qed.

(** ** Documents with one member *)

Lemma ascii_text_char b : (0 < b < 128)%N -> text_char (ch b).
Proof. intros H. split; [apply unit1; lia|intros [= ->]; lia]. Qed.

Lemma doc1_text k t : text k -> text t -> text (doc1 k t).
Proof.
  intros Tk Tt. unfold doc1. constructor; [apply ascii_text_char; lia|]. constructor; [apply ascii_text_char; lia|].
  apply Forall_app. split; [exact Tk|]. constructor; [apply ascii_text_char; lia|]. constructor; [apply ascii_text_char; lia|].
  apply Forall_app. split; [exact Tt|]. constructor; [apply ascii_text_char; lia|constructor].
Qed.

Lemma doc1_accepted {F} (f_zero : F) stod k t v : text k -> ~ In (ch 0x22%N) k -> text t ->
  value_text lib_ws lib_key (lib_simple (concat (doc1 k t)) hex_of (real_of stod)) (length k + 4) t v ->
  doc_parse f_zero stod (doc1 k t) = Ok {| root := JObj [(k, v)]; error := NoError |}.
Proof.
  intros Tk Nk Tt V. apply doc_accepts; [now apply doc1_text|]. exists [], (doc1 k t), []. rewrite app_nil_r. split; [reflexivity|]. split; [constructor|].
  split; [|split; [reflexivity|left; constructor]].
  change (JObj [(k, v)]) with (JObj (collect [(k, v)])).
  assert (E : doc1 k t = ch 0x7B%N :: [] ++ (ch 0x22%N :: k ++ ch 0x22%N :: [] ++ ch 0x3A%N :: [] ++ t ++ []) ++ [ch 0x7D%N]).
  { unfold doc1. cbn [app]. rewrite app_nil_r. rewrite <- app_assoc. reflexivity. }
  rewrite E at 2. apply vt_object; [constructor|]. apply ms_one. apply mt_member; [now split|constructor|constructor|constructor|].
  replace (length (@nil Chr) + 1 + length (@nil Chr) + (length k + 3 + length (@nil Chr) + length (@nil Chr)))%nat with (length k + 4)%nat by (cbn; lia).
  exact V.
Qed.

(** What Parse does with it, given what ParseValue does with the value. *)
Lemma doc1_eval {F} (f_zero : F) stod k c t (r : outcome (json F * nat * jerror)) : text k -> ~ In (ch 0x22%N) k -> text (c :: t) -> ~ lib_ws c ->
  (forall d, (length t + 2 <= d)%nat -> parse_value f_zero stod (doc1 k (c :: t)) d (length k + 4) NoError = r) ->
  exists d, doc_parse f_zero stod (doc1 k (c :: t)) =
    ('(v, _, err) <- ('(v, p, err) <- r ;;
      let obj := JObj [(k, v)] in
      p <- skip_space (doc1 k (c :: t)) p ;;
      x <- s_index (doc1 k (c :: t)) p ;;
      if is_ascii x 0x2C then
        p <- skip_space (doc1 k (c :: t)) (S p) ;;
        x <- s_index (doc1 k (c :: t)) p ;;
        if is_ascii x 0x7D then Ok (JNull, p, TrailingComma)
        else object_loop f_zero (doc1 k (c :: t)) (parse_value f_zero stod (doc1 k (c :: t)) d) (length (doc1 k (c :: t))) obj p err
      else if is_ascii x 0x7D then Ok (obj, S p, err)
      else Ok (JNull, p, UnexpectedCharacter)) ;;
     Ok (match err with NoError => {| root := v; error := NoError |} | _ => {| root := make_null f_zero; error := err |} end)).
Proof.
  intros Tk Nk Tt Nc P. set (s := doc1 k (c :: t)) in *. assert (T : text s) by now apply doc1_text.
  assert (Ls : length s = (length k + length t + 6)%nat).
  { unfold s, doc1. cbn [length]. rewrite app_length. cbn [length]. rewrite app_length. cbn [length]. lia. }
  assert (H0 : nth_error s 0 = Some (ch 0x7B%N)) by reflexivity.
  assert (H1 : nth_error s 1 = Some (ch 0x22%N)) by reflexivity.
  assert (Gk : seg s 2 (length k + 2) k) by (exists [ch 0x7B%N; ch 0x22%N], (ch 0x22%N :: ch 0x3A%N :: (c :: t) ++ [ch 0x7D%N]); cbn; repeat split; lia).
  assert (Gr : skipn (length k + 2) s = ch 0x22%N :: ch 0x3A%N :: c :: t ++ [ch 0x7D%N]).
  { apply seg_skipn in Gk. change (skipn 2 s) with (k ++ ch 0x22%N :: ch 0x3A%N :: c :: t ++ [ch 0x7D%N]) in Gk. now apply app_inv_head in Gk. }
  assert (Hq : nth_error s (length k + 2) = Some (ch 0x22%N)) by (eapply skipn_nth; exact Gr).
  rewrite (nth_skipn _ _ _ Hq) in Gr. assert (Gr1 : skipn (S (length k + 2)) s = ch 0x3A%N :: c :: t ++ [ch 0x7D%N]) by congruence.
  assert (Hcol : nth_error s (S (length k + 2)) = Some (ch 0x3A%N)) by (eapply skipn_nth; exact Gr1).
  rewrite (nth_skipn _ _ _ Hcol) in Gr1. assert (Gr2 : skipn (S (S (length k + 2))) s = c :: t ++ [ch 0x7D%N]) by congruence.
  assert (Hc : nth_error s (S (S (length k + 2))) = Some c) by (eapply skipn_nth; exact Gr2).
  assert (W1 : ~ lib_ws (ch 0x22%N)) by (apply ascii_not_ws; lia).
  assert (W2 : ~ lib_ws (ch 0x3A%N)) by (apply ascii_not_ws; lia).
  assert (E1 : find_first_non_space s = Ok 0) by (apply (first_at stod s T [] (ch 0x7B%N) (tl s)); [reflexivity|constructor|apply not_ws_open]).
  assert (E2 : find_last_non_space s = Ok (length k + length t + 5)).
  { replace (length k + length t + 5)%nat with (length (ch 0x7B%N :: ch 0x22%N :: k ++ ch 0x22%N :: ch 0x3A%N :: c :: t)).
    - apply (last_at stod s T _ (ch 0x7D%N) []); [|discriminate|constructor|apply not_ws_close]. unfold s, doc1. cbn [app]. rewrite <- app_assoc. reflexivity.
    - cbn [length]. rewrite app_length. cbn [length]. lia. }
  assert (H3 : nth_error s (length k + length t + 5) = Some (ch 0x7D%N)).
  { unfold s, doc1.
    replace (ch 123%N :: ch 34%N :: k ++ ch 34%N :: ch 58%N :: (c :: t) ++ [ch 125%N]) with
      ((ch 123%N :: ch 34%N :: k ++ ch 34%N :: ch 58%N :: c :: t) ++ [ch 125%N]) by (cbn [app]; rewrite <- app_assoc; reflexivity).
    rewrite nth_error_app2; cbn [length]; rewrite app_length; cbn [length]; [|lia].
    replace (_ - _)%nat with 0%nat by lia. reflexivity. }
  destruct (length s) as [|n] eqn:En; [lia|]. exists n.
  unfold doc_parse, parser_parse. change (s_is_empty s) with false. cbn match. rewrite E1, E2. cbn [bind].
  rewrite (seg_index _ _ _ H0), (seg_index _ _ _ H3). cbn [bind]. change (is_ascii [123%N] 123) with true. change (is_ascii [125%N] 125) with true. cbn [negb].
  rewrite En. cbn [parse_value]. rewrite (skip_here s T 0 _ H0 not_ws_open). cbn [bind].
  destruct (Nat.leb_spec (length s) 0); [lia|]. rewrite (seg_index _ _ _ H0). cbn [bind].
  change (is_ascii [123%N] 34) with false. change (is_ascii [123%N] 123) with true. cbn match.
  unfold parse_object. rewrite (skip_here s T 1 _ H1 W1). cbn [bind]. change (make_object f_zero) with (@JObj F []). rewrite En.
  remember (S n) as m eqn:Em in |- *. cbn [object_loop]. destruct (Nat.ltb_spec 1 (length s)); [|lia]. rewrite (skip_here s T 1 _ H1 W1). cbn [bind].
  rewrite (seg_index _ _ _ H1). cbn [bind]. change (is_ascii [34%N] 125) with false. change (is_ascii [34%N] 34) with true. cbn match.
  rewrite (find_key_end s T 2 (length k + 2) k Gk Nk Hq). cbn [bind]. rewrite (seg_substring _ _ _ _ _ Gk eq_refl). cbn [bind].
  rewrite (skip_here s T _ _ Hcol W2). cbn [bind]. rewrite (seg_index _ _ _ Hcol). cbn [bind]. change (is_ascii [58%N] 58) with true. cbn match.
  rewrite (skip_here s T _ _ Hc Nc). cbn [bind]. replace (S (S (length k + 2))) with (length k + 4)%nat by lia. rewrite P by lia.
  destruct r as [[[v p] err]|x| |]; cbn [bind]; [|reflexivity|reflexivity|reflexivity].
  unfold store_key. rewrite update_key_obj. cbn [upd].
  destruct (skip_space s p) as [p'|x| |]; cbn [bind]; [|reflexivity|reflexivity|reflexivity].
  destruct (s_index s p') as [x|x| |]; cbn [bind]; [|reflexivity|reflexivity|reflexivity].
  destruct (is_ascii x 0x2C).
  - destruct (skip_space s (S p')) as [p''|y| |]; cbn [bind]; [|reflexivity|reflexivity|reflexivity].
    destruct (s_index s p'') as [y|y| |]; cbn [bind]; [|reflexivity|reflexivity|reflexivity].
    destruct (is_ascii y 0x7D); cbn [bind]; [reflexivity|]. 
    match goal with |- context [object_loop ?a ?b ?c ?d ?e ?f ?g] => destruct (object_loop a b c d e f g) as [[[v' q'] e']|z| |] end; reflexivity.
  - destruct (is_ascii x 0x7D); reflexivity.
Qed.

Lemma doc1_length k t : length (doc1 k t) = (length k + length t + 5)%nat.
Proof. unfold doc1. cbn [length]. rewrite app_length. cbn [length]. rewrite app_length. cbn [length]. lia. Qed.
Lemma doc1_seg k t : seg (doc1 k t) (length k + 4) (length k + 4 + length t) t.
Proof.
  exists (ch 0x7B%N :: ch 0x22%N :: k ++ [ch 0x22%N; ch 0x3A%N]), [ch 0x7D%N]. split; [|split; [|reflexivity]].
  - unfold doc1. cbn [app]. rewrite <- app_assoc. reflexivity.
  - cbn [length]. rewrite app_length. cbn [length]. lia.
Qed.
Lemma doc1_close k t : nth_error (doc1 k t) (length k + 4 + length t) = Some (ch 0x7D%N).
Proof.
  destruct (doc1_seg k t) as (a & b & E & La & _). unfold doc1 in E.
  replace (ch 0x7B%N :: ch 0x22%N :: k ++ ch 0x22%N :: ch 0x3A%N :: t ++ [ch 0x7D%N]) with
    ((ch 0x7B%N :: ch 0x22%N :: k ++ [ch 0x22%N; ch 0x3A%N]) ++ t ++ [ch 0x7D%N]) in E by (cbn [app]; rewrite <- app_assoc; reflexivity).
  replace (doc1 k t) with (((ch 0x7B%N :: ch 0x22%N :: k ++ [ch 0x22%N; ch 0x3A%N]) ++ t) ++ [ch 0x7D%N]).
  2:{ unfold doc1. cbn [app]. rewrite <- !app_assoc. reflexivity. }
  rewrite nth_error_app2; rewrite app_length; cbn [length]; rewrite app_length; cbn [length]; [|lia].
  replace (_ - _)%nat with 0%nat by lia. reflexivity.
Qed.

(** A value that fails without moving on: an unexpected character. *)
Lemma doc1_fails {F} (f_zero : F) stod k c t v e : text k -> ~ In (ch 0x22%N) k -> text (c :: t) -> ~ lib_ws c -> c <> ch 0x2C%N -> c <> ch 0x7D%N ->
  (forall d, (length t + 2 <= d)%nat -> parse_value f_zero stod (doc1 k (c :: t)) d (length k + 4) NoError = Ok (v, (length k + 4)%nat, e)) ->
  doc_parse f_zero stod (doc1 k (c :: t)) = Ok {| root := JNull; error := UnexpectedCharacter |}.
Proof.
  intros Tk Nk Tt Nc N1 N2 P. destruct (doc1_eval f_zero stod k c t _ Tk Nk Tt Nc P) as (d & ->). cbn [bind].
  destruct (seg_head _ _ _ _ _ (doc1_seg k (c :: t))) as [Hc _].
  rewrite (skip_here _ (doc1_text k (c :: t) Tk Tt) _ _ Hc Nc). cbn [bind]. rewrite (seg_index _ _ _ Hc). cbn [bind].
  destruct (is_ascii c 0x2C) eqn:E1; [apply is_ascii_iff in E1; contradiction|].
  destruct (is_ascii c 0x7D) eqn:E2; [apply is_ascii_iff in E2; contradiction|]. reflexivity.
Qed.

(** ** Numbers *)
Lemma digit_start c : digit_char c -> exists v, decimal_digit (utf8_value c) v.
Proof.
  intros (b & -> & B). unfold ascii_digit in B. exists (b - 48)%N. rewrite ascii_value. split; [lia|]. exists 48%N. split; [now left|lia].
Qed.
Lemma not_digit b : ~ ascii_digit b -> ~ digit_char (ch b).
Proof. intros N (x & [= <-] & D). contradiction. Qed.

Lemma std_number i f z : std_int i -> std_frac f -> int_numeral (concat i) z ->
  exists c t, i ++ f = c :: t /\ lib_num_start c /\ Forall lib_num_char (c :: t) /\ ~ has_exponent (c :: t) /\ lib_integer (c :: t) z /\ text (c :: t).
Proof.
  intros (m & ds & -> & M & D) Fr Z.
  assert (Dd : Forall digit_char ds /\ ds <> []).
  { destruct D as [->|(d & r & -> & _ & D)]; (split; [|discriminate]); [|exact D]. repeat constructor. exists 48%N. unfold ascii_digit. split; [reflexivity|lia]. }
  destruct Dd as [Dd Nd]. clear D.
  assert (Ff : Forall (fun c => digit_char c \/ c = ch 0x2E%N) f /\ (forall d r, f = d :: r -> ~ digit_char d)).
  { destruct Fr as [->|(d & r & -> & Fr)]; (split; [|]); [constructor|discriminate| |].
    - constructor; [now right|]. eapply Forall_impl; [|exact Fr]. intros; now left.
    - intros ? ? [= <- _]. apply not_digit. unfold ascii_digit. lia. }
  destruct Ff as [Ff Hf].
  assert (All : Forall (fun c => digit_char c \/ c = ch 0x2E%N \/ c = ch 0x2D%N) ((m ++ ds) ++ f)).
  { rewrite !Forall_app. repeat split.
    - destruct M as [->| ->]; constructor; auto.
    - eapply Forall_impl; [|exact Dd]. auto.
    - eapply Forall_impl; [|exact Ff]. cbn. tauto. }
  assert (NC : Forall lib_num_char ((m ++ ds) ++ f)).
  { eapply Forall_impl; [|exact All]. intros c [H|[->| ->]]; [left; now apply digit_start|right; cbn; tauto|right; cbn; tauto]. }
  assert (NX : ~ has_exponent ((m ++ ds) ++ f)).
  { rewrite Forall_forall in All. unfold has_exponent. intros [H|[H|H]]; apply All in H as [(b & [= <-] & B)|[H|H]]; try discriminate H; unfold ascii_digit in B; lia. }
  assert (TX : text ((m ++ ds) ++ f)).
  { eapply Forall_impl; [|exact All]. intros c [(b & -> & B)|[->| ->]]; apply ascii_text_char; unfold ascii_digit in *; lia. }
  assert (LI : lib_integer ((m ++ ds) ++ f) z).
  { destruct (digit_chars ds Dd) as [Dc Lc]. assert (Nc : concat ds <> []) by (intros E; rewrite E in Lc; destruct ds; [congruence|discriminate]).
    destruct M as [->| ->]; cbn [app] in *.
    - inversion Z as [ds' N' D' E'|ds' N' D' E'|ds' N' D' E'].
      + now apply li_pos.
      + rewrite <- E' in Dc. apply Forall_inv in Dc. unfold ascii_digit in Dc. lia.
      + rewrite <- E' in Dc. apply Forall_inv in Dc. unfold ascii_digit in Dc. lia.
    - cbn [concat app] in Z. inversion Z as [ds' N' D' E'|ds' N' D' E'|ds' N' D' E']; subst.
      + apply Forall_inv in D'. unfold ascii_digit in D'. lia.
      + now apply li_neg. }
  destruct ((m ++ ds) ++ f) as [|c t] eqn:E; [destruct m, ds; try congruence; discriminate|].
  exists c, t. repeat split; auto. destruct M as [->| ->]; cbn [app] in E.
  - destruct ds as [|d ds]; [congruence|]. cbn [app] in E. injection E as <- _. left. apply digit_start. now inversion Dd.
  - injection E as <- _. right. now left.
Qed.

Lemma number_value {F} (f_zero : F) stod s p q c t z err d : text s -> seg s p q (c :: t) -> (forall x, nth_error s q = Some x -> ~ lib_num_char x) ->
  lib_num_start c -> Forall lib_num_char (c :: t) -> ~ has_exponent (c :: t) -> lib_integer (c :: t) z -> ~ int64 z ->
  parse_value f_zero stod s d p err = Ok (JNull, p, OutOfRangeError).
Proof.
  intros T G St N W X I R. destruct (seg_head _ _ _ _ _ G) as [Hc _]. pose proof (nth_lt _ _ _ Hc) as Lp. pose proof (seg_text _ _ _ _ T G) as Tt.
  assert (K : forall b, (b < 128)%N -> ~ ascii_digit b -> b <> 0x2D%N -> b <> 0x2B%N -> is_ascii c b = false).
  { intros b Lb Db N1 N2. destruct (is_ascii c b) eqn:E; [|reflexivity]. apply is_ascii_iff in E as ->.
    destruct N as [(v & V)|[[= ->]|[= ->]]]; [|congruence|congruence]. rewrite ascii_value in V. apply digit_ascii in V; auto. contradiction. }
  assert (E : is_digit (utf8_value c) || is_ascii c 0x2D || is_ascii c 0x2B = true).
  { rewrite !orb_true_iff, !is_ascii_iff, is_digit_spec. unfold lib_num_start in N. tauto. }
  assert (P : parse_number stod s p err = Ok (JNull, p, OutOfRangeError)).
  { destruct (number_eq stod s T p q c t err G W St) as [_ HN]. rewrite HN by exact X. rewrite (stoll_integer _ _ Tt I).
    destruct (in_int64 z) eqn:E6; [apply in_int64_iff in E6; contradiction|]. reflexivity. }
  assert (Sk : skip_space s p = Ok p) by (apply (skip_here s T p c Hc); now apply num_start_not_ws).
  assert (U : get_code_point c = Ok (utf8_value c)) by (apply get_code_point_unit; apply (char_text s T _ _ Hc)).
  destruct d; cbn [parse_value]; rewrite Sk; cbn [bind]; (destruct (Nat.leb_spec (length s) p); [lia|]); rewrite (seg_index _ _ _ Hc); cbn [bind];
    rewrite !K by (unfold ascii_digit; lia); cbn [orb]; rewrite U; cbn [bind]; rewrite E; exact P.
Qed.

Lemma close_stops k t x : nth_error (doc1 k t) (length k + 4 + length t) = Some x -> ~ lib_num_char x.
Proof. rewrite doc1_close. intros [= <-]. apply ascii_not_num; [lia|unfold ascii_digit; lia|cbn; lia]. Qed.

Lemma number_in_range {F} (f_zero : F) stod k i f z : text k -> ~ In (ch 0x22%N) k -> std_int i -> std_frac f -> int_numeral (concat i) z -> int64 z ->
  doc_parse f_zero stod (doc1 k (i ++ f)) = Ok {| root := JObj [(k, JInt z)]; error := NoError |}.
Proof.
  intros Tk Nk I Fr Z R. destruct (std_number i f z I Fr Z) as (c & t & -> & N & W & X & L & Tt).
  apply doc1_accepted; auto. apply vt_simple. now apply lp_int.
Qed.
Lemma number_out_of_range {F} (f_zero : F) stod k i f z : text k -> ~ In (ch 0x22%N) k -> std_int i -> std_frac f -> int_numeral (concat i) z -> ~ int64 z ->
  doc_parse f_zero stod (doc1 k (i ++ f)) = Ok {| root := JNull; error := UnexpectedCharacter |}.
Proof.
  intros Tk Nk I Fr Z R. destruct (std_number i f z I Fr Z) as (c & t & -> & N & W & X & L & Tt).
  assert (D : forall b, ~ ascii_digit b -> b <> 0x2D%N -> b <> 0x2B%N -> (b < 128)%N -> c <> ch b).
  { intros b Nb N1 N2 Lb ->. destruct N as [(v & V)|[Y|Y]]; [|congruence|congruence]. rewrite ascii_value in V. apply Nb. eapply digit_ascii; eauto. }
  apply (doc1_fails f_zero stod k c t JNull OutOfRangeError Tk Nk Tt).
  - now apply num_start_not_ws.
  - apply D; unfold ascii_digit; lia.
  - apply D; unfold ascii_digit; lia.
  - intros d _. apply (number_value f_zero stod _ _ _ c t z _ _ (doc1_text k (c :: t) Tk Tt) (doc1_seg k (c :: t))); auto.
    intros x. apply close_stops.
Qed.

(** ** Strings *)

Lemma plain_in u : Forall plain u <-> ~ In (ch 0x22%N) u /\ ~ In (ch 0x5C%N) u.
Proof.
  split.
  - intros H. rewrite Forall_forall in H. split; intros I; apply H in I as [? ?]; congruence.
  - intros [A B]. apply Forall_forall. intros c I. split; intros ->; contradiction.
Qed.

Lemma quoted_text u : text u -> text (quoted u).
Proof. intros T. constructor; [apply ascii_text_char; lia|]. apply Forall_app. split; [exact T|]. constructor; [apply ascii_text_char; lia|constructor]. Qed.

Lemma string_value {F} (f_zero : F) stod k u : text k -> ~ In (ch 0x22%N) k -> text u -> Forall plain u ->
  doc_parse f_zero stod (doc1 k (quoted u)) = Ok {| root := JObj [(k, JStr u)]; error := NoError |}.
Proof.
  intros Tk Nk Tu P. apply plain_in in P as [P1 P2]. apply doc1_accepted; auto; [now apply quoted_text|]. apply vt_simple.
  apply (lp_string _ _ _ _ u (concat u) u); auto. now apply plain_string.
Qed.

Lemma lib_string_app hex t b t' b' : lib_string hex t b -> lib_string hex t' b' -> lib_string hex (t ++ t') (b ++ b').
Proof.
  induction 1; intros H'; cbn [app]; rewrite <- ?app_assoc; [exact H'|apply ls_plain; auto|apply ls_escape; auto|apply ls_unicode; auto].
Qed.

Lemma string_escape {F} (f_zero : F) stod k u e b c w : text k -> ~ In (ch 0x22%N) k -> text u -> Forall plain u -> json_esc e b -> text_char c ->
  text w -> Forall plain w ->
  doc_parse f_zero stod (doc1 k (quoted (u ++ ch 0x5C%N :: ch e :: c :: w))) = Ok {| root := JObj [(k, JStr (u ++ ch b :: w))]; error := NoError |}.
Proof.
  intros Tk Nk Tu Pu J Tc Tw Pw. apply plain_in in Pu as [P1 P2]. apply plain_in in Pw as [P3 P4].
  assert (Eb : (0 < e < 128)%N /\ (0 < b < 128)%N) by (destruct J; lia).
  apply doc1_accepted; auto.
  { apply quoted_text. apply Forall_app. split; [exact Tu|]. constructor; [apply ascii_text_char; lia|]. constructor; [apply ascii_text_char; lia|]. now constructor. }
  apply vt_simple. apply (lp_string _ _ _ _ _ (concat u ++ b :: concat w)).
  - apply lib_string_app; [now apply plain_string|]. apply ls_escape; [exact J|]. now apply plain_string.
  - apply Forall_app. split; [exact Tu|]. constructor; [apply ascii_text_char; lia|exact Tw].
  - left. rewrite concat_app. reflexivity.
Qed.

Lemma string_plain {F} s : text s -> forall u pos q, seg s pos q u -> Forall plain u -> forall fuel err out,
  string_loop (F := F) s (length u + fuel) pos err out = string_loop s fuel q err (out ++ concat u).
Proof.
  intros T. induction u as [|c u IH]; intros pos q G P fuel err out.
  - apply seg_le in G as [_ ->]. cbn [length concat Nat.add]. now rewrite Nat.add_0_r, app_nil_r.
  - apply seg_head in G as [Hc G]. inversion P as [|? ? [P1 P2] P']; subst. cbn [length Nat.add string_loop].
    pose proof (nth_lt _ _ _ Hc). destruct (Nat.ltb_spec pos (length s)); [|lia]. rewrite (seg_index _ _ _ Hc). cbn [bind].
    destruct (is_ascii c 0x22) eqn:E1; [apply is_ascii_iff in E1; contradiction|].
    destruct (is_ascii c 0x5C) eqn:E2; [apply is_ascii_iff in E2; contradiction|].
    rewrite (cstr_char s T _ _ Hc), (IH _ _ G P'), <- app_assoc. reflexivity.
Qed.

(** A string that ends with an escape: the closing quotation mark is swallowed and the end of the text overrun. *)
Lemma escape_at_end {F} (f_zero : F) stod k u e b : text k -> ~ In (ch 0x22%N) k -> text u -> Forall plain u -> json_esc e b ->
  doc_parse f_zero stod (doc1 k (quoted (u ++ [ch 0x5C%N; ch e]))) = UB.
Proof.
  intros Tk Nk Tu Pu J. assert (Eb : (0 < e < 128)%N /\ (0 < b < 128)%N) by (destruct J; lia).
  set (rest := (u ++ [ch 0x5C%N; ch e]) ++ [ch 0x22%N]).
  assert (Tt : text (ch 0x22%N :: rest)).
  { unfold rest. apply quoted_text. apply Forall_app. split; [exact Tu|]. constructor; [apply ascii_text_char; lia|]. constructor; [apply ascii_text_char; lia|constructor]. }
  assert (Nc : ~ lib_ws (ch 0x22%N)) by (apply ascii_not_ws; lia).
  destruct (doc1_eval f_zero stod k (ch 0x22%N) rest UB Tk Nk Tt Nc) as (d & E); [|exact E].
  intros d _. change (ch 0x22%N :: rest) with (quoted (u ++ [ch 0x5C%N; ch e])) in *. set (t := quoted (u ++ [ch 0x5C%N; ch e])) in *. set (s := doc1 k t).
  assert (T : text s) by now apply doc1_text. pose proof (doc1_seg k t) as G. pose proof (doc1_close k t) as Hz. pose proof (doc1_length k t) as Ls. fold s in G, Hz, Ls.
  assert (Lt : length t = (length u + 4)%nat) by (unfold t, quoted; cbn [length]; rewrite !app_length; cbn; lia).
  unfold t, quoted in G. apply seg_head in G as [Hc G]. rewrite <- app_assoc in G. apply seg_split in G as [Gu G].
  cbn [app] in G. apply seg_head in G as [H1 G]. apply seg_head in G as [H2 G]. apply seg_head in G as [H3 _].
  assert (P : parse_string (F := F) s (length k + 4) NoError = UB).
  { unfold parse_string. replace (S (length s)) with (length u + (S (length s) - length u))%nat by lia.
    rewrite (string_plain s T u _ _ Gu Pu). replace (S (length s) - length u)%nat with (S (S (S (length k + 7))))%nat by lia.
    set (p := (S (length k + 4) + length u)%nat) in *. set (out := [] ++ concat u). cbn [string_loop].
    destruct (Nat.ltb_spec p (length s)); [|unfold p in *; lia]. rewrite (seg_index _ _ _ H1). cbn [bind].
    change (is_ascii [92%N] 34) with false. change (is_ascii [92%N] 92) with true. cbn match.
    destruct (Nat.leb_spec (length s) (S p)); [unfold p in *; lia|]. rewrite (seg_index _ _ _ H2). cbn [bind].
    rewrite (proj2 (json_escape_spec (ch e) b)) by (eexists; eauto).
    replace (S p + 2)%nat with (length k + 4 + length t)%nat by (unfold p; lia).
    destruct (Nat.ltb_spec (length k + 4 + length t) (length s)); [|lia]. rewrite (seg_index _ _ _ Hz). cbn [bind].
    change (is_ascii [125%N] 34) with false. change (is_ascii [125%N] 92) with false. cbn match.
    destruct (Nat.ltb_spec (S (length k + 4 + length t)) (length s)); [lia|].
    unfold s_index, vec_get. rewrite (proj2 (nth_error_None s _)) by lia. reflexivity. }
  destruct d; cbn [parse_value]; rewrite (skip_here s T _ _ Hc Nc); cbn [bind];
    (destruct (Nat.leb_spec (length s) (length k + 4)); [lia|]); rewrite (seg_index _ _ _ Hc); cbn [bind];
    change (is_ascii [34%N] 34) with true; cbn match; exact P.
Qed.

(** ** Texts that make the parser read past the end *)
Lemma blank_undefined {F} (f_zero : F) stod s : text s -> s <> [] -> ws lib_ws s -> doc_parse f_zero stod s = UB.
Proof.
  intros T N W. unfold doc_parse, parser_parse. replace (s_is_empty s) with false by (now destruct s).
  destruct (find_first_spec s T) as (k & Ek & L & B & A). rewrite Ek. cbn [bind].
  destruct (find_last_spec s T N) as (j & -> & _). cbn [bind].
  assert (k = length s) as ->.
  { destruct (Nat.eq_dec k (length s)) as [E|E]; [exact E|]. exfalso. destruct (nth_error s k) as [c|] eqn:Ec.
    - apply (A c eq_refl). eapply ws_nth; eauto.
    - apply nth_error_None in Ec. lia. }
  unfold s_index, vec_get. rewrite (proj2 (nth_error_None s _)) by lia. reflexivity.
Qed.

(** The text of an object as the only value of a document that is not closed. *)
Lemma unclosed_undefined {F} (f_zero : F) stod k m v : text k -> ~ In (ch 0x22%N) k -> text m ->
  value_text lib_ws lib_key (lib_simple (concat (doc1 k (ch 0x7B%N :: m))) hex_of (real_of stod)) (length k + 4) (ch 0x7B%N :: m ++ [ch 0x7D%N]) v ->
  doc_parse f_zero stod (doc1 k (ch 0x7B%N :: m)) = UB.
Proof.
  intros Tk Nk Tm V. assert (Tt : text (ch 0x7B%N :: m)) by (constructor; [apply ascii_text_char; lia|exact Tm]).
  set (s := doc1 k (ch 0x7B%N :: m)) in *. assert (T : text s) by now apply doc1_text.
  pose proof (doc1_length k (ch 0x7B%N :: m)) as Ls. fold s in Ls. cbn [length] in Ls.
  assert (G : seg s (length k + 4) (length s) (ch 0x7B%N :: m ++ [ch 0x7D%N])).
  { exists (ch 0x7B%N :: ch 0x22%N :: k ++ [ch 0x22%N; ch 0x3A%N]), []. split; [|split].
    - unfold s, doc1. rewrite app_nil_r. cbn [app]. rewrite <- app_assoc. reflexivity.
    - cbn [length]. rewrite app_length. cbn [length]. lia.
    - rewrite Ls. cbn [length]. rewrite app_length. cbn [length]. lia. }
  assert (P : forall d, (length m + 2 <= d)%nat -> parse_value f_zero stod s d (length k + 4) NoError = Ok (v, length s, NoError)).
  { intros d L. apply (proj1 (complete f_zero stod s T) _ _ _ V); [exact G| |lia].
    clear - V. remember (ch 0x7B%N :: m ++ [ch 0x7D%N]) as o eqn:Eo. destruct V as [? ? ? V|? ? _|? ? ? ? _ _|? ? _|? ? ? ? _ _]; try exact I.
    destruct V; try exact I; (intros y Hy; apply nth_lt in Hy; lia). }
  destruct (doc1_eval f_zero stod k (ch 0x7B%N) m (Ok (v, length s, NoError)) Tk Nk Tt not_ws_open P) as (d & E). fold s in E. rewrite E. cbn [bind].
  unfold skip_space at 1. rewrite skipn_all. cbn [skip_from bind]. unfold s_index at 1, vec_get at 1. rewrite (proj2 (nth_error_None s _)) by lia. reflexivity.
Qed.

(** ** Text after the document *)
Section Mono.
Context {F : Type}.
Variables (wsc : Chr -> Prop) (kt : Str -> Str -> Prop) (simple simple' : nat -> Str -> json F -> Prop).
Hypothesis H : forall p t v, simple p t v -> simple' p t v.
Lemma text_mono :
  (forall p t v, value_text wsc kt simple p t v -> value_text wsc kt simple' p t v) /\
  (forall p t m, member_text wsc kt simple p t m -> member_text wsc kt simple' p t m) /\
  (forall p t ms, members_text wsc kt simple p t ms -> members_text wsc kt simple' p t ms) /\
  (forall p t vs, elements_text wsc kt simple p t vs -> elements_text wsc kt simple' p t vs).
Proof. apply text_mutind; intros; try (econstructor; eauto; fail). Qed.
End Mono.

Lemma occurs_more {A} (w l r : list A) p : occurs_at w l p -> occurs_at w (l ++ r) p.
Proof. intros (a & b & -> & E). exists a, (b ++ r). split; [now rewrite <- !app_assoc|exact E]. Qed.

Lemma simple_more {F} whole r hex real p t (v : json F) : lib_simple whole hex real p t v -> lib_simple (whole ++ r) hex real p t v.
Proof. intros H. destruct H; econstructor; eauto using occurs_more. Qed.

Lemma garbage {F} (f_zero : F) stod s v x w : text s -> text x -> text w -> ws lib_ws w ->
  doc_parse f_zero stod s = Ok {| root := v; error := NoError |} ->
  doc_parse f_zero stod (s ++ x ++ ch 0x7D%N :: w) = Ok {| root := v; error := NoError |}.
Proof.
  intros T Tx Tw W H. apply doc_accepts in H as (w0 & o & r & E & W0 & V & Ty & Tl); [|exact T].
  apply doc_accepts. { apply Forall_app. split; [exact T|]. apply Forall_app. split; [exact Tx|]. constructor; [apply ascii_text_char; lia|exact Tw]. }
  exists w0, o, (r ++ x ++ ch 0x7D%N :: w). split; [rewrite E, <- !app_assoc; reflexivity|]. split; [exact W0|]. split; [|split; [exact Ty|]].
  - rewrite concat_app. eapply text_mono; [|exact V]. intros. now apply simple_more.
  - right. exists (r ++ x), w. rewrite <- app_assoc. auto.
Qed.

Lemma literals_first l r : Forall ascii_part l -> ~ In PLiteral r -> literals_in_ascii (l ++ r).
Proof.
  intros A N a b. revert a. induction l as [|x l IH]; intros a E; cbn [app] in E.
  - exfalso. apply N. rewrite E. apply in_or_app. right. now left.
  - destruct a as [|y a]; [constructor|]. cbn [app] in E. injection E as <- E. inversion A as [|? ? Ax Al]; subst. constructor; [exact Ax|]. now apply (IH Al).
Qed.

Lemma no_object {F} (f_zero : F) stod s w c r : text s -> s = w ++ c :: r -> ws lib_ws w -> ~ lib_ws c ->
  c <> ch 0x7B%N \/ (exists x y z, r = x ++ y :: z /\ ws lib_ws z /\ ~ lib_ws y /\ y <> ch 0x7D%N) ->
  doc_parse f_zero stod s = Ok {| root := JNull; error := InvalidJson |}.
Proof.
  intros T E W N H. unfold doc_parse, parser_parse. assert (Em : s_is_empty s = false) by (rewrite E; destruct w; reflexivity). rewrite Em. clear Em.
  rewrite (first_at stod s T _ _ _ E W N). cbn [bind].
  assert (Ns : s <> []) by (rewrite E; destruct w; discriminate).
  assert (H1 : nth_error s (length w) = Some c) by (rewrite E, nth_error_app2, Nat.sub_diag by lia; reflexivity).
  destruct (is_ascii c 0x7B) eqn:Ec.
  - apply is_ascii_iff in Ec as ->. destruct H as [H|(x & y & z & -> & Wz & Ny & Hy)]; [congruence|].
    assert (Es : s = (w ++ ch 0x7B%N :: x) ++ y :: z) by (rewrite E, <- app_assoc; reflexivity).
    rewrite (last_at stod s T _ _ _ Es) by (auto; destruct w; discriminate). cbn [bind]. rewrite (seg_index _ _ _ H1). cbn [bind].
    change (is_ascii [123%N] 123) with true. cbn [negb].
    assert (H2 : nth_error s (length (w ++ ch 0x7B%N :: x)) = Some y) by (rewrite Es, nth_error_app2, Nat.sub_diag by lia; reflexivity).
    rewrite (seg_index _ _ _ H2). cbn [bind]. destruct (is_ascii y 0x7D) eqn:Ey; [apply is_ascii_iff in Ey; contradiction|]. reflexivity.
  - destruct (find_last_spec s T Ns) as (k & -> & _). cbn [bind]. rewrite (seg_index _ _ _ H1). cbn [bind]. rewrite Ec. reflexivity.
Qed.

Lemma not_std {F} (v : json F) : ~ std_object_text [ch 0x7B%N; ch 0x7D%N; ch 0x7D%N] v.
Proof.
  intros (w & o & w' & E & W & W' & V & Ty).
  assert (w = []) as ->.
  { destruct w as [|c w]; [reflexivity|]. cbn in E. injection E as <- _. apply Forall_inv in W. unfold std_ws in W. cbn in W. intuition discriminate. }
  assert (w' = []) as ->.
  { destruct w' as [|c w' _] using rev_ind; [reflexivity|]. apply Forall_app in W' as [_ W']. apply Forall_inv in W'.
    rewrite !app_assoc in E. change [ch 0x7B%N; ch 0x7D%N; ch 0x7D%N] with ([ch 0x7B%N; ch 0x7D%N] ++ [ch 0x7D%N]) in E.
    apply app_inj_tail in E as [_ <-]. unfold std_ws in W'. cbn in W'. intuition discriminate. }
  rewrite app_nil_r in E. cbn [app] in E. subst o.
  remember [ch 0x7B%N; ch 0x7D%N; ch 0x7D%N] as o eqn:Eo.
  destruct V as [p t v V|p w Ww|p w t ps Ww M|p w _|p w t vs _ _]; try discriminate.
  - destruct V; discriminate Ty.
  - injection Eo as Eo. change [ch 0x7D%N; ch 0x7D%N] with ([ch 0x7D%N] ++ [ch 0x7D%N]) in Eo. apply app_inj_tail in Eo as [-> _].
    apply Forall_inv in Ww. unfold std_ws in Ww. cbn in Ww. intuition discriminate.
  - injection Eo as Eo. rewrite app_assoc in Eo. change [ch 0x7D%N; ch 0x7D%N] with ([ch 0x7D%N] ++ [ch 0x7D%N]) in Eo. apply app_inj_tail in Eo as [Eo _].
    assert (exists r, t = ch 0x22%N :: r) as (r & ->) by (destruct M as [? ? ? M|? ? ? ? ? ? M]; destruct M; cbn [app]; eauto).
    destruct w as [|c w]; cbn in Eo; [discriminate|]. destruct w; discriminate.
Qed.

(** ** Literals *)
Lemma literal_ascii_text b : Forall (fun x => 0 < x < 128)%N b -> text (chars_of b).
Proof. intros H. apply Forall_map. eapply Forall_impl; [|exact H]. intros x Hx. now apply ascii_text_char. Qed.

Lemma literal_simple {F} hex (real : Str -> F -> Prop) s pre post w v : s = pre ++ chars_of w ++ post -> Forall ascii_char pre ->
  (w, v) = (true_bytes, JBool true) \/ (w, v) = (false_bytes, JBool false) \/ (w, v) = (null_bytes, JNull) ->
  lib_simple (concat s) hex real (length pre) (chars_of w) v.
Proof.
  intros E A [[= -> ->]|[[= -> ->]|[= -> ->]]]; pose proof (ascii_occurs s pre _ post E A) as O.
  - apply (lp_true _ _ _ _ (ch 0x74%N)); [reflexivity|now left|exact O].
  - apply (lp_false _ _ _ _ (ch 0x66%N)); [reflexivity|now right|exact O].
  - apply (lp_null _ _ _ _ (tl (chars_of null_bytes))); [reflexivity|exact O].
Qed.

Lemma literal_value {F} (f_zero : F) stod s pre post w v d err : text s -> s = pre ++ chars_of w ++ post -> Forall ascii_char pre ->
  (w, v) = (true_bytes, JBool true) \/ (w, v) = (false_bytes, JBool false) \/ (w, v) = (null_bytes, JNull) -> (length s <= d + length pre)%nat ->
  parse_value f_zero stod s d (length pre) err = Ok (v, (length pre + length w)%nat, err).
Proof.
  intros T E A C L. pose proof (literal_simple hex_of (real_of stod) s pre post w v E A C) as S'.
  apply (simple_complete f_zero stod s T _ _ _ S'); [|destruct C as [[= -> ->]|[[= -> ->]|[= -> ->]]]; exact I|exact L].
  exists pre, post. split; [exact E|]. split; [reflexivity|]. unfold chars_of. now rewrite map_length.
Qed.

Lemma literal_document {F} (f_zero : F) stod k w v : text k -> ~ In (ch 0x22%N) k -> Forall ascii_char k ->
  (w, v) = (true_bytes, JBool true) \/ (w, v) = (false_bytes, JBool false) \/ (w, v) = (null_bytes, JNull) ->
  doc_parse f_zero stod (doc1 k (chars_of w)) = Ok {| root := JObj [(k, v)]; error := NoError |}.
Proof.
  intros Tk Nk A C. apply doc1_accepted; auto.
  - apply literal_ascii_text. destruct C as [[= -> ->]|[[= -> ->]|[= -> ->]]]; repeat constructor.
  - apply vt_simple. replace (length k + 4)%nat with (length (ch 0x7B%N :: ch 0x22%N :: k ++ [ch 0x22%N; ch 0x3A%N])).
    2:{ cbn [length]. rewrite app_length. cbn [length]. lia. }
    apply literal_simple with [ch 0x7D%N]; [| |exact C].
    + unfold doc1. cbn [app]. rewrite <- app_assoc. reflexivity.
    + constructor; [apply ascii_ch; lia|]. constructor; [apply ascii_ch; lia|]. apply Forall_app. split; [exact A|].
      constructor; [apply ascii_ch; lia|]. constructor; [apply ascii_ch; lia|constructor].
Qed.

(** What decides is what stands at the byte whose number is the number of the character. *)
Lemma literal_offset {F} (f_zero : F) stod s p c d err : text s -> nth_error s p = Some c -> c = ch 0x74%N \/ c = ch 0x66%N ->
  (occurs_at true_bytes (concat s) p -> parse_value f_zero stod s d p err = Ok (JBool true, (p + 4)%nat, err)) /\
  (occurs_at false_bytes (concat s) p -> parse_value f_zero stod s d p err = Ok (JBool false, (p + 5)%nat, err)) /\
  (~ occurs_at true_bytes (concat s) p -> ~ occurs_at false_bytes (concat s) p -> parse_value f_zero stod s d p err = Ok (JNull, p, InvalidValue)).
Proof.
  intros T Hc C. pose proof (nth_lt _ _ _ Hc) as Lp.
  assert (Nc : ~ lib_ws c) by (destruct C as [->| ->]; apply ascii_not_ws; lia).
  assert (E : parse_value f_zero stod s d p err = parse_boolean s p err).
  { assert (K : is_ascii c 34 = false /\ is_ascii c 123 = false /\ is_ascii c 91 = false /\ (is_ascii c 116 || is_ascii c 102) = true) by
      (destruct C as [->| ->]; auto). destruct K as (K1 & K2 & K3 & K4).
    destruct d; cbn [parse_value]; rewrite (skip_here s T _ _ Hc Nc); cbn [bind]; (destruct (Nat.leb_spec (length s) p); [lia|]);
      rewrite (seg_index _ _ _ Hc); cbn [bind]; rewrite K1, K2, K3, K4; reflexivity. }
  rewrite E. split; [|split].
  - intros O. apply (true_complete stod); auto. lia.
  - intros O. apply (false_complete stod); auto. lia.
  - intros N1 N2. unfold parse_boolean. destruct (compare_spec stod s T p true_bytes) as (b1 & E1 & B1); [lia|]. destruct (compare_spec stod s T p false_bytes) as (b2 & E2 & B2); [lia|].
    change (length true_bytes) with 4%nat in E1. change (length false_bytes) with 5%nat in E2. rewrite E1. cbn [bind].
    destruct b1; [exfalso; apply N1; now apply B1|]. rewrite E2. cbn [bind]. destruct b2; [exfalso; apply N2; now apply B2|]. reflexivity.
Qed.
