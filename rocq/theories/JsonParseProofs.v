(** The JSON parser on texts: it succeeds exactly on the texts of the library's grammar. *)
From Coq Require Import List NArith ZArith Bool Arith Lia.
From Verif Require Import Outcome CharModel CharUtil StrModel StrUtil Dec JsonData JsonParse SpecJson SpecUtf8 SpecStr SpecChar SpecInt
  SpecJsonText SpecStrUtil CharProofs CharUtilProofs StrProofs StrUtilProofs HexProofs DecProofs JsonDataProofs JsonParseSafe.
Import ListNotations.
Local Open Scope list_scope.
Local Arguments is_space : simpl never.
Local Arguments is_digit : simpl never.
Local Arguments get_code_point : simpl never.
Local Arguments white_space : simpl never.

(** ** Pieces of a text *)

(** [t] stands in [s] from [p] to [q]. *)
Definition seg (s : Str) (p q : nat) (t : Str) : Prop := exists a b, s = a ++ t ++ b /\ length a = p /\ q = (p + length t)%nat.

Section Seg.
Variable s : Str.

Lemma seg_le p q t : seg s p q t -> (p <= q <= length s)%nat /\ q = (p + length t)%nat.
Proof. intros (a & b & -> & <- & ->). rewrite !app_length. lia. Qed.
Lemma seg_nil p : (p <= length s)%nat -> seg s p p [].
Proof.
  intros H. exists (firstn p s), (skipn p s). cbn. rewrite firstn_skipn, firstn_length. repeat split; lia.
Qed.
Lemma seg_char p c : nth_error s p = Some c -> seg s p (S p) [c].
Proof.
  intros H. apply nth_error_split in H as (a & b & E & L). exists a, b. cbn. repeat split; auto. lia.
Qed.
Lemma seg_app p q r t u : seg s p q t -> seg s q r u -> seg s p r (t ++ u).
Proof.
  intros (a & b & E & L & Q) (a' & b' & E' & L' & R). exists a, b'. rewrite app_length. split; [|lia].
  assert (a' = a ++ t).
  { rewrite E, app_assoc in E'. assert (LL : length a' = length (a ++ t)) by (rewrite app_length; lia).
    apply (f_equal (firstn (length a'))) in E'. rewrite LL in E' at 1. now rewrite !firstn_app_l in E'. }
  subst a'. rewrite E', <- !app_assoc. reflexivity.
Qed.
Lemma seg_cons p q c t : nth_error s p = Some c -> seg s (S p) q t -> seg s p q (c :: t).
Proof. intros H G. change (c :: t) with ([c] ++ t). eapply seg_app; [now apply seg_char|exact G]. Qed.
Lemma seg_split p r t u : seg s p r (t ++ u) -> seg s p (p + length t) t /\ seg s (p + length t) r u.
Proof.
  intros (a & b & E & L & R). rewrite app_length in R. split.
  - exists a, (u ++ b). rewrite E, <- app_assoc. auto.
  - exists (a ++ t), b. rewrite E, app_length, <- !app_assoc. repeat split; lia.
Qed.
Lemma seg_head p q c t : seg s p q (c :: t) -> nth_error s p = Some c /\ seg s (S p) q t.
Proof.
  intros G. change (c :: t) with ([c] ++ t) in G. apply seg_split in G as [G1 G2]. cbn [length] in *.
  replace (p + 1)%nat with (S p) in * by lia. split; [|exact G2].
  destruct G1 as (a & b & -> & <- & _). rewrite nth_error_app2, Nat.sub_diag by lia. reflexivity.
Qed.
Lemma seg_skipn p q t : seg s p q t -> skipn p s = t ++ skipn q s.
Proof.
  intros (a & b & -> & <- & ->). rewrite skipn_app_l, <- app_length, app_assoc, skipn_app_l. reflexivity.
Qed.
Lemma seg_firstn p q t : seg s p q t -> firstn (q - p) (skipn p s) = t.
Proof.
  intros G. rewrite (seg_skipn _ _ _ G). apply seg_le in G as [_ ->]. replace (p + length t - p)%nat with (length t) by lia.
  apply firstn_app_l.
Qed.
Lemma seg_of p q : (p <= q <= length s)%nat -> seg s p q (firstn (q - p) (skipn p s)).
Proof.
  intros H. exists (firstn p s), (skipn (q - p) (skipn p s)). rewrite !firstn_skipn, !firstn_length, skipn_length.
  repeat split; lia.
Qed.
Lemma seg_in p q t c : seg s p q t -> In c t -> In c s.
Proof. intros (a & b & -> & _) H. apply in_or_app. right. apply in_or_app. now left. Qed.
Lemma seg_substring p q t n : seg s p q t -> n = N.of_nat (q - p) -> s_substring s (N.of_nat p) n = Ok t.
Proof.
  intros G ->. pose proof (seg_le _ _ _ G) as [L _]. destruct (s_substring_spec s (N.of_nat p) (N.of_nat (q - p))) as [E _].
  rewrite E by lia. rewrite Nat2N.id. replace (N.to_nat (N.min (N.of_nat (q - p)) (N.of_nat (length s)))) with (q - p)%nat by lia.
  f_equal. apply seg_firstn, G.
Qed.
Lemma seg_index i c : nth_error s i = Some c -> s_index s i = Ok c.
Proof. unfold s_index, vec_get. now intros ->. Qed.
Lemma seg_text p q t : text s -> seg s p q t -> text t.
Proof. intros T G. apply Forall_forall. intros c H. eapply Forall_forall; [exact T|]. eapply seg_in; eauto. Qed.
End Seg.

(** ** White space *)
Lemma skip_cons c l p : text_char c -> skip_from (c :: l) p = if is_space (utf8_value c) then skip_from l (S p) else Ok p.
Proof. intros [U _]. cbn [skip_from]. now rewrite get_code_point_unit. Qed.

Lemma skip_from_ok l : text l -> forall p, exists w r, l = w ++ r /\ skip_from l p = Ok (p + length w)%nat /\ ws lib_ws w /\
  (forall c r', r = c :: r' -> ~ lib_ws c).
Proof.
  induction 1 as [|c l Hc Hl IH]; intros p.
  - exists [], []. cbn. rewrite Nat.add_0_r. repeat split; auto; [constructor|discriminate].
  - rewrite skip_cons by assumption. destruct (is_space (utf8_value c)) eqn:E.
    + destruct (IH (S p)) as (w & r & -> & -> & W & R). exists (c :: w), r. cbn. repeat split; auto.
      * constructor; [now apply is_space_spec|exact W].
    + exists [], (c :: l). cbn. rewrite Nat.add_0_r. repeat split; auto; [constructor|]. intros c' r' [= <- _] H.
      apply is_space_spec in H. congruence.
Qed.

Lemma skipn_nth {A} (l : list A) p c r : skipn p l = c :: r -> nth_error l p = Some c.
Proof.
  revert l. induction p as [|p IH]; intros [|x l] H; cbn in *; try discriminate; [congruence|auto].
Qed.
Lemma nth_skipn {A} (l : list A) p c : nth_error l p = Some c -> skipn p l = c :: skipn (S p) l.
Proof.
  revert l. induction p as [|p IH]; intros [|x l] H; cbn in *; try discriminate; [congruence|]. now rewrite IH.
Qed.
Lemma text_skipn p s : text s -> text (skipn p s).
Proof. intros T. rewrite <- (firstn_skipn p s) in T. now apply Forall_app in T as [_ T]. Qed.

Section Space.
Variable s : Str.
Hypothesis T : text s.

(** Where SkipSpace stops. *)
Lemma skip_stop p : (p <= length s)%nat -> exists w q, skip_space s p = Ok q /\ seg s p q w /\ ws lib_ws w /\
  (forall c, nth_error s q = Some c -> ~ lib_ws c).
Proof.
  intros L. destruct (skip_from_ok (skipn p s) (text_skipn p s T) p) as (w & r & E & K & W & R).
  exists w, (p + length w)%nat. split; [exact K|].
  assert (G : seg s p (p + length w) w).
  { exists (firstn p s), r. rewrite <- E, firstn_skipn, firstn_length. repeat split; lia. }
  split; [exact G|]. split; [exact W|]. intros c H.
  apply nth_skipn in H. pose proof (seg_skipn _ _ _ _ G) as E'. rewrite E in E'. apply app_inv_head in E'.
  eapply R. rewrite E', H. reflexivity.
Qed.
Lemma skip_inv p q : skip_space s p = Ok q -> (q <= length s)%nat -> exists w, seg s p q w /\ ws lib_ws w /\
  (forall c, nth_error s q = Some c -> ~ lib_ws c).
Proof.
  intros H L. pose proof (skip_le _ _ _ H). destruct (skip_stop p) as (w & q' & E & K); [lia|]. exists w.
  assert (q' = q) as -> by congruence. exact K.
Qed.
Lemma skip_here p c : nth_error s p = Some c -> ~ lib_ws c -> skip_space s p = Ok p.
Proof.
  intros H N. unfold skip_space. rewrite (nth_skipn _ _ _ H), skip_cons.
  - destruct (is_space _) eqn:E; [|reflexivity]. apply is_space_spec in E. contradiction.
  - eapply Forall_forall; [exact T|]. eapply nth_error_In; eauto.
Qed.
Lemma skip_ws w : forall p q c, seg s p q w -> ws lib_ws w -> nth_error s q = Some c -> ~ lib_ws c -> skip_space s p = Ok q.
Proof.
  induction w as [|x w IH]; intros p q c G W H N.
  - apply seg_le in G as [_ ->]. cbn [length] in *. rewrite Nat.add_0_r in *. now apply skip_here with c.
  - apply seg_head in G as [Hx G]. inversion W as [|? ? Wx Ww]; subst. rewrite <- (IH (S p) q c G Ww H N).
    unfold skip_space. rewrite (nth_skipn _ _ _ Hx), skip_cons.
    + apply is_space_spec in Wx. now rewrite Wx.
    + eapply Forall_forall; [exact T|]. eapply nth_error_In; eauto.
Qed.
End Space.

(** ** Numbers *)
Lemma ascii_value b : utf8_value (ch b) = b.
Proof. reflexivity. Qed.

Lemma number_char_spec c : text_char c -> exists b, number_char c = Ok b /\ (b = true <-> lib_num_char c).
Proof.
  intros [U _]. unfold number_char. rewrite get_code_point_unit by assumption. cbn [bind]. eexists. split; [reflexivity|].
  unfold lib_num_char. rewrite !orb_true_iff, !is_ascii_iff, is_digit_spec. cbn [In]. intuition congruence.
Qed.

Lemma number_end_ok l : text l -> forall e, exists t r, l = t ++ r /\ number_end l e = Ok (e + length t)%nat /\
  Forall lib_num_char t /\ (forall c r', r = c :: r' -> ~ lib_num_char c).
Proof.
  induction 1 as [|c l Hc Hl IH]; intros e; cbn [number_end].
  - exists [], []. cbn. rewrite Nat.add_0_r. repeat split; auto. discriminate.
  - destruct (number_char_spec c Hc) as (b & -> & B). cbn [bind]. destruct b.
    + destruct (IH (S e)) as (t & r & -> & -> & W & R). exists (c :: t), r. cbn. repeat split; auto.
      * constructor; [now apply B|exact W].
    + exists [], (c :: l). cbn. rewrite Nat.add_0_r. repeat split; auto. intros c' r' [= <- _] H. apply B in H. discriminate.
Qed.

Lemma dec_run_value ds : forall acc r, Forall ascii_digit ds -> (forall b r', r = b :: r' -> ~ ascii_digit b) ->
  Z.of_N (dec_run acc (ds ++ r)) = (Z.of_N acc * 10 ^ Z.of_nat (length ds) + digits_value ds)%Z.
Proof.
  induction ds as [|d ds IH]; intros acc r H R.
  - cbn [app length]. rewrite digits_value_nil. change (Z.of_nat 0) with 0%Z. rewrite Z.pow_0_r.
    destruct r as [|b r']; cbn [dec_run]; [lia|]. specialize (R b r' eq_refl). unfold ascii_digit in R.
    destruct (N.leb_spec 48 b), (N.leb_spec b 57); cbn; lia.
  - inversion H as [|? ? Hd Hds]; subst. cbn [app dec_run]. unfold ascii_digit in Hd.
    destruct (N.leb_spec 48 d); [|lia]. destruct (N.leb_spec d 57); [|lia]. cbn [andb]. rewrite IH by assumption.
    rewrite digits_value_cons. cbn [length]. rewrite Nat2Z.inj_succ, Z.pow_succ_r by lia. nia.
Qed.

Lemma digit_chars ds : Forall digit_char ds -> Forall ascii_digit (concat ds) /\ length (concat ds) = length ds.
Proof.
  induction 1 as [|c ds (b & -> & B) H [IH1 IH2]]; cbn; [auto|]. split; [constructor; auto|congruence].
Qed.
Lemma nondigit_head r : text r -> (forall d r', r = d :: r' -> ~ digit_char d) -> forall b r', concat r = b :: r' -> ~ ascii_digit b.
Proof.
  intros T R b r' E. destruct T as [|c r [U _] _]; [discriminate|]. specialize (R c r eq_refl). intros D. apply R.
  destruct U; cbn in E; injection E as -> _; unfold ascii_digit in D; try lia. now exists b.
Qed.
Lemma digit_split t : exists ds r, t = ds ++ r /\ Forall digit_char ds /\ (forall d r', r = d :: r' -> ~ digit_char d).
Proof.
  induction t as [|c t (ds & r & -> & H & R)].
  - exists [], []. repeat split; auto. discriminate.
  - assert (D : digit_char c \/ ~ digit_char c).
    { destruct c as [|b [|]]; try (right; intros (x & E & _); discriminate).
      destruct (N.leb_spec 48 b); [destruct (N.leb_spec b 57)|].
      - left. exists b. unfold ascii_digit. auto.
      - right. intros (x & [= <-] & D). unfold ascii_digit in D. lia.
      - right. intros (x & [= <-] & D). unfold ascii_digit in D. lia. }
    destruct D as [D|D].
    + exists (c :: ds), r. repeat split; auto.
    + exists [], (c :: ds ++ r). repeat split; auto. intros d r' [= <- _]. exact D.
Qed.

Definition in_int64 (z : Z) : bool := ((-9223372036854775808 <=? z) && (z <=? 9223372036854775807))%Z.
Lemma in_int64_iff z : in_int64 z = true <-> int64 z.
Proof. unfold in_int64, int64. rewrite andb_true_iff, !Z.leb_le. reflexivity. Qed.

Lemma skip_cspace_id b r : ~ (b = 32 \/ 9 <= b <= 13)%N -> skip_cspace (b :: r) = b :: r.
Proof.
  intros H. cbn [skip_cspace]. unfold c_isspace. destruct (N.eqb_spec b 32), (N.leb_spec 9 b), (N.leb_spec b 13); cbn; try reflexivity; lia.
Qed.

Lemma stoll_pos ds r : ds <> [] -> Forall ascii_digit ds -> (forall b r', r = b :: r' -> ~ ascii_digit b) ->
  stoll (ds ++ r) = if in_int64 (digits_value ds) then Converted (digits_value ds) else ConvRange.
Proof.
  intros N D R. destruct ds as [|d ds]; [congruence|]. cbn [app]. unfold stoll. assert (Hd := Forall_inv D). unfold ascii_digit in Hd.
  rewrite skip_cspace_id by lia.
  replace (match d with 45%N => (true, ds ++ r) | 43%N => (false, ds ++ r) | _ => (false, d :: ds ++ r) end) with (false, d :: ds ++ r).
  2:{ destruct d as [|q]; [lia|]. do 6 (destruct q as [q|q|]; try lia; try reflexivity). }
  destruct (N.leb_spec 48 d); [|lia]. destruct (N.leb_spec d 57); [|lia]. cbn [andb].
  change (d :: ds ++ r) with ((d :: ds) ++ r). rewrite dec_run_value by assumption.
  change (Z.of_N 0) with 0%Z. rewrite Z.mul_0_l, Z.add_0_l. reflexivity.
Qed.
Lemma stoll_neg ds r : ds <> [] -> Forall ascii_digit ds -> (forall b r', r = b :: r' -> ~ ascii_digit b) ->
  stoll (45%N :: ds ++ r) = if in_int64 (- digits_value ds) then Converted (- digits_value ds)%Z else ConvRange.
Proof.
  intros N D R. destruct ds as [|d ds]; [congruence|]. cbn [app]. unfold stoll. assert (Hd := Forall_inv D). unfold ascii_digit in Hd.
  rewrite skip_cspace_id by lia.
  destruct (N.leb_spec 48 d); [|lia]. destruct (N.leb_spec d 57); [|lia]. cbn [andb].
  change (d :: ds ++ r) with ((d :: ds) ++ r). rewrite dec_run_value by assumption.
  change (Z.of_N 0) with 0%Z. rewrite Z.mul_0_l, Z.add_0_l. reflexivity.
Qed.

Lemma stoll_integer t z : text t -> lib_integer t z -> stoll (concat t) = if in_int64 z then Converted z else ConvRange.
Proof.
  intros T H. destruct H as [ds r N D R|ds r N D R].
  - rewrite concat_app. apply Forall_app in T as [_ Tr]. destruct (digit_chars ds D) as [D' L]. apply stoll_pos.
    + destruct ds; [congruence|]. intros E. rewrite E in L. discriminate.
    + exact D'.
    + now apply nondigit_head.
  - cbn [concat app]. rewrite concat_app. inversion T as [|? ? _ T']; subst. apply Forall_app in T' as [_ Tr].
    destruct (digit_chars ds D) as [D' L]. apply stoll_neg.
    + destruct ds; [congruence|]. intros E. rewrite E in L. discriminate.
    + exact D'.
    + now apply nondigit_head.
Qed.
Lemma stoll_invalid t c : text (c :: t) -> lib_num_start c -> c <> ch 0x2B%N -> (forall z, ~ lib_integer (c :: t) z) ->
  stoll (concat (c :: t)) = ConvInvalid.
Proof.
  intros T S NP H.
  assert (K : forall b r, (48 <= b <= 57)%N -> c ++ concat t = b :: r -> False).
  { intros b r B E. destruct (digit_split (c :: t)) as (ds & r' & E' & D & R).
    destruct ds as [|d ds].
    - cbn in E'. eapply (nondigit_head (c :: t) T); [rewrite E'; exact R|exact E|exact B].
    - rewrite E' in H. eapply H. apply li_pos; auto. discriminate. }
  inversion T as [|? ? Tc Tt]; subst. cbn [concat].
  destruct S as [(v & V)|[->| ->]]; [|..|congruence].
  - (* a digit that is not ASCII *)
    destruct Tc as [U Z]. destruct U as [b B|b c1 B C1|b c1 c2 B C1 C2|b c1 c2 c3 B C1 C2 C3].
    + cbn in V. cbn [app] in K |- *. destruct V as (V & z0 & I & E).
      assert (48 <= b <= 57)%N. { cbn [In digit_zeros] in I. repeat (destruct I as [I|I]; [lia|]). contradiction. }
      exfalso. eapply K; [eassumption|reflexivity].
    + cbn [app]. unfold stoll. rewrite skip_cspace_id by lia.
      replace (match b with 45%N => (true, c1 :: concat t) | 43%N => (false, c1 :: concat t) | _ => (false, b :: c1 :: concat t) end)
        with (false, b :: c1 :: concat t).
      2:{ destruct b as [|q]; [lia|]. do 6 (destruct q as [q|q|]; try lia; try reflexivity). }
      destruct (N.leb_spec b 57); [lia|]. now rewrite andb_false_r.
    + cbn [app]. unfold stoll. rewrite skip_cspace_id by lia.
      replace (match b with 45%N => (true, c1 :: c2 :: concat t) | 43%N => (false, c1 :: c2 :: concat t) | _ => (false, b :: c1 :: c2 :: concat t) end)
        with (false, b :: c1 :: c2 :: concat t).
      2:{ destruct b as [|q]; [lia|]. do 6 (destruct q as [q|q|]; try lia; try reflexivity). }
      destruct (N.leb_spec b 57); [lia|]. now rewrite andb_false_r.
    + cbn [app]. unfold stoll. rewrite skip_cspace_id by lia.
      replace (match b with 45%N => (true, c1 :: c2 :: c3 :: concat t) | 43%N => (false, c1 :: c2 :: c3 :: concat t) | _ => (false, b :: c1 :: c2 :: c3 :: concat t) end)
        with (false, b :: c1 :: c2 :: c3 :: concat t).
      2:{ destruct b as [|q]; [lia|]. do 6 (destruct q as [q|q|]; try lia; try reflexivity). }
      destruct (N.leb_spec b 57); [lia|]. now rewrite andb_false_r.
  - cbn [app]. unfold stoll. rewrite skip_cspace_id by lia. destruct (concat t) as [|b r] eqn:E; [reflexivity|].
    destruct (N.leb_spec 48 b); [|reflexivity]. destruct (N.leb_spec b 57); [|reflexivity]. exfalso.
    destruct (digit_split t) as (ds & r' & E' & D & R). destruct ds as [|d ds].
    + cbn in E'. eapply (nondigit_head t Tt); [rewrite E'; exact R|exact E|]. unfold ascii_digit. lia.
    + rewrite E' in H. eapply H. apply li_neg; auto. discriminate.
Qed.

Lemma to_int64_id z : int64 z -> to_int64 z = z.
Proof. unfold int64, to_int64. intros H. rewrite Z.mod_small by lia. lia. Qed.
Lemma stoll_in_range b z : stoll b = Converted z -> to_int64 z = z.
Proof.
  intros H. apply to_int64_id, in_int64_iff. unfold stoll in H.
  match type of H with context [let (_, _) := ?m in _] => destruct m as [neg r] end.
  destruct r as [|x r]; [discriminate|]. destruct (_ && _); [|discriminate]. cbv zeta in H.
  match type of H with context [if ?c then Converted ?y else _] => destruct c eqn:E; [injection H as <-; exact E|discriminate] end.
Qed.

Lemma find_char (t : Str) (x : Chr) : exists r, s_find t [x] 0 = Ok r /\ (r = None <-> ~ In x t).
Proof.
  destruct (find_spec t [x] 0) as (r & E & H); [discriminate|lia|]. exists r. split; [exact E|]. destruct r as [i|].
  - destruct H as (_ & (a & b & -> & _) & _). split; [discriminate|]. intros N. exfalso. apply N, in_or_app. right. now left.
  - split; [|auto]. intros _ I. apply in_split in I as (a & b & ->). eapply (H (length a)); [lia|]. now exists a, b.
Qed.

Lemma occurs_skipn {A} (w l : list A) p : occurs_at w l p <-> (p <= length l)%nat /\ firstn (length w) (skipn p l) = w.
Proof.
  split.
  - intros (a & b & -> & <-). rewrite app_length, skipn_app_l, firstn_app_l. split; [lia|reflexivity].
  - intros [L E]. exists (firstn p l), (skipn (length w) (skipn p l)). rewrite firstn_length. split; [|lia].
    rewrite <- (firstn_skipn p l) at 1. f_equal. rewrite <- (firstn_skipn (length w) (skipn p l)) at 1. now rewrite E.
Qed.

Lemma hd_digit_not_space c v : decimal_digit c v -> ~ white_space c.
Proof.
  intros (V & z & I & ->). unfold white_space. unfold digit_zeros in I. cbn [In] in I.
  repeat (destruct I as [<-|I]; [lia|]). contradiction.
Qed.
Lemma num_start_not_ws c : lib_num_start c -> ~ lib_ws c.
Proof.
  intros [(v & V)|[->| ->]]; unfold lib_ws; [eapply hd_digit_not_space; eauto|..]; rewrite ascii_value; unfold white_space; lia.
Qed.
Lemma num_char_not_ws c : lib_num_char c -> ~ lib_ws c.
Proof.
  intros [(v & V)|H]; unfold lib_ws; [eapply hd_digit_not_space; eauto|].
  cbn [In] in H. repeat (destruct H as [<-|H]; [rewrite ascii_value; unfold white_space; lia|]). contradiction.
Qed.
Lemma digit_ascii b v : decimal_digit b v -> (b < 128)%N -> ascii_digit b.
Proof.
  intros (V & z & I & ->) L. unfold ascii_digit. unfold digit_zeros in I. cbn [In] in I.
  repeat (destruct I as [<-|I]; [lia|]). contradiction.
Qed.
(** An ASCII character is not part of a number when it is not one of these. *)
Lemma ascii_not_num b : (b < 128)%N -> ~ ascii_digit b -> ~ In b [0x2E; 0x65; 0x45; 0x2D; 0x2B]%N -> ~ lib_num_char (ch b).
Proof.
  intros L D I [(v & V)|H].
  - rewrite ascii_value in V. apply digit_ascii in V; auto.
  - apply I. cbn [In] in *. repeat (destruct H as [H|H]; [injection H as ->; auto|]); [|contradiction]. tauto.
Qed.
Lemma ascii_not_ws b : (b < 128)%N -> ~ (9 <= b <= 13)%N -> b <> 32%N -> ~ lib_ws (ch b).
Proof. intros L H N. unfold lib_ws. rewrite ascii_value. unfold white_space. lia. Qed.

(** ** std::stoul *)
Lemma stoul16_scan b : stoul16 b = match scan b with
  | (_, None) => ConvInvalid
  | (neg, Some m) => if N.ltb size_max m then ConvRange else Converted (if neg then wrap64 (- Z.of_N m) else m)
  end.
Proof.
  unfold stoul16, scan. cbv zeta. rewrite split_sign_eq. destruct (split_sign (skip_cspace b)) as [g t]. destruct (hex_magnitude t); reflexivity.
Qed.
Lemma hex_of_stoul h n : stoul16 (concat h) = Converted n <-> hex_of h n.
Proof.
  rewrite stoul16_scan. unfold hex_of. destruct (scan (concat h)) as [g [m|]] eqn:E.
  - apply scan_spec in E. destruct (N.ltb_spec size_max m) as [R|R]; unfold size_max in R.
    + split; [discriminate|]. intros (g' & m' & H & B & _). destruct (c_hex_unique _ _ _ _ _ E H) as [<- <-]. lia.
    + split.
      * intros [= <-]. exists g, m. split; [exact E|]. split; [lia|]. destruct g; cbn [signed].
        -- unfold wrap64. pose proof (Z.mod_pos_bound (- Z.of_N m) 18446744073709551616 ltac:(lia)). split; [lia|].
           destruct (N.eq_dec m 0) as [->|N]; [left; reflexivity|right].
           replace (- Z.of_N m)%Z with ((18446744073709551616 - Z.of_N m) + (-1) * 18446744073709551616)%Z at 1 by lia.
           rewrite Z.mod_add, Z.mod_small by lia. lia.
        -- split; [lia|now left].
      * intros (g' & m' & H & _ & B & D). destruct (c_hex_unique _ _ _ _ _ E H) as [<- <-]. f_equal. destruct g; cbn [signed] in D; [|lia].
        unfold wrap64. destruct D as [D|D].
        -- assert (m = 0%N) as -> by lia. cbn. lia.
        -- replace (- Z.of_N m)%Z with (Z.of_N n + (-1) * 18446744073709551616)%Z by lia. rewrite Z.mod_add, Z.mod_small by lia. lia.
  - split; [discriminate|]. intros (g' & m' & H & _). apply scan_spec in H. congruence.
Qed.

Section Text.
Context {F : Type}.
Variable f_zero : F.
Variable stod : list N -> conversion F.
Variable s : Str.
Hypothesis T : text s.
Notation json := (json F).

(** What a number with plus sign or exponent denotes. *)
Definition real_of (t : Str) (x : F) : Prop := stod (concat t) = Converted x.
Notation hex := hex_of.
Notation real := real_of.
Notation simple := (lib_simple (concat s) hex real).
Notation value_text := (value_text lib_ws lib_key simple).
Notation members_text := (members_text lib_ws lib_key simple).
Notation elements_text := (elements_text lib_ws lib_key simple).

Lemma char_text i c : nth_error s i = Some c -> text_char c.
Proof. intros H. eapply Forall_forall; [exact T|]. eapply nth_error_In; eauto. Qed.

(** ** Numbers *)
Lemma number_eq p q c t err : seg s p q (c :: t) -> Forall lib_num_char (c :: t) ->
  (forall x, nth_error s q = Some x -> ~ lib_num_char x) ->
  (has_exponent (c :: t) -> parse_number stod s p err =
     Ok (match stod (concat (c :: t)) with
         | Converted f => (JFloat f, q, err) | ConvRange => (JNull, p, OutOfRangeError) | ConvInvalid => (JNull, p, InvalidNumber) end)) /\
  (~ has_exponent (c :: t) -> parse_number stod s p err =
     Ok (match stoll (concat (c :: t)) with
         | Converted z => (JInt z, q, err) | ConvRange => (JNull, p, OutOfRangeError) | ConvInvalid => (JNull, p, InvalidNumber) end)).
Proof.
  intros G N R. pose proof (seg_text _ _ _ _ T G) as Tt. pose proof (seg_le _ _ _ _ G) as [L Q].
  destruct (number_end_ok (skipn p s) (text_skipn p s T) p) as (t' & r & E & K & W & R').
  assert (t' = c :: t) as ->.
  { rewrite (seg_skipn _ _ _ _ G) in E. clear - E N W R R'.
    revert N t' W E. generalize (c :: t) as u. induction u as [|x u IH]; intros N t' W E.
    - destruct t' as [|y t']; [reflexivity|]. cbn in E. apply skipn_nth in E. exfalso. eapply R; [exact E|]. now inversion W.
    - destruct t' as [|y t']; cbn in E.
      + exfalso. eapply R'; [symmetry; exact E|]. now inversion N.
      + injection E as -> E. f_equal. apply IH; [now inversion N|now inversion W|exact E]. }
  unfold parse_number. rewrite K. cbn [bind]. rewrite <- Q.
  rewrite (seg_substring _ _ _ _ _ G) by reflexivity. cbn [bind].
  destruct (find_char (c :: t) [0x2B%N]) as (r1 & -> & F1). destruct (find_char (c :: t) [0x65%N]) as (r2 & -> & F2).
  destruct (find_char (c :: t) [0x45%N]) as (r3 & -> & F3). cbn [bind]. rewrite s_str_text by assumption. unfold has_exponent.
  split; intros H.
  - assert (~ (r1 = None /\ r2 = None /\ r3 = None)) by (rewrite F1, F2, F3; tauto).
    destruct r1, r2, r3; try (destruct (stod (concat (c :: t))); reflexivity). exfalso. tauto.
  - assert (r1 = None) as -> by (apply F1; tauto). assert (r2 = None) as -> by (apply F2; tauto).
    assert (r3 = None) as -> by (apply F3; tauto). destruct (stoll (concat (c :: t))) eqn:E64; try reflexivity.
    unfold j_of_int. now rewrite (stoll_in_range _ _ E64).
Qed.

Lemma has_exponent_dec t : has_exponent t \/ ~ has_exponent t.
Proof.
  unfold has_exponent. assert (D : forall x : Chr, In x t \/ ~ In x t).
  { intros x. destruct (in_dec (list_eq_dec N.eq_dec) x t); auto. }
  destruct (D [0x2B%N]), (D [0x65%N]), (D [0x45%N]); tauto.
Qed.

Lemma number_sound p c err v q : nth_error s p = Some c -> lib_num_start c ->
  parse_number stod s p err = Ok (v, q, NoError) -> err = NoError /\ exists t, seg s p q (c :: t) /\ simple p (c :: t) v.
Proof.
  intros Hc NS H. pose proof (char_text _ _ Hc) as Tc.
  assert (exists t q', seg s p q' (c :: t) /\ Forall lib_num_char (c :: t) /\ (forall x, nth_error s q' = Some x -> ~ lib_num_char x))
    as (t & q' & G & W & R).
  { destruct (number_end_ok (skipn p s) (text_skipn p s T) p) as (t' & r & E & K & W & R').
    rewrite (nth_skipn _ _ _ Hc) in E. destruct t' as [|x t].
    - exfalso. eapply R'; [symmetry; exact E|]. destruct NS as [NS|[->| ->]]; [now left|..]; right; cbn; tauto.
    - change (c :: skipn (S p) s = (x :: t) ++ r) in E. assert (x = c) as -> by (cbn [app] in E; congruence).
      assert (E1 : skipn (S p) s = t ++ r) by (cbn [app] in E; congruence). clear E. rename E1 into E.
      exists t, (S p + length t)%nat.
      assert (G : seg s p (S p + length t) (c :: t)).
      { apply seg_cons; [exact Hc|]. exists (firstn (S p) s), r. rewrite <- E, firstn_skipn, firstn_length.
        assert (p < length s)%nat by (apply nth_error_Some; congruence). repeat split; lia. }
      split; [exact G|]. split; [exact W|]. intros x Hx. apply nth_skipn in Hx. pose proof (seg_skipn _ _ _ _ G) as E'.
      rewrite (nth_skipn _ _ _ Hc), E in E'. apply (f_equal (@tl _)) in E'. cbn [app tl] in E'. apply app_inv_head in E'. eapply R'. rewrite E'. exact Hx. }
  destruct (number_eq p q' c t err G W R) as [HE HN]. pose proof (seg_text _ _ _ _ T G) as Tt.
  destruct (has_exponent_dec (c :: t)) as [X|X].
  - rewrite HE in H by exact X. destruct (stod (concat (c :: t))) as [f| |] eqn:E; [|discriminate|discriminate].
    injection H as <- <- ->. split; [reflexivity|]. exists t. split; [exact G|]. now apply lp_real.
  - rewrite HN in H by exact X. destruct (stoll (concat (c :: t))) as [z| |] eqn:E; [|discriminate|discriminate].
    injection H as <- <- ->. split; [reflexivity|]. exists t. split; [exact G|].
    assert (I : exists z', lib_integer (c :: t) z').
    { destruct (digit_split (c :: t)) as (ds & r & Es & D & Rr). destruct ds as [|d ds].
      - destruct NS as [NS|[->| ->]].
        + rewrite stoll_invalid in E; try assumption; [discriminate|now left|intros ->; apply X; left; now left|].
          intros z' I. cbn in Es. inversion I as [ds' r' N' D' R'' E'|ds' r' N' D' R'' E'].
          * destruct ds' as [|d' ds']; [congruence|]. eapply Rr; [symmetry; exact Es|].
            cbn in E'. injection E' as <- _. now inversion D'.
          * subst c. destruct NS as (v & V). apply digit_ascii in V; [|cbn; lia]. unfold ascii_digit in V. cbn in V. lia.
        + destruct (digit_split t) as (ds & r' & -> & D' & R''). destruct ds as [|d ds].
          * rewrite stoll_invalid in E; try assumption; [discriminate|right; now left|discriminate|].
            intros z' I. inversion I as [ds' r0 N' D0 R0 E'|ds' r0 N' D0 R0 E'].
            -- destruct ds' as [|d' ds']; [congruence|]. cbn in E'. injection E' as -> _. apply Forall_inv in D0 as (b & Eb & B). injection Eb as <-.
               unfold ascii_digit in B. lia.
            -- destruct ds' as [|d' ds']; [congruence|]. cbn in E'. subst r'. eapply R''; [reflexivity|]. now inversion D0.
          * eexists. apply li_neg; auto. discriminate.
        + exfalso. apply X. left. now left.
      - rewrite Es. eexists. apply li_pos; auto. discriminate. }
    destruct I as (z' & I). rewrite (stoll_integer _ _ Tt I) in E. destruct (in_int64 z') eqn:E64; [|discriminate].
    injection E as <-. apply in_int64_iff in E64. now apply lp_int.
Qed.

(** ** Literals *)
Lemma bytes_len : (length s <= length (concat s))%nat.
Proof. now apply text_length. Qed.

Lemma compare_spec p w : (p <= length s)%nat -> exists b, compare_at (s_str s) p (length w) w = Ok b /\ (b = true <-> occurs_at w (concat s) p).
Proof.
  intros L. pose proof bytes_len. rewrite s_str_text by exact T. unfold compare_at. destruct (Nat.ltb_spec (length (concat s)) p); [lia|].
  eexists. split; [reflexivity|]. rewrite bytes_eqb_iff, occurs_skipn. intuition lia.
Qed.

Lemma seg_len p n : (p + n <= length s)%nat -> exists t, seg s p (p + n) t /\ length t = n.
Proof.
  intros L. exists (firstn (p + n - p) (skipn p s)). split; [apply seg_of; lia|]. rewrite firstn_length, skipn_length. lia.
Qed.
Lemma seg_len_head p n c : (p + S n <= length s)%nat -> nth_error s p = Some c -> exists t, seg s p (p + S n) (c :: t) /\ length t = n.
Proof.
  intros L H. destruct (seg_len p (S n) L) as ([|x t] & G & E); [discriminate|]. exists t. pose proof (seg_head _ _ _ _ _ G) as [Hx _].
  assert (x = c) as -> by congruence. split; [exact G|]. now injection E.
Qed.

Lemma boolean_sound p c err v q : nth_error s p = Some c -> c = ch 0x74%N \/ c = ch 0x66%N -> (q <= length s)%nat ->
  parse_boolean s p err = Ok (v, q, NoError) -> err = NoError /\ exists t, seg s p q t /\ simple p t v.
Proof.
  intros Hc C L H. assert (p < length s)%nat by (apply nth_error_Some; congruence). unfold parse_boolean in H.
  destruct (compare_spec p true_bytes) as (b & E & B); [lia|]. change (length true_bytes) with 4%nat in E. rewrite E in H. cbn [bind] in H.
  destruct b.
  - injection H as <- <- ->. split; [reflexivity|]. destruct (seg_len_head p 3 c) as (t & G & Lt); [lia|exact Hc|].
    exists (c :: t). split; [exact G|]. apply lp_true; [cbn; lia|exact C|now apply B].
  - destruct (compare_spec p false_bytes) as (b & E' & B'); [lia|]. change (length false_bytes) with 5%nat in E'. rewrite E' in H. cbn [bind] in H.
    destruct b; [|discriminate]. injection H as <- <- ->. split; [reflexivity|].
    destruct (seg_len_head p 4 c) as (t & G & Lt); [lia|exact Hc|].
    exists (c :: t). split; [exact G|]. apply lp_false; [cbn; lia|exact C|now apply B'].
Qed.
Lemma null_sound p err v q : nth_error s p = Some (ch 0x6E%N) -> (q <= length s)%nat ->
  parse_null f_zero s p err = Ok (v, q, NoError) -> err = NoError /\ exists t, seg s p q t /\ simple p t v.
Proof.
  intros Hc L H. assert (p < length s)%nat by (apply nth_error_Some; congruence). unfold parse_null in H.
  destruct (compare_spec p null_bytes) as (b & E & B); [lia|]. change (length null_bytes) with 4%nat in E. rewrite E in H. cbn [bind] in H.
  destruct b; [|discriminate]. injection H as <- <- ->. split; [reflexivity|].
  destruct (seg_len_head p 3 (ch 0x6E%N)) as (t & G & Lt); [lia|exact Hc|].
  eexists. split; [exact G|]. apply lp_null; [exact Lt|now apply B].
Qed.

Lemma true_complete p err : (p <= length s)%nat -> occurs_at true_bytes (concat s) p -> parse_boolean (F := F) s p err = Ok (JBool true, (p + 4)%nat, err).
Proof.
  intros L O. unfold parse_boolean. destruct (compare_spec p true_bytes L) as (b & E & B). change (length true_bytes) with 4%nat in E.
  rewrite E. apply B in O as ->. reflexivity.
Qed.
Lemma false_complete p err : (p <= length s)%nat -> occurs_at false_bytes (concat s) p -> parse_boolean (F := F) s p err = Ok (JBool false, (p + 5)%nat, err).
Proof.
  intros L O. unfold parse_boolean. destruct (compare_spec p true_bytes L) as (b & E & B). change (length true_bytes) with 4%nat in E.
  destruct (compare_spec p false_bytes L) as (b' & E' & B'). change (length false_bytes) with 5%nat in E'.
  rewrite E, E'. cbn [bind]. destruct b.
  - exfalso. destruct B as [B _]. specialize (B eq_refl). apply occurs_skipn in B as [_ B]. apply occurs_skipn in O as [_ O].
    destruct (skipn p (concat s)) as [|x r]; [discriminate|]. cbn in B, O. congruence.
  - apply B' in O as ->. reflexivity.
Qed.
Lemma null_complete p err : (p <= length s)%nat -> occurs_at null_bytes (concat s) p -> parse_null f_zero s p err = Ok (JNull, (p + 4)%nat, err).
Proof.
  intros L O. unfold parse_null. destruct (compare_spec p null_bytes L) as (b & E & B). change (length null_bytes) with 4%nat in E.
  rewrite E. apply B in O as ->. reflexivity.
Qed.

(** ** Strings *)
Lemma char_bytes c : utf8_unit c -> Forall is_byte c.
Proof. intros U. destruct U; unfold continuation in *; repeat constructor; unfold is_byte; lia. Qed.

Lemma of_std_iff b : Forall is_byte b -> forall v, j_of_std (F := F) b = Ok v <->
  exists u, v = JStr u /\ text u /\ (b = concat u \/ exists r, b = concat u ++ 0%N :: r).
Proof.
  intros B v. unfold j_of_std, string_of_std. split.
  - intros H. apply bind_ok in H as (u & H & [= <-]). apply string_of_cstr_ok in H as (Tu & r & E).
    2:{ apply Forall_app. split; [exact B|]. repeat constructor. }
    exists u. split; [reflexivity|]. split; [exact Tu|]. destruct r as [|x r] using rev_ind.
    + left. apply app_inj_tail in E as [E _]. exact E.
    + right. exists r. change (0%N :: r ++ [x]) with ((0%N :: r) ++ [x]) in E. rewrite app_assoc in E. apply app_inj_tail in E as [E _]. exact E.
  - intros (u & -> & Tu & [->|(r & ->)]).
    + now rewrite string_of_cstr_text.
    + rewrite <- app_assoc. cbn [app]. now rewrite string_of_cstr_text.
Qed.

Lemma json_escape_spec c b : json_escape c = Some b <-> exists e, c = ch e /\ json_esc e b.
Proof.
  unfold json_escape. split.
  - repeat match goal with |- context [if is_ascii c ?x then _ else _] =>
      let E := fresh in destruct (is_ascii c x) eqn:E;
        [apply is_ascii_iff in E as ->; intros [= <-]; eexists; split; [reflexivity|constructor]|clear E] end.
    discriminate.
  - intros (e & -> & J). destruct J; reflexivity.
Qed.
Lemma escape_not_u e b : json_esc e b -> e <> 0x75%N.
Proof. intros J. destruct J; discriminate. Qed.
Lemma escape_byte e b : json_esc e b -> is_byte b.
Proof. intros J. destruct J; reflexivity. Qed.

Lemma cstr_char i c : nth_error s i = Some c -> cstr c = c.
Proof. intros H. apply cstr_id, text_char_no_nul, (char_text i), H. Qed.

Lemma string_sound fuel : forall pos err out v q, Forall is_byte out -> string_loop (F := F) s fuel pos err out = Ok (v, q, NoError) ->
  err = NoError /\ exists t b u, seg s pos q (t ++ [ch 0x22%N]) /\ lib_string hex t b /\ v = JStr u /\ text u /\
    (out ++ b = concat u \/ exists r, out ++ b = concat u ++ 0%N :: r).
Proof.
  induction fuel as [|f IH]; intros pos err out v q B H; [discriminate|]. cbn [string_loop] in H.
  destruct (Nat.ltb_spec pos (length s)) as [L|L].
  2:{ apply bind_ok in H as (c & Hc & _). apply s_index_ok in Hc as [_ Hc]. lia. }
  apply bind_ok in H as (c & Hc & H). apply s_index_ok in Hc as [Hc _].
  destruct (is_ascii c 0x22) eqn:EQ.
  { apply is_ascii_iff in EQ as ->. apply bind_ok in H as (w & Hw & [= <- <- <-]). split; [reflexivity|].
    apply of_std_iff in Hw as (u & -> & Tu & D); [|exact B]. exists [], [], u. rewrite app_nil_r. repeat split; auto.
    - now apply seg_char.
    - constructor. }
  destruct (is_ascii c 0x5C) eqn:EB.
  2:{ rewrite (cstr_char _ _ Hc) in H. apply IH in H as (-> & t & b & u & G & LS & -> & Tu & D).
      2:{ apply Forall_app. split; [exact B|]. apply char_bytes. eapply char_text; eauto. }
      split; [reflexivity|]. exists (c :: t), (c ++ b), u. rewrite app_assoc. repeat split; auto.
      - cbn [app]. apply seg_cons; assumption.
      - constructor; [intros ->; discriminate|intros ->; discriminate|exact LS]. }
  apply is_ascii_iff in EB as ->. destruct (Nat.leb_spec (length s) (S pos)); [discriminate|].
  apply bind_ok in H as (c' & Hc' & H). apply s_index_ok in Hc' as [Hc' _].
  destruct (json_escape c') as [x|] eqn:EE.
  { apply json_escape_spec in EE as (e & -> & J). apply IH in H as (-> & t & b & u & G & LS & -> & Tu & D).
    2:{ apply Forall_app. split; [exact B|]. repeat constructor. eapply escape_byte; eauto. }
    split; [reflexivity|]. pose proof (seg_le _ _ _ _ G) as [Lg _].
    destruct (nth_error s (S (S pos))) as [y|] eqn:Ey.
    2:{ apply nth_error_None in Ey. destruct G as (a' & b' & Es & La & Lq). rewrite Es in Ey. rewrite !app_length in Ey. cbn in Ey. lia. }
    exists (ch 0x5C%N :: ch e :: y :: t), (x :: b), u. repeat split; auto.
    - cbn [app]. replace (S pos + 2)%nat with (S (S (S pos))) in G by lia. repeat (apply seg_cons; [assumption|]). exact G.
    - now constructor.
    - rewrite <- app_assoc in D. exact D. }
  destruct (is_ascii c' 0x75) eqn:EU; [|discriminate]. apply is_ascii_iff in EU as ->.
  destruct (Nat.leb_spec (length s) (S pos + 4)); [discriminate|]. apply bind_ok in H as (h & Hh & H).
  destruct (seg_len (S pos + 1) 4) as (h' & G & Lh); [lia|].
  rewrite (seg_substring _ _ _ _ _ G) in Hh by lia. assert (h' = h) as -> by congruence. clear Hh.
  rewrite s_str_text in H by (eapply seg_text; eauto).
  destruct (stoul16 (concat h)) as [n| |] eqn:En; [|discriminate|discriminate].
  apply IH in H as (-> & t & b & u & Gt & LS & -> & Tu & D).
  2:{ apply Forall_app. split; [exact B|]. repeat constructor. apply N.mod_lt. discriminate. }
  split; [reflexivity|].
  destruct (nth_error s (S pos + 1 + 4)) as [y|] eqn:Ey.
  2:{ apply nth_error_None in Ey. destruct Gt as (a' & b' & Es & La & Lq). rewrite Es in Ey. rewrite !app_length in Ey. cbn in Ey. lia. }
  destruct h as [|h1 [|h2 [|h3 [|h4 [|]]]]]; cbn in Lh; try discriminate.
  exists (ch 0x5C%N :: ch 0x75%N :: [h1; h2; h3; h4] ++ y :: t), (N.modulo n 256 :: b), u. repeat split; auto.
  - cbn [app]. apply seg_cons; [assumption|]. apply seg_cons; [assumption|].
    change (seg s (S (S pos)) q ([h1; h2; h3; h4] ++ (y :: t ++ [ch 0x22%N]))). eapply seg_app.
    + replace (S pos + 1)%nat with (S (S pos)) in G by lia. exact G.
    + apply seg_cons; [rewrite <- Ey; f_equal; lia|]. replace (S (S (S pos) + 4)) with (S pos + 6)%nat by lia. exact Gt.
  - cbn [app]. apply ls_unicode; [now apply hex_of_stoul|exact LS].
  - rewrite <- app_assoc in D. exact D.
Qed.

Lemma string_complete t b : lib_string hex t b -> forall fuel pos q err out, seg s pos q (t ++ [ch 0x22%N]) ->
  (length s < fuel + pos)%nat -> string_loop (F := F) s fuel pos err out = (v <- j_of_std (out ++ b) ;; Ok (v, q, err)).
Proof.
  induction 1 as [|c t b N1 N2 LS IH|e x c t b J LS IH|h1 h2 h3 h4 n c t b Hx LS IH]; intros fuel pos q err out G L.
  - pose proof (seg_le _ _ _ _ G) as [Lq Eq]. apply seg_head in G as [Hc _]. destruct fuel as [|f]; [cbn in *; lia|]. cbn [string_loop].
    cbn [length app] in Eq. destruct (Nat.ltb_spec pos (length s)); [|lia]. rewrite (seg_index _ _ _ Hc). cbn [bind].
    change (is_ascii [34%N] 34) with true. cbn match. rewrite app_nil_r. subst q. rewrite Nat.add_1_r. reflexivity.
  - pose proof (seg_le _ _ _ _ G) as [Lq Eq]. cbn [app length] in Eq. apply seg_head in G as [Hc G]. destruct fuel as [|f]; [lia|]. cbn [string_loop].
    destruct (Nat.ltb_spec pos (length s)); [|lia]. rewrite (seg_index _ _ _ Hc). cbn [bind].
    destruct (is_ascii c 0x22) eqn:E1; [apply is_ascii_iff in E1; contradiction|].
    destruct (is_ascii c 0x5C) eqn:E2; [apply is_ascii_iff in E2; contradiction|].
    rewrite (IH f (S pos) q err (out ++ cstr c) G) by lia. rewrite (cstr_char _ _ Hc), <- app_assoc. reflexivity.
  - pose proof (seg_le _ _ _ _ G) as [Lq Eq]. cbn [app length] in Eq. apply seg_head in G as [Hc G]. apply seg_head in G as [Hc' G]. apply seg_head in G as [_ G].
    destruct fuel as [|f]; [lia|]. cbn [string_loop].
    destruct (Nat.ltb_spec pos (length s)); [|lia]. rewrite (seg_index _ _ _ Hc). cbn [bind].
    change (is_ascii [92%N] 34) with false. change (is_ascii [92%N] 92) with true. cbn match.
    destruct (Nat.leb_spec (length s) (S pos)); [lia|]. rewrite (seg_index _ _ _ Hc'). cbn [bind].
    rewrite (proj2 (json_escape_spec (ch e) x)) by (eexists; eauto).
    replace (S pos + 2)%nat with (S (S (S pos))) by lia.
    rewrite (IH f _ q err (out ++ [x]) G) by lia. rewrite <- app_assoc. reflexivity.
  - pose proof (seg_le _ _ _ _ G) as [Lq Eq]. cbn [app length] in Eq. apply seg_head in G as [Hc G]. apply seg_head in G as [Hc' G].
    destruct fuel as [|f]; [lia|]. cbn [string_loop].
    destruct (Nat.ltb_spec pos (length s)); [|lia]. rewrite (seg_index _ _ _ Hc). cbn [bind].
    change (is_ascii [92%N] 34) with false. change (is_ascii [92%N] 92) with true. cbn match.
    destruct (Nat.leb_spec (length s) (S pos)); [lia|]. rewrite (seg_index _ _ _ Hc'). cbn [bind].
    change (json_escape [117%N]) with (@None N). change (is_ascii [117%N] 117) with true. cbn match.
    rewrite app_length in Eq. cbn [length] in Eq.
    destruct (Nat.leb_spec (length s) (S pos + 4)); [lia|].
    change (seg s (S (S pos)) q ([h1; h2; h3; h4] ++ (c :: t) ++ [ch 0x22%N])) in G.
    apply seg_split in G as [G1 G2]. cbn [length app] in *.
    replace (S pos + 1)%nat with (S (S pos)) by lia. rewrite (seg_substring _ _ _ _ _ G1) by lia. cbn [bind].
    rewrite s_str_text by (eapply seg_text; eauto). apply hex_of_stoul in Hx. rewrite Hx.
    apply seg_head in G2 as [_ G2]. replace (S (S (S pos) + 4)) with (S pos + 6)%nat in G2 by lia.
    rewrite (IH f _ q err (out ++ [N.modulo n 256]) G2) by lia. rewrite <- app_assoc. reflexivity.
Qed.
End Text.
