(** The facts behind BigIntProps.v. *)
From Coq Require Import List NArith ZArith Bool Arith Lia ZifyBool ZifyN ZifyNat.
From Verif Require Import Outcome CharModel CharUtil StrModel StrUtil Dec BigInt SpecUtf8 SpecChar SpecStr SpecInt
  CharProofs CharUtilProofs StrProofs DecProofs BigIntProofs BigIntStates.
Import ListNotations.
Local Open Scope Z_scope.

Lemma ascii_chars_inj a b : ascii_chars a = ascii_chars b -> a = b.
Proof. intros H. rewrite <- (concat_ascii a), <- (concat_ascii b). now f_equal. Qed.

Lemma shows_wf b : bi_wf b -> shows b (bi_value b).
Proof. apply to_string_spec. Qed.

Lemma shows_fun b x y : shows b x -> shows b y -> x = y.
Proof.
  intros (t & E & C) (t' & E' & C'). assert (t = t') by (apply ascii_chars_inj; congruence). subst.
  eapply int_numeral_fun; apply canonical_is_numeral; eassumption.
Qed.

Lemma shows_value b z : bi_wf b -> shows b z -> z = bi_value b.
Proof. intros W H. eapply shows_fun; [exact H|now apply shows_wf]. Qed.

Lemma shows_iff b z : bi_wf b -> shows b z <-> z = bi_value b.
Proof. intros W. split; [now apply shows_value|]. intros ->. now apply shows_wf. Qed.

Lemma bind_Ok {A B} (m : outcome A) (k : A -> outcome B) b : bind m k = Ok b -> exists a, m = Ok a /\ k a = Ok b.
Proof. destruct m; cbn; try discriminate. eauto. Qed.

(** The result of a square root is well formed whatever the fuel. *)
Lemma sqrt_loop_fuel a fuel : forall fuel' low high r, sqrt_loop fuel a low high = Ok r -> (fuel <= fuel')%nat ->
  sqrt_loop fuel' a low high = Ok r.
Proof.
  induction fuel as [|f IH]; intros fuel' low high r H L.
  - cbn [sqrt_loop] in H. destruct fuel'; cbn [sqrt_loop];
    destruct (bi_lt low high || bi_equal low high); try discriminate; exact H.
  - destruct fuel' as [|f']; [lia|]. cbn [sqrt_loop] in *.
    destruct (bi_lt low high || bi_equal low high); [|exact H].
    apply bind_Ok in H as (s & E1 & H). rewrite E1. cbn [bind].
    apply bind_Ok in H as (mid & E2 & H). rewrite E2. cbn [bind].
    apply bind_Ok in H as (sq & E3 & H). rewrite E3. cbn [bind].
    destruct (bi_equal sq a); [exact H|]. destruct (bi_lt sq a).
    + apply bind_Ok in H as (l & E4 & H). rewrite E4. cbn [bind]. apply IH; [exact H|lia].
    + apply bind_Ok in H as (l & E4 & H). rewrite E4. cbn [bind]. apply IH; [exact H|lia].
Qed.

Lemma sqrt_any_fuel a fuel r : bi_wf a -> bi_sqrt fuel a = Ok r -> bi_canon r /\ bi_value r = Z.sqrt (bi_value a) /\ bi_neg a = false.
Proof.
  intros W H. destruct (bi_neg a) eqn:N; [unfold bi_sqrt in H; rewrite N in H; discriminate|].
  destruct (bi_sqrt_spec a (Nat.max fuel (4 * length (bi_digits a))) W N ltac:(lia)) as (r' & E & C & V).
  assert (r' = r); [|subst; auto].
  unfold bi_sqrt in *. rewrite N in *. destruct (bi_equal a bi_default || bi_equal a (mkBig [1] false)); [congruence|].
  apply sqrt_loop_fuel with (fuel' := Nat.max fuel (4 * length (bi_digits a))) in H; [congruence|lia].
Qed.

Ltac spec_ok lem H :=
  let r := fresh "r" in let E := fresh "E" in
  destruct lem as (r & E & ?); rewrite E in H; injection H as <-.

Lemma built_wf b : built b -> bi_wf b.
Proof.
  induction 1 as [|t z b N E|z b R E|a b r _ Wa _ Wb E|a b r _ Wa _ Wb E|a b r _ Wa _ Wb E|a b r _ Wa _ Wb S E|a b r _ Wa _ Wb S E
    |a _ Wa|a e r _ Wa He E|a r _ Wa E|a f r _ Wa E].
  - apply canon_wf, canon_zero.
  - destruct (of_string_numeral t z N) as (b' & E' & C & _). rewrite E' in E. injection E as <-. apply C.
  - destruct (bi_of_int_spec z) as (b' & E' & C & _). rewrite E' in E. injection E as <-. apply C.
  - destruct (bi_add_spec a b Wa Wb) as (r' & E' & C & _). rewrite E' in E. injection E as <-. apply C.
  - destruct (bi_sub_spec a b Wa Wb) as (r' & E' & C & _). rewrite E' in E. injection E as <-. apply C.
  - destruct (bi_mul_spec a b Wa Wb) as (r' & E' & C & _). rewrite E' in E. injection E as <-. apply C.
  - destruct (bi_div_spec a b Wa Wb) as (r' & E' & C & _). { intros V. apply S. apply shows_iff; auto. }
    rewrite E' in E. injection E as <-. apply C.
  - destruct (bi_mod_spec a b Wa Wb) as (r' & E' & C & _). { intros V. apply S. apply shows_iff; auto. }
    rewrite E' in E. injection E as <-. apply C.
  - now apply canon_wf, bi_abs_wf.
  - destruct (Z_lt_le_dec e 0) as [L|L].
    + unfold bi_pow in E. replace (e <? 0) with true in E by lia. discriminate.
    + destruct (bi_pow_spec a e Wa ltac:(lia)) as (r' & E' & C & _). rewrite E' in E. injection E as <-. apply C.
  - destruct (bi_mul_spec a a Wa Wa) as (r' & E' & C & _). unfold bi_sqr in E. rewrite E' in E. injection E as <-. apply C.
  - apply canon_wf. eapply sqrt_any_fuel; eauto.
Qed.

Lemma reads_back_canon b : bi_wf b -> (reads_back b <-> bi_canon b).
Proof.
  intros W. destruct (to_string_spec b W) as (t & E & C).
  destruct (of_string_numeral t _ (canonical_is_numeral _ _ C)) as (c & E2 & Cc & Vc). split.
  - intros (s & c' & E' & E2' & Q). rewrite E in E'. injection E' as <-. rewrite E2 in E2'. injection E2' as <-.
    apply bi_equal_iff in Q. now subst.
  - intros Cb. exists (ascii_chars t), c. split; [exact E|]. split; [exact E2|]. apply bi_equal_iff.
    apply canon_inj; auto.
Qed.

Lemma canon_reads_back b : bi_canon b -> reads_back b.
Proof. intros C. apply reads_back_canon; [apply C|exact C]. Qed.

(** C39 *)
Lemma from_text t z : int_numeral t z ->
  exists b, bi_of_string (ascii_chars t) = Ok b /\ shows b z /\ reads_back b.
Proof.
  intros H. destruct (of_string_numeral t z H) as (b & E & C & V). exists b. split; [exact E|].
  split; [apply shows_iff; [apply C|auto]|now apply canon_reads_back].
Qed.
Lemma from_c_string t z r : int_numeral t z ->
  exists b, bi_of_cstr (t ++ 0%N :: r) = Ok b /\ bi_of_string (ascii_chars t) = Ok b.
Proof.
  intros H. destruct (of_string_numeral t z H) as (b & E & C & V). exists b. split; [|exact E].
  unfold bi_of_cstr. rewrite string_of_std_ascii by (eapply numeral_bytes, H). exact E.
Qed.
Lemma from_int z : - 2 ^ 63 <= z < 2 ^ 64 -> exists b, bi_of_int z = Ok b /\ shows b z /\ reads_back b.
Proof.
  intros _. destruct (bi_of_int_spec z) as (b & E & C & V). exists b. split; [exact E|].
  split; [apply shows_iff; [apply C|auto]|now apply canon_reads_back].
Qed.
Lemma always_shows b : built b -> exists z, shows b z.
Proof. intros H. exists (bi_value b). apply shows_wf, built_wf, H. Qed.

Ltac values :=
  repeat match goal with
  | H : built ?a |- _ => apply built_wf in H
  end;
  repeat match goal with
  | H : shows ?a _, W : bi_wf ?a |- _ => apply (shows_value _ _ W) in H
  end.

Lemma neg_value a : bi_wf a -> if bi_neg a then bi_value a <= 0 else 0 <= bi_value a.
Proof. intros W. pose proof (wf_nonneg a W). unfold bi_value. destruct (bi_neg a); lia. Qed.
Lemma value_neg a : bi_wf a -> bi_value a < 0 -> bi_neg a = true.
Proof. intros W V. pose proof (neg_value a W). destruct (bi_neg a); [reflexivity|lia]. Qed.
Lemma value_pos a : bi_wf a -> 0 < bi_value a -> bi_neg a = false.
Proof. intros W V. pose proof (neg_value a W). destruct (bi_neg a); [lia|reflexivity]. Qed.

(** C40 *)
Lemma add_exact a b x y : built a -> built b -> shows a x -> shows b y ->
  exists r, bi_add a b = Ok r /\ (0 <= x \/ y < 0 \/ 0 <= x + y -> shows r (x + y)) /\
    (x < 0 -> 0 < y -> x + y < 0 -> shows r (- (x + y))) /\
    (x < 0 -> bi_equal b bi_default = true -> shows r (- x)).
Proof.
  intros. values. destruct (bi_add_spec a b) as (r & E & W & V & _); auto. exists r. split; [exact E|].
  rewrite !shows_iff by assumption. rewrite V. subst. pose proof (neg_value a H). pose proof (neg_value b H0).
  unfold add_result. split; [|split].
  - intros K. destruct (bi_neg a) eqn:Na, (bi_neg b) eqn:Nb; cbn [Bool.eqb]; try reflexivity;
    destruct (Z.abs (bi_value b) <? Z.abs (bi_value a)) eqn:Q; lia.
  - intros K1 K2 K3. rewrite (value_neg a), (value_pos b) by auto. cbn [Bool.eqb].
    destruct (Z.abs (bi_value b) <? Z.abs (bi_value a)) eqn:Q; lia.
  - intros K1 K2. apply bi_equal_iff in K2. subst. rewrite (value_neg a) by auto. 
    change (bi_value bi_default) with 0 in *. change (bi_neg bi_default) with false. cbn [Bool.eqb]. destruct (Z.abs 0 <? Z.abs (bi_value a)) eqn:Q; lia.
Qed.

Definition int_lit (z : Z) : bigint := match bi_of_int z with Ok b => b | _ => bi_default end.
Lemma int_lit_built z : - 2 ^ 63 <= z < 2 ^ 64 -> built (int_lit z).
Proof.
  intros H. unfold int_lit. destruct (bi_of_int_spec z) as (b & E & _). rewrite E. now apply built_int with z.
Qed.
Lemma int_lit_shows z : shows (int_lit z) z.
Proof.
  unfold int_lit. destruct (bi_of_int_spec z) as (b & E & C & V). rewrite E. apply shows_iff; [apply C|auto].
Qed.
Lemma not_shows b x y : shows b x -> x <> y -> ~ shows b y.
Proof. intros H N K. apply N. eapply shows_fun; eauto. Qed.

(** -5 + 3 shows 2 *)
Lemma add_wrong : exists a b x y r, built a /\ built b /\ shows a x /\ shows b y /\ bi_add a b = Ok r /\ ~ shows r (x + y).
Proof.
  exists (int_lit (-5)), (int_lit 3), (-5), 3, (int_lit 2).
  split; [apply int_lit_built; lia|]. split; [apply int_lit_built; lia|].
  split; [apply int_lit_shows|]. split; [apply int_lit_shows|]. split; [reflexivity|].
  apply not_shows with 2; [apply int_lit_shows|lia].
Qed.

(** C41 *)
Lemma sub_exact a b x y : built a -> built b -> shows a x -> shows b y ->
  exists r, bi_sub a b = Ok r /\ (0 <= x /\ 0 <= y \/ x = 0 /\ reads_back a \/ y = 0 /\ reads_back b \/ x = y -> shows r (x - y)) /\
    (x < 0 -> y < 0 -> shows r (y - x)) /\
    (0 < x -> y < 0 -> shows r (Z.abs (x + y))) /\
    (x < 0 -> 0 < y -> shows r (- Z.abs (x + y))).
Proof.
  intros. values. destruct (bi_sub_spec a b) as (r & E & W & V & _); auto. exists r. split; [exact E|].
  rewrite !shows_iff by assumption. rewrite V. subst. pose proof (neg_value a H). pose proof (neg_value b H0).
  unfold sub_result. split; [|split; [|split]].
  - rewrite !reads_back_canon by assumption. intros K.
    destruct K as [K|[[K C]|[[K C]|K]]].
    + destruct (bi_neg a) eqn:Na, (bi_neg b) eqn:Nb; cbn [Bool.eqb]; lia.
    + apply canon_nonneg in C; [|lia]. destruct C as [C _]. rewrite C in *.
      destruct (bi_neg b) eqn:Nb; cbn [Bool.eqb]; lia.
    + apply canon_nonneg in C; [|lia]. destruct C as [C _]. rewrite C in *.
      destruct (bi_neg a) eqn:Na; cbn [Bool.eqb]; lia.
    + destruct (bi_neg a) eqn:Na, (bi_neg b) eqn:Nb; cbn [Bool.eqb]; lia.
  - intros. rewrite (value_neg a), (value_neg b) by auto. cbn [Bool.eqb]. lia.
  - intros. rewrite (value_pos a), (value_neg b) by auto. cbn [Bool.eqb]. lia.
  - intros. rewrite (value_neg a), (value_pos b) by auto. cbn [Bool.eqb]. lia.
Qed.
Lemma sub_wrong : exists a b x y r, built a /\ built b /\ shows a x /\ shows b y /\ bi_sub a b = Ok r /\ ~ shows r (x - y).
Proof.
  exists (int_lit 5), (int_lit (-3)), 5, (-3), (int_lit 2).
  split; [apply int_lit_built; lia|]. split; [apply int_lit_built; lia|].
  split; [apply int_lit_shows|]. split; [apply int_lit_shows|]. split; [reflexivity|].
  apply not_shows with 2; [apply int_lit_shows|lia].
Qed.

(** C42, C43 *)
Lemma mul_exact a b x y : built a -> built b -> shows a x -> shows b y ->
  exists r, bi_mul a b = Ok r /\ shows r (x * y) /\ reads_back r.
Proof.
  intros. values. destruct (bi_mul_spec a b) as (r & E & C & V); auto. exists r. split; [exact E|].
  split; [apply shows_iff; [apply C|subst; auto]|now apply canon_reads_back].
Qed.
Lemma div_exact a b x y : built a -> built b -> shows a x -> shows b y -> y <> 0 ->
  exists r, bi_div a b = Ok r /\ shows r (Z.quot x y) /\ reads_back r.
Proof.
  intros. values. destruct (bi_div_spec a b) as (r & E & C & V); subst; auto. exists r. split; [exact E|].
  split; [apply shows_iff; [apply C|auto]|now apply canon_reads_back].
Qed.
Lemma div_zero a b : bi_equal b bi_default = true -> bi_div a b = Throw EInvalidArgument.
Proof. intros H. unfold bi_div. now rewrite H. Qed.

(** C44 *)
Lemma mod_exact a b x y : built a -> built b -> shows a x -> shows b y -> y <> 0 ->
  exists r, bi_mod a b = Ok r /\ shows r (Z.rem x y).
Proof.
  intros. values. destruct (bi_mod_spec a b) as (r & E & C & V & _); subst; auto. exists r. split; [exact E|].
  apply shows_iff; auto.
Qed.
Lemma div_mod_identity a b x y : built a -> built b -> shows a x -> shows b y -> y <> 0 ->
  exists q p r s, bi_div a b = Ok q /\ bi_mul q b = Ok p /\ bi_mod a b = Ok r /\ bi_add p r = Ok s /\ shows s x /\
    (reads_back a -> bi_equal a s = true).
Proof.
  intros. values. assert (Hy : bi_value b <> 0) by congruence.
  destruct (bi_div_spec a b) as (q & Eq & Cq & Vq); auto.
  destruct (bi_mul_spec q b) as (p & Ep & Cp & Vp); auto; [apply Cq|].
  destruct (bi_mod_spec a b) as (r & Er & Wr & Vr & Nr); auto.
  destruct (bi_add_spec p r) as (s & Es & Ws & Vs & Cs); auto; [apply Cp|].
  exists q, p, r, s. rewrite shows_iff by assumption.
  pose proof (Z.quot_rem' (bi_value a) (bi_value b)) as QR. rewrite Vq in Vp.
  assert (Vx : bi_value s = bi_value a).
  { rewrite Vs. unfold add_result. rewrite Nr.
    pose proof (neg_value a H) as Na. pose proof (neg_value p (proj1 Cp)) as Np.
    assert (Sp : (0 <= bi_value a -> 0 <= bi_value p) /\ (bi_value a <= 0 -> bi_value p <= 0)).
    { split; intros K.
      - assert (bi_value p = bi_value a - Z.rem (bi_value a) (bi_value b)) by lia.
        pose proof (Z.rem_le (bi_value a) (Z.abs (bi_value b)) ltac:(lia) ltac:(lia)) as L. rewrite Z.rem_abs_r in L by assumption. lia.
      - assert (bi_value p = bi_value a - Z.rem (bi_value a) (bi_value b)) by lia.
        pose proof (Z.rem_le (- bi_value a) (Z.abs (bi_value b)) ltac:(lia) ltac:(lia)) as L.
        rewrite Z.rem_abs_r, Z.rem_opp_l in L by assumption. lia. }
    pose proof (neg_value r Wr) as NVr. rewrite Nr in NVr.
    destruct (bi_neg p) eqn:Ep', (bi_neg a) eqn:Ea; cbn [Bool.eqb]; try lia;
      destruct (Z.abs (bi_value r) <? Z.abs (bi_value p)) eqn:Q; lia. }
  repeat split; auto; [lia|].
  rewrite reads_back_canon by assumption. intros Ca. apply bi_equal_iff. apply canon_inj; auto.
  destruct Cs as [Cs|(Z0 & Np & Nrr)]; [exact Cs|]. exfalso. rewrite Nr in Nrr. rewrite Vx in Z0.
  destruct (canon_nonneg a Ca ltac:(lia)). congruence.
Qed.

(** C45 *)
Lemma pow_exact a x e : built a -> shows a x -> 0 <= e <= 2147483647 ->
  exists r, bi_pow a e = Ok r /\ shows r (x ^ e) /\ reads_back r.
Proof.
  intros. values. destruct (bi_pow_spec a e) as (r & E & C & V); auto. exists r. split; [exact E|].
  split; [apply shows_iff; [apply C|subst; auto]|now apply canon_reads_back].
Qed.
Lemma pow_negative a e : e < 0 -> bi_pow a e = Throw EInvalidArgument.
Proof. intros H. unfold bi_pow. now replace (e <? 0) with true by lia. Qed.
Lemma sqr_exact a x : built a -> shows a x -> exists r, bi_sqr a = Ok r /\ shows r (x * x).
Proof. intros H S. destruct (mul_exact a a x x) as (r & E & K & _); auto. exists r. auto. Qed.
Lemma abs_exact a x : built a -> shows a x -> shows (bi_abs a) (Z.abs x) /\ reads_back (bi_abs a).
Proof.
  intros. values. destruct (bi_abs_wf a H) as [C V]. split; [|now apply canon_reads_back].
  apply shows_iff; [apply C|]. subst. rewrite V. now apply abs_value.
Qed.

(** C46 *)
Lemma sqrt_exact a x : built a -> shows a x -> 0 <= x -> reads_back a ->
  forall fuel, (4 * bi_size a <= fuel)%nat -> exists r, bi_sqrt fuel a = Ok r /\ shows r (Z.sqrt x) /\ reads_back r.
Proof.
  intros. values. apply reads_back_canon in H2; [|assumption]. destruct (canon_nonneg a H2) as [N _]; [lia|].
  destruct (bi_sqrt_spec a fuel) as (r & E & C & V); auto. exists r. split; [exact E|].
  split; [apply shows_iff; [apply C|subst; auto]|now apply canon_reads_back].
Qed.
Lemma sqrt_negative a x fuel : built a -> shows a x -> x < 0 -> bi_sqrt fuel a = Throw EInvalidArgument.
Proof. intros. values. unfold bi_sqrt. now rewrite (value_neg a) by (auto; lia). Qed.
(** 3 + -3 is a negative zero *)
Lemma negative_zero : exists a b r, built a /\ built b /\ bi_add a b = Ok r /\ shows r 0 /\ r = mkBig [] true.
Proof.
  exists (int_lit 3), (int_lit (-3)), (mkBig [] true).
  split; [apply int_lit_built; lia|]. split; [apply int_lit_built; lia|]. split; [reflexivity|].
  split; [|reflexivity]. exists [48%N]. split; [reflexivity|constructor].
Qed.
Lemma negative_zero_built : built (mkBig [] true).
Proof. destruct negative_zero as (a & b & r & Ha & Hb & E & _ & ->). now apply built_add with a b. Qed.
Lemma negative_zero_shows : shows (mkBig [] true) 0.
Proof. exists [48%N]. split; [reflexivity|constructor]. Qed.
Lemma sqrt_wrong : exists a, built a /\ shows a 0 /\ forall fuel, bi_sqrt fuel a = Throw EInvalidArgument.
Proof. exists (mkBig [] true). split; [apply negative_zero_built|]. split; [apply negative_zero_shows|reflexivity]. Qed.

(** C47 *)
Lemma lt_cases a b x y : built a -> built b -> shows a x -> shows b y -> reads_back a -> reads_back b ->
  (0 <= x \/ 0 <= y -> bi_lt a b = (x <? y) /\ bi_gt a b = (y <? x)) /\
  (x < 0 -> y < 0 -> bi_lt a b = (y <? x) /\ bi_gt a b = (x <? y)).
Proof.
  intros. values. apply reads_back_canon in H3; auto. apply reads_back_canon in H4; auto.
  assert (G : bi_gt a b = negb (bi_lt a b) && negb (bi_value a =? bi_value b)).
  { unfold bi_gt. now rewrite equal_canon by auto. }
  rewrite G, bi_lt_spec by auto. pose proof (abs_value a H). pose proof (abs_value b H0). subst.
  split; intros.
  - destruct (Z_lt_le_dec (bi_value a) 0) as [La|La]; [rewrite (value_neg a) in * by auto|destruct (canon_nonneg a H3 La) as [Na Va]; rewrite Na in *];
    (destruct (Z_lt_le_dec (bi_value b) 0) as [Lb|Lb]; [rewrite (value_neg b) in * by auto|destruct (canon_nonneg b H4 Lb) as [Nb Vb]; rewrite Nb in *]);
    cbn [Bool.eqb]; lia.
  - rewrite (value_neg a), (value_neg b) by auto. cbn [Bool.eqb]. lia.
Qed.
Lemma lt_wrong : exists a b x y, built a /\ built b /\ shows a x /\ shows b y /\ x < y /\ bi_lt a b = false /\ bi_gt a b = true.
Proof.
  exists (int_lit (-5)), (int_lit (-3)), (-5), (-3).
  split; [apply int_lit_built; lia|]. split; [apply int_lit_built; lia|].
  split; [apply int_lit_shows|]. split; [apply int_lit_shows|]. split; [lia|]. split; reflexivity.
Qed.
(** Whatever it is the order of, LessThan is a strict total order compatible with Equal. *)
Lemma lt_strict_total : 
  (forall a, built a -> bi_lt a a = false) /\
  (forall a b c, built a -> built b -> built c -> bi_lt a b = true -> bi_lt b c = true -> bi_lt a c = true) /\
  (forall a b, built a -> built b -> bi_lt a b = true \/ bi_equal a b = true \/ bi_lt b a = true).
Proof.
  split; [|split].
  - intros a H. apply built_wf in H. rewrite bi_lt_spec, eqb_reflx by auto. lia.
  - intros a b c Ha Hb Hc. apply built_wf in Ha, Hb, Hc. rewrite !bi_lt_spec by auto.
    destruct (bi_neg a), (bi_neg b), (bi_neg c); cbn [Bool.eqb]; lia.
  - intros a b Ha Hb. apply built_wf in Ha, Hb. rewrite !bi_lt_spec by auto.
    destruct (Bool.eqb (bi_neg a) (bi_neg b)) eqn:E.
    + apply eqb_prop in E. rewrite bi_equal_spec by auto. rewrite E, eqb_reflx. lia.
    + destruct (bi_neg a), (bi_neg b); try discriminate; auto.
Qed.

(** C48 *)
Lemma equal_exact a b x y : built a -> built b -> shows a x -> shows b y -> reads_back a -> reads_back b ->
  bi_equal a b = (x =? y).
Proof.
  intros. values. apply reads_back_canon in H3; auto. apply reads_back_canon in H4; auto. subst. now apply equal_canon.
Qed.
Lemma normal_results a b x y : built a -> built b -> shows a x -> shows b y ->
  (forall r, bi_add a b = Ok r -> ~ (x + y = 0 /\ 0 <= x /\ y <= 0) -> reads_back r) /\
  (forall r, bi_sub a b = Ok r -> ~ (Z.abs x = Z.abs y /\ x <= 0 /\ 0 <= y) -> reads_back r) /\
  (forall r, bi_mod a b = Ok r -> y <> 0 -> 0 < x \/ Z.rem x y <> 0 -> reads_back r).
Proof.
  intros. values. pose proof (neg_value a H) as Na. pose proof (neg_value b H0) as Nb. subst. split; [|split]; intros r E K.
  - destruct (bi_add_spec a b) as (r' & E' & W & V & C); auto. rewrite E' in E. injection E as <-. apply canon_reads_back.
    destruct C as [C|(Z0 & N1 & N2)]; [exact C|]. exfalso. rewrite N1, N2 in *. apply K. rewrite V in Z0. unfold add_result in Z0.
    rewrite N1, N2 in Z0. cbn [Bool.eqb] in Z0. destruct (_ <? _) eqn:Q; lia.
  - destruct (bi_sub_spec a b) as (r' & E' & W & V & C); auto. rewrite E' in E. injection E as <-. apply canon_reads_back.
    destruct C as [C|(Z0 & N1 & N2)]; [exact C|]. exfalso. rewrite N1, N2 in *. apply K. rewrite V in Z0. unfold sub_result in Z0.
    rewrite N1, N2 in Z0. cbn [Bool.eqb] in Z0. lia.
  - intros P. destruct (bi_mod_spec a b) as (r' & E' & W & V & N); auto. rewrite E' in E. injection E as <-. apply canon_reads_back.
    split; [exact W|]. intros D. rewrite N. destruct P as [P|P]; [now apply value_pos|].
    exfalso. apply P. rewrite <- V. unfold bi_value. rewrite D. now destruct (bi_neg r').
Qed.
Lemma equal_wrong : exists a b, built a /\ built b /\ shows a 0 /\ shows b 0 /\ bi_equal a b = false.
Proof.
  exists (mkBig [] true), bi_default. split; [apply negative_zero_built|]. split; [constructor|].
  split; [apply negative_zero_shows|]. split; [|reflexivity]. exists [48%N]. split; [reflexivity|constructor].
Qed.

(** C49 *)
Lemma ck_digit c v : decimal_digit c v -> ck (Z.of_N c - 48) = Ok (Z.of_N c - 48) /\ is_digit c = true.
Proof.
  intros H. split; [|apply is_digit_spec; eauto]. destruct H as [Hv (z & I & ->)].
  apply ck_ok. assert (48 <= z <= 70000)%N; [|lia].
  unfold digit_zeros in I. cbn [In] in I.
  repeat (destruct I as [I|I]; [subst z; lia|]). contradiction.
Qed.
Lemma parse_digits_spec s : text s ->
  (Forall (fun c => exists v, decimal_digit (utf8_value c) v) s /\ exists ds, parse_digits s = Ok ds) \/
  (~ Forall (fun c => exists v, decimal_digit (utf8_value c) v) s /\ parse_digits s = Throw EInvalidArgument).
Proof.
  induction 1 as [|c s H T IH].
  - left. split; [constructor|]. eexists. reflexivity.
  - cbn [parse_digits]. rewrite get_code_point_unit by apply H. cbn [bind].
    destruct (is_digit (utf8_value c)) eqn:D.
    + apply is_digit_spec in D as [v D]. destruct (ck_digit _ _ D) as [K _]. rewrite K. cbn [bind].
      destruct IH as [[F [ds E]]|[F E]]; rewrite E; cbn [bind].
      * left. split; [constructor; eauto|]. eexists. reflexivity.
      * right. split; [|reflexivity]. intros G. inversion G. auto.
    + right. split; [|reflexivity]. intros G. inversion G; subst. apply is_digit_spec in H2. congruence.
Qed.
Lemma accepted_texts s : text s ->
  let accepted := s <> [] /\ exists sign body, s = sign ++ body /\ (sign = [] \/ sign = [[45%N]] \/ sign = [[43%N]]) /\
    Forall (fun c => exists v, decimal_digit (utf8_value c) v) body in
  (accepted -> exists b, bi_of_string s = Ok b) /\ (~ accepted -> bi_of_string s = Throw EInvalidArgument).
Proof.
  intros T. cbn zeta. destruct s as [|c r]; [split; [intros [N _]; congruence|reflexivity]|].
  inversion T as [|? ? Tc Tr]; subst.
  assert (D45 : forall c, char_eqb c (char_of_byte 45) = true <-> c = [45%N]) by (intros; apply char_eqb_iff).
  assert (D43 : forall c, char_eqb c (char_of_byte 43) = true <-> c = [43%N]) by (intros; apply char_eqb_iff).
  assert (ND : forall b v, decimal_digit b v -> b <> 45%N /\ b <> 43%N).
  { intros b v [Hv (z & I & ->)]. assert (48 <= z)%N; [|lia]. unfold digit_zeros in I. cbn [In] in I.
    repeat (destruct I as [I|I]; [subst z; lia|]). contradiction. }
  unfold bi_of_string.
  destruct (char_eqb c (char_of_byte 45)) eqn:E1; [|destruct (char_eqb c (char_of_byte 43)) eqn:E2].
  - apply D45 in E1. subst c. destruct (parse_digits_spec r Tr) as [[F [ds E]]|[F E]]; rewrite E; cbn [bind].
    + split; [eauto|]. intros N. exfalso. apply N. split; [discriminate|]. exists [[45%N]], r. auto.
    + split; [|reflexivity]. intros (_ & sign & body & Es & Hs & Hb). exfalso.
      destruct Hs as [-> | [-> | ->]]; cbn [app] in Es.
      * subst body. inversion Hb as [|? ? [v Hv] _]; subst. apply ND in Hv. cbn in Hv. lia.
      * injection Es as <-. auto.
      * discriminate.
  - apply D43 in E2. subst c. destruct (parse_digits_spec r Tr) as [[F [ds E]]|[F E]]; rewrite E; cbn [bind].
    + split; [eauto|]. intros N. exfalso. apply N. split; [discriminate|]. exists [[43%N]], r. auto.
    + split; [|reflexivity]. intros (_ & sign & body & Es & Hs & Hb). exfalso.
      destruct Hs as [-> | [-> | ->]]; cbn [app] in Es.
      * subst body. inversion Hb as [|? ? [v Hv] _]; subst. apply ND in Hv. cbn in Hv. lia.
      * discriminate.
      * injection Es as <-. auto.
  - destruct (parse_digits_spec (c :: r) T) as [[F [ds E]]|[F E]]; rewrite E; cbn [bind].
    + split; [eauto|]. intros N. exfalso. apply N. split; [discriminate|]. exists [], (c :: r). auto.
    + split; [|reflexivity]. intros (_ & sign & body & Es & Hs & Hb). exfalso.
      destruct Hs as [-> | [-> | ->]]; cbn [app] in Es.
      * subst body. auto.
      * injection Es as -> _. cbn in E1. discriminate.
      * injection Es as -> _. cbn in E2. discriminate.
Qed.
Lemma not_numeral_accepted : exists s b, s = ascii_chars [45%N] /\ bi_of_string s = Ok b /\ shows b 0.
Proof.
  exists (ascii_chars [45%N]), bi_default. split; [reflexivity|]. split; [reflexivity|].
  exists [48%N]. split; [reflexivity|constructor].
Qed.
(** U+0663 ARABIC-INDIC DIGIT THREE *)
Lemma foreign_digit_accepted : exists s b, text s /\ bi_of_string s = Ok b /\ forall z, ~ shows b z.
Proof.
  exists [[0xD9; 0xA3]%N], (mkBig [1587] false). split; [constructor; [|constructor]|].
  - split; [|discriminate]. apply unit2; [lia|unfold continuation; lia].
  - split; [reflexivity|]. intros z (t & E & C). vm_compute in E. injection E as E.
    destruct t as [|b [|]]; cbn in E; try discriminate. injection E as <-.
    apply canonical_is_numeral in C. inversion C as [ds N F|ds N F|ds N F]; subst.
    inversion F as [|? ? D]; subst. unfold ascii_digit in D. lia.
Qed.

(** C50 *)
Lemma div_throws_iff a b : built a -> built b ->
  (bi_div a b = Throw EInvalidArgument <-> bi_equal b bi_default = true) /\
  (bi_equal b bi_default = false -> exists r, bi_div a b = Ok r).
Proof.
  intros Ha Hb. apply built_wf in Ha, Hb.
  assert (K : bi_equal b bi_default = false -> exists r, bi_div a b = Ok r).
  { intros N. destruct (Z.eq_dec (bi_value b) 0) as [Z0|Z0].
    - assert (b = mkBig [] true) as ->.
      { pose proof (abs_value b Hb). destruct Hb as [F S]. assert (bi_digits b = []) by (apply lval_zero; auto; lia).
        destruct b as [ds [|]]; cbn in *; subst; [reflexivity|]. discriminate. }
      rewrite bi_div_negzero by assumption. eauto.
    - destruct (bi_div_spec a b) as (r & E & _); eauto. }
  split; [|exact K]. split.
  - intros E. destruct (bi_equal b bi_default) eqn:Q; [reflexivity|]. destruct (K eq_refl) as [r R]. congruence.
  - apply div_zero.
Qed.
Lemma div_by_negative_zero a : built a -> ~ shows a 0 -> exists b r, built b /\ shows b 0 /\ bi_div a b = Ok r /\
  (forall z, ~ shows r z).
Proof.
  intros Ha N. apply built_wf in Ha. exists (mkBig [] true).
  rewrite bi_div_negzero by assumption. eexists. split; [apply negative_zero_built|]. split; [apply negative_zero_shows|].
  split; [reflexivity|]. intros z (t & E & C).
  destruct (bi_digits a) as [|d ds] eqn:D.
  { apply N. apply shows_iff; [assumption|]. unfold bi_value. rewrite D. now destruct (bi_neg a). }
  assert (I : In 58%N t).
  { unfold bi_to_string in E. cbn [bi_digits bi_neg length repeat] in E.
    assert (rev (10 :: repeat 10 (length ds)) = repeat 10 (length ds) ++ [10]) as R.
    { cbn [rev]. f_equal. clear. induction (length ds) as [|n IH]; [reflexivity|].
      cbn [repeat rev]. rewrite IH. rewrite <- repeat_cons. reflexivity. }
    rewrite R in E.
    assert (P : forall n, print_digits (repeat 10 n ++ [10]) = Ok (ascii_chars (repeat 58%N n ++ [58%N]))).
    { induction n as [|n IH]; [reflexivity|]. cbn [repeat app print_digits]. rewrite IH. reflexivity. }
    rewrite P in E. cbn [bind] in E.
    destruct (bi_neg a); cbn [negb] in E.
    - injection E as E. apply ascii_chars_inj in E. subst t. apply in_or_app. right. left. reflexivity.
    - injection E as E. destruct t as [|b t]; [discriminate|]. cbn [ascii_chars map] in E. injection E as E1 E2.
      apply ascii_chars_inj in E2. subst t. right. apply in_or_app. right. left. reflexivity. }
  apply canonical_is_numeral in C. inversion C as [l Nn F|l Nn F|l Nn F]; subst.
  - rewrite Forall_forall in F. specialize (F _ I). unfold ascii_digit in F. lia.
  - destruct I as [I|I]; [discriminate|]. rewrite Forall_forall in F. specialize (F _ I). unfold ascii_digit in F. lia.
  - destruct I as [I|I]; [discriminate|]. rewrite Forall_forall in F. specialize (F _ I). unfold ascii_digit in F. lia.
Qed.
