(** Proofs about BigInt.v. *)
From Coq Require Import List NArith ZArith Bool Arith Lia ZifyBool ZifyN ZifyNat.
From Verif Require Import Outcome CharModel CharUtil StrModel StrUtil Dec BigInt SpecUtf8 SpecStr SpecInt
  CharProofs CharUtilProofs StrProofs DecProofs.
Import ListNotations.
Local Open Scope Z_scope.

(** Value of a little-endian digit list. *)
Fixpoint lval (l : list Z) : Z := match l with [] => 0 | d :: r => d + 10 * lval r end.
Definition digit (d : Z) : Prop := 0 <= d <= 9.
Definition bi_value (b : bigint) : Z := if bi_neg b then - lval (bi_digits b) else lval (bi_digits b).
(** Digits 0..9 without leading zero; the sign is arbitrary (so there may be a negative zero). *)
Definition bi_wf (b : bigint) : Prop := Forall digit (bi_digits b) /\ strip (bi_digits b) = bi_digits b.
(** ... and zero is not negative. *)
Definition bi_canon (b : bigint) : Prop := bi_wf b /\ (bi_digits b = [] -> bi_neg b = false).

Notation pow10 n := (10 ^ Z.of_nat n).

Lemma pow10_pos n : 0 < pow10 n.
Proof. apply Z.pow_pos_nonneg; lia. Qed.
Lemma pow10_S n : pow10 (S n) = 10 * pow10 n.
Proof. rewrite Nat2Z.inj_succ, Z.pow_succ_r; lia. Qed.

Lemma ck_ok z : -2147483648 <= z <= 2147483647 -> ck z = Ok z.
Proof. intros H. unfold ck. replace ((-2147483648 <=? z) && (z <=? 2147483647)) with true by lia. reflexivity. Qed.

Lemma strip_val l : lval (strip l) = lval l.
Proof.
  induction l as [|d r IH]; [reflexivity|]. cbn [strip lval]. rewrite <- IH.
  destruct (strip r) as [|x y]; [|reflexivity]. destruct (d =? 0) eqn:E; cbn [lval]; lia.
Qed.
Lemma strip_forall (P : Z -> Prop) l : Forall P l -> Forall P (strip l).
Proof.
  induction 1 as [|d r H _ IH]; [constructor|]. cbn [strip].
  destruct (strip r); [destruct (d =? 0); auto|auto].
Qed.
Lemma strip_idem l : strip (strip l) = strip l.
Proof.
  induction l as [|d r IH]; [reflexivity|]. cbn [strip].
  destruct (strip r) as [|x y] eqn:E.
  - destruct (d =? 0) eqn:Ed; [reflexivity|]. cbn [strip]. now rewrite Ed.
  - change (strip (d :: x :: y)) with (match strip (x :: y) with [] => if d =? 0 then [] else [d] | r' => d :: r' end).
    now rewrite IH.
Qed.
Lemma strip_length l : (length (strip l) <= length l)%nat.
Proof.
  induction l as [|d r IH]; [cbn; lia|]. cbn [strip]. destruct (strip r); [destruct (d =? 0)|]; cbn [length] in *; lia.
Qed.

Lemma strip_cons d r : strip (d :: r) = d :: r -> strip r = r /\ (r = [] -> d <> 0).
Proof.
  cbn [strip]. destruct (strip r) as [|x y] eqn:E.
  - destruct (d =? 0) eqn:Ed; [discriminate|]. intros H. injection H as <-. split; [reflexivity|lia].
  - intros H. injection H as <-. split; [reflexivity|discriminate].
Qed.

Lemma lval_bound l : Forall digit l -> 0 <= lval l < pow10 (length l).
Proof.
  induction 1 as [|d r H _ IH]; [cbn; lia|]. cbn [lval length]. rewrite pow10_S. unfold digit in H. lia.
Qed.

Lemma lval_pos l : Forall digit l -> strip l = l -> l <> [] -> pow10 (length l - 1) <= lval l.
Proof.
  induction 1 as [|d r H Hr IH]; intros S Hn; [congruence|].
  apply strip_cons in S as [S1 S2]. cbn [lval length]. replace (Datatypes.S (length r) - 1)%nat with (length r) by lia.
  unfold digit in H. destruct r as [|x y]; [cbn; specialize (S2 eq_refl); lia|].
  specialize (IH S1 ltac:(discriminate)). cbn [length] in *. rewrite pow10_S.
  replace (Datatypes.S (length y) - 1)%nat with (length y) in IH by lia. lia.
Qed.

Lemma lval_zero l : Forall digit l -> strip l = l -> lval l = 0 -> l = [].
Proof.
  intros H S V. destruct l as [|d r]; [reflexivity|].
  pose proof (lval_pos _ H S ltac:(discriminate)). pose proof (pow10_pos (length (d :: r) - 1)). lia.
Qed.

Lemma lval_inj a : forall b, Forall digit a -> Forall digit b -> strip a = a -> strip b = b -> lval a = lval b -> a = b.
Proof.
  induction a as [|d a IH]; intros b Ha Hb Sa Sb V.
  - symmetry. apply lval_zero; auto.
  - destruct b as [|e b].
    { apply lval_zero; auto. }
    inversion Ha; subst. inversion Hb; subst. apply strip_cons in Sa as [Sa _]. apply strip_cons in Sb as [Sb _].
    cbn [lval] in V. unfold digit in *. assert (d = e) by lia. subst. f_equal. apply IH; auto. lia.
Qed.

Lemma strip_length_bound l n : Forall digit l -> lval l < pow10 n -> (length (strip l) <= n)%nat.
Proof.
  intros H V. destruct (le_lt_dec (length (strip l)) n) as [L|L]; [assumption|].
  assert (Hn : strip l <> []) by (intros E; rewrite E in L; cbn in L; lia).
  pose proof (lval_pos (strip l) (strip_forall _ _ H) (strip_idem l) Hn) as P. rewrite strip_val in P.
  pose proof (Z.pow_le_mono_r 10 (Z.of_nat n) (Z.of_nat (length (strip l) - 1)) ltac:(lia) ltac:(lia)). lia.
Qed.

Lemma rlz_wf b : Forall digit (bi_digits b) -> bi_canon (bi_rlz b) /\ bi_value (bi_rlz b) = bi_value b.
Proof.
  intros H. unfold bi_rlz. repeat split; cbn [bi_digits bi_neg].
  - now apply strip_forall.
  - apply strip_idem.
  - now intros ->.
  - unfold bi_value. cbn [bi_digits bi_neg]. rewrite strip_val.
    pose proof (strip_val (bi_digits b)). destruct (strip (bi_digits b)); [|reflexivity].
    cbn in H0. destruct (bi_neg b); lia.
Qed.

Lemma canon_wf b : bi_canon b -> bi_wf b.
Proof. now intros [H _]. Qed.

Lemma wf_nonneg b : bi_wf b -> 0 <= lval (bi_digits b).
Proof. intros [H _]. apply lval_bound in H. lia. Qed.

(** Comparison *)
Lemma zlist_eqb_iff a : forall b, zlist_eqb a b = true <-> a = b.
Proof.
  induction a as [|x a IH]; intros [|y b]; cbn; try (split; congruence).
  rewrite andb_true_iff, IH, Z.eqb_eq. split; [intros [-> ->]; reflexivity|]. intros E. injection E. auto.
Qed.
Lemma bi_equal_iff a b : bi_equal a b = true <-> a = b.
Proof.
  unfold bi_equal. rewrite andb_true_iff, zlist_eqb_iff, eqb_true_iff. destruct a, b; cbn.
  split; [intros [-> ->]; reflexivity|]. intros E. injection E. auto.
Qed.

Lemma lval_rev_cons x a : lval (rev (x :: a)) = x * pow10 (length a) + lval (rev a).
Proof.
  cbn [rev].
  assert (forall l, lval (l ++ [x]) = lval l + pow10 (length l) * x) as H.
  { induction l as [|d r IH]; [cbn [app lval length]; change (pow10 0) with 1; lia|].
    cbn [app lval length]. rewrite IH, pow10_S. lia. }
  rewrite H, rev_length. lia.
Qed.

Lemma lt_msd_spec a : forall b, Forall digit a -> Forall digit b -> length a = length b ->
  lt_msd a b = (lval (rev a) <? lval (rev b)).
Proof.
  induction a as [|x a IH]; intros [|y b] Ha Hb L; try discriminate; [reflexivity|].
  injection L as L. inversion Ha; subst. inversion Hb; subst. cbn [lt_msd].
  rewrite !lval_rev_cons, <- L.
  assert (0 <= lval (rev a) < pow10 (length a)).
  { rewrite <- (rev_length a). apply lval_bound, Forall_rev, H2. }
  assert (0 <= lval (rev b) < pow10 (length a)).
  { rewrite L, <- (rev_length b). apply lval_bound, Forall_rev, H4. }
  destruct (x =? y) eqn:E; cbn [negb].
  - rewrite IH by auto. lia.
  - unfold digit in *. set (p := pow10 (length a)) in *. nia.
Qed.

(** Magnitude comparison of well-formed numbers. *)
Lemma lt_magnitude a b : bi_wf a -> bi_wf b ->
  (if negb (Nat.eqb (length (bi_digits a)) (length (bi_digits b)))
   then Nat.ltb (length (bi_digits a)) (length (bi_digits b))
   else lt_msd (rev (bi_digits a)) (rev (bi_digits b))) = (lval (bi_digits a) <? lval (bi_digits b)).
Proof.
  intros [Ha Sa] [Hb Sb]. destruct (Nat.eqb_spec (length (bi_digits a)) (length (bi_digits b))) as [L|L]; cbn [negb].
  - rewrite lt_msd_spec by (try apply Forall_rev; auto; rewrite !rev_length; auto). now rewrite !rev_involutive.
  - pose proof (lval_bound _ Ha). pose proof (lval_bound _ Hb).
    assert (forall x y, Forall digit x -> strip x = x -> Forall digit y -> (length y < length x)%nat -> lval y < lval x) as K.
    { intros x y Hx Sx Hy Lxy. destruct x as [|d r]; [cbn in Lxy; lia|].
      pose proof (lval_pos _ Hx Sx ltac:(discriminate)). pose proof (lval_bound _ Hy).
      pose proof (Z.pow_le_mono_r 10 (Z.of_nat (length y)) (Z.of_nat (length (d :: r) - 1)) ltac:(lia) ltac:(lia)). lia. }
    destruct (Nat.ltb_spec (length (bi_digits a)) (length (bi_digits b))) as [L'|L'].
    + specialize (K _ _ Hb Sb Ha L'). lia.
    + specialize (K _ _ Ha Sa Hb ltac:(lia)). lia.
Qed.

Lemma bi_lt_spec a b : bi_wf a -> bi_wf b ->
  bi_lt a b = if Bool.eqb (bi_neg a) (bi_neg b) then lval (bi_digits a) <? lval (bi_digits b) else bi_neg a.
Proof.
  intros Ha Hb. unfold bi_lt. rewrite lt_magnitude by assumption. now destruct (Bool.eqb (bi_neg a) (bi_neg b)).
Qed.

Lemma bi_gt_spec a b : bi_wf a -> bi_wf b -> bi_neg a = bi_neg b ->
  bi_gt a b = (lval (bi_digits b) <? lval (bi_digits a)).
Proof.
  intros Ha Hb E. unfold bi_gt. rewrite bi_lt_spec by assumption. rewrite E, eqb_reflx.
  destruct (bi_equal a b) eqn:Q.
  - apply bi_equal_iff in Q. subst. lia.
  - assert (lval (bi_digits a) <> lval (bi_digits b)); [|lia].
    intros V. assert (a = b); [|apply bi_equal_iff in H; congruence].
    destruct a as [da na], b as [db nb]; cbn in *. destruct Ha, Hb. f_equal; [|assumption]. now apply lval_inj.
Qed.

Lemma bi_equal_spec a b : bi_wf a -> bi_wf b -> bi_neg a = bi_neg b ->
  bi_equal a b = (lval (bi_digits a) =? lval (bi_digits b)).
Proof.
  intros Ha Hb E. destruct (bi_equal a b) eqn:Q.
  - apply bi_equal_iff in Q. subst. lia.
  - assert (lval (bi_digits a) <> lval (bi_digits b)); [|lia].
    intros V. assert (a = b); [|apply bi_equal_iff in H; congruence].
    destruct a as [da na], b as [db nb]; cbn in *. destruct Ha, Hb. f_equal; [|assumption]. now apply lval_inj.
Qed.

Lemma bi_abs_wf a : bi_wf a -> bi_canon (bi_abs a) /\ bi_value (bi_abs a) = lval (bi_digits a).
Proof. intros H. split; [split; [exact H|reflexivity]|reflexivity]. Qed.

(** Addition and subtraction loops *)
Lemma lval_tl a : Forall digit a -> lval a = match a with [] => 0 | x :: _ => x end + 10 * lval (tl a).
Proof. destruct a; cbn [lval tl]; lia. Qed.
Lemma Forall_tl {A} (P : A -> Prop) a : Forall P a -> Forall P (tl a).
Proof. destruct 1; [constructor|assumption]. Qed.

Lemma add_loop_spec n : forall a b c, Forall digit a -> Forall digit b -> 0 <= c <= 1 ->
  lval a + lval b + c < pow10 n ->
  exists ds, add_loop n a b c = Ok ds /\ Forall digit ds /\ lval ds = lval a + lval b + c.
Proof.
  induction n as [|n IH]; intros a b c Ha Hb Hc V.
  - cbn in V. exists []. pose proof (lval_bound a Ha). pose proof (lval_bound b Hb).
    split; [reflexivity|]. split; [constructor|]. cbn [lval]. lia.
  - rewrite (lval_tl a Ha), (lval_tl b Hb) in *. rewrite pow10_S in V.
    set (x := match a with [] => 0 | x :: _ => x end) in *.
    set (y := match b with [] => 0 | y :: _ => y end) in *.
    assert (Hx : 0 <= x <= 9) by (subst x; destruct Ha; [lia|assumption]).
    assert (Hy : 0 <= y <= 9) by (subst y; destruct Hb; [lia|assumption]).
    set (s := c + x + y). assert (Hs : 0 <= s <= 19) by lia.
    assert (Hq : Z.quot s 10 = s / 10) by (apply Z.quot_div_nonneg; lia).
    assert (Hr : Z.rem s 10 = s mod 10) by (apply Z.rem_mod_nonneg; lia).
    pose proof (Z.div_mod s 10 ltac:(lia)). pose proof (Z.mod_pos_bound s 10 ltac:(lia)).
    destruct (IH (tl a) (tl b) (s / 10)) as (ds & E & F & W).
    { now apply Forall_tl. } { now apply Forall_tl. } { lia. } { lia. }
    exists (s mod 10 :: ds). split; [|split].
    + cbn [add_loop].
      assert (E1 : (match a with [] => Ok c | x0 :: _ => ck (c + x0) end) = Ok (c + x)).
      { subst x; destruct a; [f_equal; lia|apply ck_ok; lia]. }
      rewrite E1. cbn [bind].
      assert (E2 : (match b with [] => Ok (c + x) | y0 :: _ => ck (c + x + y0) end) = Ok s).
      { unfold s; subst y; destruct b; [f_equal; lia|apply ck_ok; lia]. }
      rewrite E2. cbn [bind]. rewrite Hq, Hr, E. reflexivity.
    + constructor; [unfold digit; lia|assumption].
    + cbn [lval]. lia.
Qed.

Lemma sub_loop_spec l : forall sm c, Forall digit l -> Forall digit sm -> 0 <= c <= 1 ->
  (length sm <= length l)%nat -> lval sm + c <= lval l ->
  exists ds, sub_loop l sm c = Ok ds /\ Forall digit ds /\ lval ds = lval l - lval sm - c.
Proof.
  induction l as [|x r IH]; intros sm c Hl Hs Hc L V.
  - destruct sm; [|cbn in L; lia]. cbn in V. exists []. split; [reflexivity|]. split; [constructor|]. cbn. lia.
  - inversion Hl; subst. rewrite (lval_tl sm Hs) in *. cbn [lval] in V.
    set (y := match sm with [] => 0 | y :: _ => y end) in *.
    assert (Hy : 0 <= y <= 9) by (subst y; destruct Hs; [lia|assumption]). unfold digit in H1.
    cbn [sub_loop]. rewrite ck_ok by lia. cbn [bind].
    assert (E2 : (match sm with [] => Ok (x - c) | y0 :: _ => ck (x - c - y0) end) = Ok (x - c - y)).
    { subst y; destruct sm; [f_equal; lia|apply ck_ok; lia]. }
    rewrite E2. cbn [bind]. pose proof (Forall_tl _ _ Hs).
    assert (length (tl sm) <= length r)%nat by (destruct sm; cbn in *; lia).
    destruct (x - c - y <? 0) eqn:E.
    + destruct (IH (tl sm) 1) as (ds & E1 & F & W); auto; [lia|lia|].
      rewrite E1. cbn [bind]. eexists. split; [reflexivity|]. split; [constructor; [unfold digit; lia|assumption]|].
      cbn [lval]. lia.
    + destruct (IH (tl sm) 0) as (ds & E1 & F & W); auto; [lia|lia|].
      rewrite E1. cbn [bind]. eexists. split; [reflexivity|]. split; [constructor; [unfold digit; lia|assumption]|].
      cbn [lval]. lia.
Qed.

Lemma length_of_le a b : bi_wf a -> bi_wf b -> lval (bi_digits a) <= lval (bi_digits b) ->
  (length (bi_digits a) <= length (bi_digits b))%nat.
Proof.
  intros [Ha Sa] [Hb Sb] V. rewrite <- Sa. apply strip_length_bound; [assumption|].
  pose proof (lval_bound _ Hb). lia.
Qed.

(** Subtract with equal signs: the difference of the magnitudes, in canonical form. *)
Lemma sub_same_spec a b : bi_wf a -> bi_wf b -> bi_neg a = bi_neg b ->
  exists r, bi_sub_same a b = Ok r /\ bi_canon r /\ bi_value r = lval (bi_digits a) - lval (bi_digits b).
Proof.
  intros Ha Hb E. unfold bi_sub_same. rewrite bi_equal_spec by assumption.
  destruct (lval (bi_digits a) =? lval (bi_digits b)) eqn:Q.
  - exists bi_default. split; [reflexivity|]. split; [repeat constructor|]. cbn. lia.
  - rewrite bi_lt_spec by assumption. rewrite E, eqb_reflx.
    destruct (lval (bi_digits a) <? lval (bi_digits b)) eqn:L.
    + destruct (sub_loop_spec (bi_digits b) (bi_digits a) 0) as (ds & E1 & F & W);
        [apply Hb|apply Ha|lia|apply length_of_le; auto; lia|lia|].
      rewrite E1. cbn [bind]. destruct (rlz_wf (mkBig ds true) F) as [C V].
      eexists. split; [reflexivity|]. split; [exact C|]. rewrite V. unfold bi_value. cbn [bi_neg bi_digits]. lia.
    + destruct (sub_loop_spec (bi_digits a) (bi_digits b) 0) as (ds & E1 & F & W);
        [apply Ha|apply Hb|lia|apply length_of_le; auto; lia|lia|].
      rewrite E1. cbn [bind]. destruct (rlz_wf (mkBig ds false) F) as [C V].
      eexists. split; [reflexivity|]. split; [exact C|]. rewrite V. unfold bi_value. cbn [bi_neg bi_digits]. lia.
Qed.

(** Exact behaviour of Add. *)
Definition add_result (a b : bigint) : Z :=
  if Bool.eqb (bi_neg a) (bi_neg b) then bi_value a + bi_value b
  else Z.abs (Z.abs (bi_value a) - Z.abs (bi_value b)) *
       (if Z.abs (bi_value b) <? Z.abs (bi_value a) then 1 else if bi_neg b then -1 else 1).

Lemma abs_value a : bi_wf a -> Z.abs (bi_value a) = lval (bi_digits a).
Proof. intros H. pose proof (wf_nonneg a H). unfold bi_value. destruct (bi_neg a); lia. Qed.

Lemma value_resign r n : bi_wf r -> 0 <= bi_value r -> bi_value (mkBig (bi_digits r) n) = if n then - bi_value r else bi_value r.
Proof. intros H V. pose proof (wf_nonneg r H). unfold bi_value in *. cbn [bi_neg bi_digits]. destruct (bi_neg r), n; lia. Qed.

Lemma bi_add_spec a b : bi_wf a -> bi_wf b ->
  exists r, bi_add a b = Ok r /\ bi_wf r /\ bi_value r = add_result a b /\
    (bi_canon r \/ bi_value r = 0 /\ bi_neg a = false /\ bi_neg b = true) .
Proof.
  intros Ha Hb. unfold bi_add, add_result. destruct (Bool.eqb (bi_neg a) (bi_neg b)) eqn:S.
  - apply eqb_prop in S.
    pose proof (lval_bound _ (proj1 Ha)). pose proof (lval_bound _ (proj1 Hb)).
    set (m := Nat.max (length (bi_digits a)) (length (bi_digits b))).
    assert (lval (bi_digits a) < pow10 m) by (eapply Z.lt_le_trans; [apply H|apply Z.pow_le_mono_r; lia]).
    assert (lval (bi_digits b) < pow10 m) by (eapply Z.lt_le_trans; [apply H0|apply Z.pow_le_mono_r; lia]).
    destruct (add_loop_spec (Datatypes.S m) (bi_digits a) (bi_digits b) 0) as (ds & E & F & W);
      [apply Ha|apply Hb|lia|rewrite pow10_S; lia|].
    rewrite E. cbn [bind]. destruct (rlz_wf (mkBig ds (bi_neg a)) F) as [C V].
    eexists. split; [reflexivity|]. split; [apply C|]. split; [|now left].
    rewrite V. unfold bi_value. cbn [bi_neg bi_digits]. rewrite <- S. destruct (bi_neg a); lia.
  - rewrite !abs_value by assumption.
    destruct (bi_abs_wf a Ha) as [Ca Va]. destruct (bi_abs_wf b Hb) as [Cb Vb].
    rewrite bi_gt_spec by (try apply canon_wf; auto). cbn [bi_abs bi_digits].
    destruct (lval (bi_digits b) <? lval (bi_digits a)) eqn:L.
    + destruct (sub_same_spec (bi_abs a) (bi_abs b)) as (r & E & C & V); try apply canon_wf; auto.
      exists r. split; [exact E|]. split; [apply C|]. split; [|now left]. rewrite V. cbn [bi_abs bi_digits]. lia.
    + destruct (sub_same_spec (bi_abs b) (bi_abs a)) as (r & E & C & V); try apply canon_wf; auto.
      rewrite E. cbn [bind]. cbn [bi_abs bi_digits] in V. eexists. split; [reflexivity|].
      split; [apply C|]. rewrite value_resign by (try apply C; lia). split; [destruct (bi_neg b); lia|].
      destruct (Z.eq_dec (bi_value r) 0) as [Z0|Z0].
      * destruct (bi_neg b) eqn:Nb.
        -- right. destruct (bi_neg a); [discriminate|]. split; [lia|auto].
        -- left. split; [apply C|]. reflexivity.
      * left. split; [apply C|]. cbn [bi_digits]. intros D. exfalso. apply Z0. unfold bi_value. rewrite D. now destruct (bi_neg r).
Qed.

(** Exact behaviour of Subtract. *)
Definition sub_result (a b : bigint) : Z :=
  if Bool.eqb (bi_neg a) (bi_neg b) then Z.abs (bi_value a) - Z.abs (bi_value b)
  else Z.abs (Z.abs (bi_value a) - Z.abs (bi_value b)) * (if bi_neg a then -1 else 1).

Lemma bi_sub_spec a b : bi_wf a -> bi_wf b ->
  exists r, bi_sub a b = Ok r /\ bi_wf r /\ bi_value r = sub_result a b /\
   (bi_canon r \/ bi_value r = 0 /\ bi_neg a = true /\ bi_neg b = false).
Proof.
  intros Ha Hb. unfold bi_sub, sub_result. destruct (Bool.eqb (bi_neg a) (bi_neg b)) eqn:S; cbn [negb].
  - apply eqb_prop in S. destruct (sub_same_spec a b Ha Hb S) as (r & E & C & V).
    exists r. rewrite !abs_value by assumption. split; [exact E|]. split; [apply C|]. split; [exact V|now left].
  - destruct (bi_add_spec a b Ha Hb) as (r & E & W & V & _). rewrite E. cbn [bind].
    eexists. split; [reflexivity|]. split; [exact W|].
    unfold add_result in V. rewrite S in V.
    assert (A : lval (bi_digits r) = Z.abs (Z.abs (bi_value a) - Z.abs (bi_value b))).
    { rewrite <- (abs_value r W), V. destruct (_ <? _); [lia|]. destruct (bi_neg b); lia. }
    unfold bi_value at 1. cbn [bi_neg bi_digits]. rewrite A.
    split; [destruct (bi_neg a); lia|].
    destruct (bi_digits r) as [|d ds] eqn:D.
    + destruct (bi_neg a) eqn:Na.
      * right. destruct (bi_neg b); [discriminate|]. split; [|auto]. reflexivity.
      * left. split; [|reflexivity]. unfold bi_wf in *. cbn [bi_digits]. rewrite D in W. exact W.
    + left. split; [|discriminate]. unfold bi_wf in *. cbn [bi_digits]. rewrite D in W. exact W.
Qed.

(** Multiplication *)
Lemma vec_set_lval res : forall k r x, nth_error res k = Some r ->
  exists res', vec_set res k x = Ok res' /\ length res' = length res /\
    lval res' = lval res + (x - r) * pow10 k /\ (digit x -> Forall digit res -> Forall digit res').
Proof.
  induction res as [|y res IH]; intros [|k] r x H; try discriminate.
  - injection H as ->. exists (x :: res). split; [reflexivity|]. split; [reflexivity|].
    split; [cbn [lval]; change (pow10 0) with 1; lia|]. intros D F. inversion F; auto.
  - destruct (IH k r x H) as (res' & E & L & V & F). exists (y :: res').
    cbn [vec_set]. rewrite E. cbn [bind]. split; [reflexivity|]. split; [cbn; lia|].
    split; [cbn [lval]; rewrite V, pow10_S; lia|]. intros D G. inversion G; subst. constructor; auto.
Qed.

Lemma Forall_skipn' {A} (P : A -> Prop) n (l : list A) : Forall P l -> Forall P (skipn n l).
Proof. intros H. rewrite <- (firstn_skipn n l) in H. now apply Forall_app in H. Qed.

Lemma lval_skipn_S j b : Forall digit b -> (j < length b)%nat ->
  lval (skipn j b) = nth j b 0 + 10 * lval (skipn (S j) b) /\ digit (nth j b 0).
Proof.
  revert b. induction j as [|j IH]; intros [|x b] F L; cbn [length] in L; try lia; inversion F; subst.
  - cbn. auto.
  - cbn [skipn nth]. apply IH; [assumption|lia].
Qed.

Lemma mul_inner_spec fuel : forall res i j d b c,
  Forall digit res -> Forall digit b -> digit d -> digit c ->
  (i + length b <= length res)%nat -> (length res < fuel + (i + j))%nat -> (i + j <= length res)%nat ->
  lval res + pow10 (i + j) * (d * lval (skipn j b) + c) < pow10 (length res) ->
  exists res', mul_inner fuel res i j d b c = Ok res' /\ length res' = length res /\ Forall digit res' /\
    lval res' = lval res + pow10 (i + j) * (d * lval (skipn j b) + c).
Proof.
  induction fuel as [|f IH]; intros res i j d b c Hres Hb Hd Hc L Lf Lj V; [lia|].
  cbn [mul_inner].
  destruct (Nat.ltb j (length b) || negb (c =? 0)) eqn:Cond.
  2:{ apply orb_false_iff in Cond as [C1 C2]. apply Nat.ltb_ge in C1. assert (c = 0) by lia. subst c.
      exists res. rewrite skipn_all2 by assumption. cbn [lval]. repeat split; auto. lia. }
  pose proof (lval_bound res Hres) as Br. pose proof (lval_bound _ (Forall_skipn' _ j _ Hb)) as Bs.
  unfold digit in Hd, Hc. pose proof (pow10_pos (i + j)) as Pp.
  assert (Hij : (i + j < length res)%nat).
  { destruct (Nat.ltb_spec j (length b)) as [H|H]; [lia|]. cbn [orb] in Cond.
    destruct (Nat.eq_dec (i + j) (length res)) as [Q|Q]; [|lia]. exfalso. rewrite Q in *. nia. }
  unfold vec_get. destruct (nth_error res (i + j)) as [r|] eqn:Er.
  2:{ apply nth_error_None in Er. lia. }
  cbn [bind].
  assert (Hr : digit r) by (rewrite Forall_forall in Hres; eapply Hres, nth_error_In, Er). unfold digit in Hr.
  set (y := if Nat.ltb j (length b) then nth j b 0 else 0).
  assert (Hy : digit y /\ lval (skipn j b) = y + 10 * lval (skipn (S j) b)).
  { subst y. destruct (Nat.ltb_spec j (length b)) as [H|H].
    - destruct (lval_skipn_S j b Hb H); auto.
    - rewrite !skipn_all2 by lia. unfold digit. cbn. lia. }
  destruct Hy as [Hy Ey]. unfold digit in Hy.
  rewrite ck_ok by nia. cbn [bind]. rewrite ck_ok by nia. cbn [bind]. rewrite ck_ok by nia. cbn [bind].
  set (s := r + d * y + c). assert (Hs : 0 <= s <= 99) by (subst s; nia).
  rewrite (Z.quot_div_nonneg s 10), (Z.rem_mod_nonneg s 10) by lia.
  pose proof (Z.div_mod s 10 ltac:(lia)) as Ds. pose proof (Z.mod_pos_bound s 10 ltac:(lia)) as Ms.
  destruct (vec_set_lval res (i + j) r (s mod 10) Er) as (res' & E & Lr & Vr & Fr). rewrite E. cbn [bind].
  assert (P10 : pow10 (i + S j) = 10 * pow10 (i + j)) by (rewrite <- pow10_S; f_equal; lia).
  assert (Key : lval res' + pow10 (i + S j) * (d * lval (skipn (S j) b) + s / 10) =
                lval res + pow10 (i + j) * (d * lval (skipn j b) + c)).
  { rewrite Vr, P10, Ey. subst s.
    generalize dependent (pow10 (i + j)). intros p. intros. nia. }
  destruct (IH res' i (S j) d b (s / 10)) as (res'' & E2 & L2 & F2 & V2).
  - apply Fr; [unfold digit; lia|assumption].
  - assumption.
  - assumption.
  - unfold digit. lia.
  - lia.
  - lia.
  - lia.
  - rewrite Key, Lr. assumption.
  - exists res''. rewrite E2. split; [reflexivity|]. split; [lia|]. split; [assumption|]. lia.
Qed.

Lemma mul_outer_spec a : forall res i b, Forall digit a -> Forall digit b -> Forall digit res ->
  (i + length a + length b <= length res)%nat ->
  lval res < pow10 i * pow10 (length b) ->
  exists res', mul_outer a res i b = Ok res' /\ Forall digit res' /\
    lval res' = lval res + pow10 i * (lval a * lval b).
Proof.
  induction a as [|d a IH]; intros res i b Ha Hb Hr L V.
  - exists res. cbn [mul_outer lval]. repeat split; auto. lia.
  - inversion Ha; subst. cbn [length] in L. cbn [mul_outer].
    pose proof (lval_bound b Hb) as Bb. pose proof (lval_bound _ Hr) as Br. pose proof (pow10_pos i) as Pi.
    unfold digit in H1.
    assert (Bound : lval res + pow10 i * (d * lval b) < pow10 (S i) * pow10 (length b)).
    { rewrite pow10_S.
      assert (pow10 i * (d * lval b) <= pow10 i * (9 * (pow10 (length b) - 1))).
      { apply Z.mul_le_mono_nonneg_l; [lia|]. nia. }
      lia. }
    destruct (mul_inner_spec (S (length res)) res i 0 d b 0) as (res' & E & Lr & Fr & Vr); auto; try (unfold digit; lia); try lia.
    { rewrite Nat.add_0_r. cbn [skipn]. rewrite Z.add_0_r.
      eapply Z.lt_le_trans; [exact Bound|]. rewrite <- Z.pow_add_r by lia. apply Z.pow_le_mono_r; lia. }
    rewrite E. cbn [bind]. cbn [skipn] in Vr. rewrite Nat.add_0_r, Z.add_0_r in Vr.
    destruct (IH res' (S i) b) as (res'' & E2 & F2 & V2); auto; [lia|lia|].
    exists res''. split; [exact E2|]. split; [exact F2|]. rewrite V2, Vr, pow10_S. cbn [lval]. lia.
Qed.

Lemma lval_repeat0 n : lval (repeat 0 n) = 0.
Proof. induction n; cbn [repeat lval]; lia. Qed.

Lemma bi_mul_spec a b : bi_wf a -> bi_wf b ->
  exists r, bi_mul a b = Ok r /\ bi_canon r /\ bi_value r = bi_value a * bi_value b.
Proof.
  intros Ha Hb. unfold bi_mul.
  destruct (mul_outer_spec (bi_digits a) (repeat 0 (length (bi_digits a) + length (bi_digits b))) 0 (bi_digits b))
    as (res & E & F & V).
  - apply Ha.
  - apply Hb.
  - apply Forall_forall. intros x I. apply repeat_spec in I. subst. unfold digit. lia.
  - rewrite repeat_length. lia.
  - rewrite lval_repeat0. pose proof (pow10_pos (length (bi_digits b))). change (pow10 0) with 1. lia.
  - rewrite E. cbn [bind]. destruct (rlz_wf (mkBig res (negb (Bool.eqb (bi_neg a) (bi_neg b)))) F) as [C W].
    eexists. split; [reflexivity|]. split; [exact C|]. rewrite W.
    rewrite lval_repeat0 in V. change (pow10 0) with 1 in V.
    unfold bi_value. cbn [bi_neg bi_digits]. rewrite V. destruct (bi_neg a), (bi_neg b); cbn [Bool.eqb negb]; lia.
Qed.

(** Construction from text *)
Lemma ascii_digit_char b : ascii_digit b ->
  get_code_point [b] = Ok b /\ is_digit b = true /\ digit (Z.of_N b - 48).
Proof.
  intros H. unfold ascii_digit in H. split; [|split].
  - rewrite get_code_point_unit; [reflexivity|]. constructor. lia.
  - apply is_digit_spec. exists (b - 48)%N. unfold SpecChar.decimal_digit.
    split; [lia|]. exists 0x30%N. split; [|lia]. cbn. auto.
  - unfold digit. lia.
Qed.

Lemma parse_ascii ds : Forall ascii_digit ds ->
  parse_digits (ascii_chars ds) = Ok (map (fun b => Z.of_N b - 48) ds).
Proof.
  induction 1 as [|d ds H _ IH]; [reflexivity|].
  cbn [ascii_chars map parse_digits]. destruct (ascii_digit_char d H) as (E1 & E2 & E3).
  rewrite E1. cbn [bind]. rewrite E2. unfold digit in E3. rewrite ck_ok by lia. cbn [bind].
  change (map (fun b => [b]) ds) with (ascii_chars ds). rewrite IH. reflexivity.
Qed.

Lemma lval_rev_digits ds : lval (rev (map (fun b => Z.of_N b - 48) ds)) = digits_value ds.
Proof.
  induction ds as [|d ds IH]; [reflexivity|]. cbn [map]. rewrite lval_rev_cons, digits_value_cons, IH, map_length. reflexivity.
Qed.

Lemma digits_forall ds : Forall ascii_digit ds -> Forall digit (rev (map (fun b => Z.of_N b - 48) ds)).
Proof.
  intros H. apply Forall_rev, Forall_map. eapply Forall_impl; [|exact H]. intros b Hb. now apply ascii_digit_char.
Qed.

Lemma of_string_numeral t z : int_numeral t z ->
  exists b, bi_of_string (ascii_chars t) = Ok b /\ bi_canon b /\ bi_value b = z.
Proof.
  intros [ds Hn F|ds Hn F|ds Hn F].
  - destruct ds as [|d ds]; [congruence|]. pose proof (ascii_digit_not_sign _ _ F) as [N1 N2].
    unfold bi_of_string. cbn [ascii_chars map].
    replace (char_eqb [d] (char_of_byte 45)) with false.
    2:{ symmetry. unfold char_eqb, char_of_byte. cbn. lia. }
    replace (char_eqb [d] (char_of_byte 43)) with false.
    2:{ symmetry. unfold char_eqb, char_of_byte. cbn. lia. }
    change ([d] :: map (fun b => [b]) ds) with (ascii_chars (d :: ds)). rewrite parse_ascii by assumption. cbn [bind].
    destruct (rlz_wf (mkBig (rev (map (fun b => Z.of_N b - 48) (d :: ds))) false) (digits_forall _ F)) as [C V].
    eexists. split; [reflexivity|]. split; [exact C|]. rewrite V. apply lval_rev_digits.
  - change (bi_of_string (ascii_chars (43%N :: ds))) with (l <- parse_digits (ascii_chars ds) ;; Ok (bi_rlz (mkBig (rev l) false))).
    rewrite parse_ascii by assumption. cbn [bind].
    destruct (rlz_wf (mkBig (rev (map (fun b => Z.of_N b - 48) ds)) false) (digits_forall _ F)) as [C V].
    eexists. split; [reflexivity|]. split; [exact C|]. rewrite V. apply lval_rev_digits.
  - change (bi_of_string (ascii_chars (45%N :: ds))) with (l <- parse_digits (ascii_chars ds) ;; Ok (bi_rlz (mkBig (rev l) true))).
    rewrite parse_ascii by assumption. cbn [bind].
    destruct (rlz_wf (mkBig (rev (map (fun b => Z.of_N b - 48) ds)) true) (digits_forall _ F)) as [C V].
    eexists. split; [reflexivity|]. split; [exact C|]. rewrite V. unfold bi_value. cbn [bi_neg bi_digits].
    now rewrite lval_rev_digits.
Qed.

Lemma numeral_bytes t z : int_numeral t z -> Forall (fun b => 1 <= b < 128)%N t.
Proof.
  assert (forall ds, Forall ascii_digit ds -> Forall (fun b => 1 <= b < 128)%N ds) as K.
  { intros ds. apply Forall_impl. unfold ascii_digit. lia. }
  intros [ds Hn F|ds Hn F|ds Hn F]; [auto|constructor; [lia|auto]|constructor; [lia|auto]].
Qed.

Lemma ascii_chars_text t : Forall (fun b => 1 <= b < 128)%N t -> text (ascii_chars t).
Proof.
  intros H. apply Forall_map. eapply Forall_impl; [|exact H]. intros b Hb. cbn beta in Hb. split; [apply unit1; lia|].
  intros E. injection E. lia.
Qed.
Lemma concat_ascii t : concat (ascii_chars t) = t.
Proof. induction t as [|b t IH]; [reflexivity|]. cbn. now f_equal. Qed.

Lemma string_of_std_ascii t r : Forall (fun b => 1 <= b < 128)%N t -> string_of_cstr (t ++ 0%N :: r) = Ok (ascii_chars t).
Proof.
  intros H. rewrite <- (concat_ascii t) at 1. apply string_of_cstr_text, ascii_chars_text, H.
Qed.

Lemma bi_of_int_spec z : exists b, bi_of_int z = Ok b /\ bi_canon b /\ bi_value b = z.
Proof.
  pose proof (canonical_is_numeral _ _ (dec_of_Z_canonical z)) as H.
  unfold bi_of_int, string_of_std. rewrite string_of_std_ascii by (eapply numeral_bytes, H). cbn [bind].
  now apply of_string_numeral.
Qed.

Lemma canon_nonneg r : bi_canon r -> 0 <= bi_value r -> bi_neg r = false /\ lval (bi_digits r) = bi_value r.
Proof.
  intros [W C] V. pose proof (wf_nonneg r W). unfold bi_value in *. destruct (bi_neg r) eqn:E; [|auto].
  exfalso. assert (lval (bi_digits r) = 0) by lia. destruct W as [F S].
  apply lval_zero in H0; auto. specialize (C H0). congruence.
Qed.

Lemma canon_inj a b : bi_canon a -> bi_canon b -> bi_value a = bi_value b -> a = b.
Proof.
  intros Ca Cb V. destruct (Z_lt_le_dec (bi_value a) 0) as [L|L].
  - assert (bi_neg a = true) as Na.
    { destruct (bi_neg a) eqn:E; [reflexivity|]. pose proof (wf_nonneg a (proj1 Ca)). unfold bi_value in L. rewrite E in L. lia. }
    assert (bi_neg b = true) as Nb.
    { destruct (bi_neg b) eqn:E; [reflexivity|]. pose proof (wf_nonneg b (proj1 Cb)). unfold bi_value in V at 2. rewrite E in V. lia. }
    unfold bi_value in V. rewrite Na, Nb in V. destruct a as [da na], b as [db nb]. cbn in *. subst. f_equal.
    destruct Ca as [[F1 S1] _], Cb as [[F2 S2] _]. apply lval_inj; auto. lia.
  - destruct (canon_nonneg a Ca L) as [Na Va]. destruct (canon_nonneg b Cb ltac:(lia)) as [Nb Vb].
    destruct a as [da na], b as [db nb]. cbn in *. subst. f_equal.
    destruct Ca as [[F1 S1] _], Cb as [[F2 S2] _]. apply lval_inj; auto.
Qed.

(** Order on non-negative canonical numbers. *)
Lemma lt_nonneg a b : bi_canon a -> bi_canon b -> 0 <= bi_value a -> 0 <= bi_value b ->
  bi_lt a b = (bi_value a <? bi_value b).
Proof.
  intros Ca Cb Va Vb. destruct (canon_nonneg a Ca Va) as [Na Ea]. destruct (canon_nonneg b Cb Vb) as [Nb Eb].
  rewrite bi_lt_spec by (apply canon_wf; assumption). rewrite Na, Nb, Ea, Eb. reflexivity.
Qed.
Lemma equal_canon a b : bi_canon a -> bi_canon b -> bi_equal a b = (bi_value a =? bi_value b).
Proof.
  intros Ca Cb. destruct (bi_equal a b) eqn:E.
  - apply bi_equal_iff in E. subst. lia.
  - destruct (bi_value a =? bi_value b) eqn:V; [|reflexivity].
    assert (a = b) by (apply canon_inj; auto; lia). apply bi_equal_iff in H. congruence.
Qed.

Lemma bi_sub_nonneg a b : bi_canon a -> bi_canon b -> 0 <= bi_value a -> 0 <= bi_value b ->
  exists r, bi_sub a b = Ok r /\ bi_canon r /\ bi_value r = bi_value a - bi_value b.
Proof.
  intros Ca Cb Va Vb. destruct (canon_nonneg a Ca Va) as [Na Ea]. destruct (canon_nonneg b Cb Vb) as [Nb Eb].
  unfold bi_sub. rewrite Na, Nb. cbn [Bool.eqb negb].
  destruct (sub_same_spec a b) as (r & E & C & V); try apply canon_wf; auto; [congruence|].
  exists r. split; [exact E|]. split; [exact C|]. lia.
Qed.
Lemma bi_add_nonneg a b : bi_canon a -> bi_canon b -> 0 <= bi_value a -> 0 <= bi_value b ->
  exists r, bi_add a b = Ok r /\ bi_canon r /\ bi_value r = bi_value a + bi_value b.
Proof.
  intros Ca Cb Va Vb. destruct (canon_nonneg a Ca Va) as [Na Ea]. destruct (canon_nonneg b Cb Vb) as [Nb Eb].
  destruct (bi_add_spec a b) as (r & E & W & V & C); try apply canon_wf; auto.
  exists r. split; [exact E|]. split; [destruct C as [C|(_ & _ & C)]; [exact C|congruence]|].
  rewrite V. unfold add_result. rewrite Na, Nb. reflexivity.
Qed.

(** Division *)
Lemma div_search_spec D C : bi_canon D -> bi_canon C -> 0 < bi_value D -> 0 <= bi_value C ->
  forall fuel l r x, Z.of_nat fuel >= r - l + 1 -> 0 <= x -> x * bi_value D <= bi_value C ->
  (x = l - 1 \/ (l = 0 /\ x = 0)) -> bi_value C < (r + 1) * bi_value D -> l - 1 <= r ->
  div_search fuel D C l r x = Ok (bi_value C / bi_value D).
Proof.
  intros CD CC PD PC. induction fuel as [|f IH]; intros l r x Hf Hx Hxl Hl Hr Hlr.
  - cbn [div_search]. replace (l <=? r) with false by lia. f_equal.
    apply Z.div_unique with (bi_value C - bi_value D * x); nia.
  - cbn [div_search]. destruct (l <=? r) eqn:E.
    2:{ f_equal. apply Z.div_unique with (bi_value C - bi_value D * x); nia. }
    assert (0 <= l) by lia.
    rewrite Z.quot_div_nonneg by lia. set (mid := (l + r) / 2).
    assert (Hm : l <= mid <= r).
    { subst mid. pose proof (Z.div_mod (l + r) 2 ltac:(lia)). pose proof (Z.mod_pos_bound (l + r) 2 ltac:(lia)). lia. }
    destruct (bi_of_int_spec mid) as (m & Em & Cm & Vm). rewrite Em. cbn [bind].
    destruct (bi_mul_spec D m) as (tmp & Et & Ct & Vt); try apply canon_wf; auto. rewrite Et. cbn [bind].
    rewrite Vm in Vt. rewrite lt_nonneg, equal_canon by (auto; nia). rewrite Vt.
    destruct ((bi_value D * mid <? bi_value C) || (bi_value D * mid =? bi_value C)) eqn:Q.
    + apply IH; try lia; nia.
    + apply IH; try lia; nia.
Qed.

Lemma cons_canon C d : bi_canon C -> 0 <= bi_value C -> digit d ->
  bi_canon (bi_rlz (mkBig (d :: bi_digits C) (bi_neg C))) /\
  bi_value (bi_rlz (mkBig (d :: bi_digits C) (bi_neg C))) = 10 * bi_value C + d.
Proof.
  intros CC PC Hd. destruct (canon_nonneg C CC PC) as [NC EC].
  assert (F : Forall digit (bi_digits (mkBig (d :: bi_digits C) (bi_neg C)))) by (constructor; [assumption|apply CC]).
  destruct (rlz_wf _ F) as [C1 V1]. split; [exact C1|]. rewrite V1. unfold bi_value at 1. cbn [bi_neg bi_digits]. rewrite NC.
  cbn [lval]. lia.
Qed.

Lemma div_loop_spec D : bi_canon D -> 0 < bi_value D -> forall msd C q,
  Forall digit msd -> bi_canon C -> 0 <= bi_value C < bi_value D -> Forall digit q ->
  exists q', div_loop msd D C q = Ok q' /\ Forall digit q' /\
    lval q' = lval q * pow10 (length msd) + (bi_value C * pow10 (length msd) + lval (rev msd)) / bi_value D.
Proof.
  intros CD PD. induction msd as [|d r IH]; intros C q Hm CC PC Hq.
  - exists q. split; [reflexivity|]. split; [assumption|]. cbn [length rev lval]. change (pow10 0) with 1.
    rewrite Z.div_small by lia. lia.
  - inversion Hm; subst. cbn [div_loop].
    destruct (cons_canon C d CC ltac:(lia) H1) as [C1 V1].
    set (C' := bi_rlz (mkBig (d :: bi_digits C) (bi_neg C))) in *. unfold digit in H1.
    rewrite (div_search_spec D C') by (auto; lia). cbn [bind].
    set (x := bi_value C' / bi_value D).
    assert (Hx : 0 <= x <= 9).
    { subst x. rewrite V1. split; [apply Z.div_pos; lia|].
      assert ((10 * bi_value C + d) / bi_value D < 10); [|lia]. apply Z.div_lt_upper_bound; lia. }
    destruct (bi_of_int_spec x) as (m & Em & Cm & Vm). rewrite Em. cbn [bind].
    destruct (bi_mul_spec D m) as (p & Ep & Cp & Vp); try apply canon_wf; auto. rewrite Ep. cbn [bind].
    pose proof (Z.div_mod (bi_value C') (bi_value D) ltac:(lia)) as DM.
    pose proof (Z.mod_pos_bound (bi_value C') (bi_value D) ltac:(lia)) as MB. fold x in DM.
    destruct (bi_sub_nonneg C' p) as (C2 & E2 & CC2 & V2); auto; try nia.
    rewrite E2. cbn [bind]. rewrite Vp, Vm in V2.
    assert (Dx : Forall digit (x :: q)) by (constructor; [unfold digit; lia|assumption]).
    destruct (IH C2 (x :: q)) as (q' & E3 & F3 & V3); [assumption|assumption|lia|assumption|].
    exists q'. split; [exact E3|]. split; [exact F3|]. rewrite V3. cbn [lval]. cbn [length]. rewrite lval_rev_cons, pow10_S.
    replace (bi_value C * (10 * pow10 (length r)) + (d * pow10 (length r) + lval (rev r)))
      with ((x * pow10 (length r)) * bi_value D + (bi_value C2 * pow10 (length r) + lval (rev r))).
    2:{ rewrite V2. assert (bi_value C' = 10 * bi_value C + d) by assumption. nia. }
    rewrite Z.div_add_l by lia. lia.
Qed.

Lemma wf_nonzero b : bi_wf b -> bi_value b <> 0 -> bi_equal b bi_default = false.
Proof.
  intros W V. destruct (bi_equal b bi_default) eqn:E; [|reflexivity]. apply bi_equal_iff in E. subst. cbn in V. congruence.
Qed.

Lemma quot_signs x y (na nb : bool) : 0 <= x -> 0 < y ->
  Z.quot (if na then - x else x) (if nb then - y else y) = if negb (Bool.eqb na nb) then - (x / y) else x / y.
Proof.
  intros Hx Hy. rewrite <- (Z.quot_div_nonneg x y) by lia.
  destruct na, nb; cbn [Bool.eqb negb]; rewrite ?Z.quot_opp_opp, ?Z.quot_opp_l, ?Z.quot_opp_r by lia; reflexivity.
Qed.

Lemma bi_div_spec a b : bi_wf a -> bi_wf b -> bi_value b <> 0 ->
  exists r, bi_div a b = Ok r /\ bi_canon r /\ bi_value r = Z.quot (bi_value a) (bi_value b).
Proof.
  intros Ha Hb V. unfold bi_div. rewrite wf_nonzero by assumption.
  destruct (bi_abs_wf b Hb) as [Cb Vb]. pose proof (wf_nonneg b Hb). pose proof (wf_nonneg a Ha).
  assert (lval (bi_digits b) <> 0) by (unfold bi_value in V; destruct (bi_neg b); lia).
  destruct (div_loop_spec (bi_abs b) Cb ltac:(lia) (rev (bi_digits a)) bi_default []) as (q & E & F & W).
  - apply Forall_rev, Ha.
  - repeat constructor.
  - cbn. lia.
  - constructor.
  - rewrite E. cbn [bind].
    destruct (rlz_wf (mkBig q (negb (Bool.eqb (bi_neg a) (bi_neg b)))) F) as [C W2].
    eexists. split; [reflexivity|]. split; [exact C|]. rewrite W2. unfold bi_value. cbn [bi_neg bi_digits].
    rewrite rev_involutive, Vb in W. cbn [lval] in W. change (bi_value bi_default) with 0 in W.
    replace (lval q) with (lval (bi_digits a) / lval (bi_digits b)) by (rewrite W; f_equal; lia).
    rewrite quot_signs by lia. reflexivity.
Qed.

(** Division by the negative zero: every digit of the quotient is 10. *)
Lemma div_search_zero C : bi_canon C -> 0 <= bi_value C -> div_search 12 bi_default C 0 10 0 = Ok 10.
Proof.
  intros CC PC.
  assert (forall f l x, 0 <= l <= 11 -> Z.of_nat f >= 11 - l -> l <= 10 -> div_search f bi_default C l 10 x = Ok 10) as K.
  { induction f as [|f IH]; intros l x Hl Hf H10; [lia|].
    cbn [div_search]. replace (l <=? 10) with true by lia. rewrite Z.quot_div_nonneg by lia.
    set (mid := (l + 10) / 2).
    assert (Hm : l <= mid <= 10).
    { subst mid. pose proof (Z.div_mod (l + 10) 2 ltac:(lia)). pose proof (Z.mod_pos_bound (l + 10) 2 ltac:(lia)). lia. }
    destruct (bi_of_int_spec mid) as (m & Em & Cm & Vm). rewrite Em. cbn [bind].
    assert (C0 : bi_canon bi_default) by (repeat constructor).
    destruct (bi_mul_spec bi_default m) as (tmp & Et & Ct & Vt); try apply canon_wf; auto. rewrite Et. cbn [bind].
    change (bi_value bi_default) with 0 in Vt.
    rewrite lt_nonneg, equal_canon by (auto; lia).
    replace ((bi_value tmp <? bi_value C) || (bi_value tmp =? bi_value C)) with true by lia.
    destruct (Z.eq_dec mid 10) as [M|M].
    - rewrite M. destruct f; cbn [div_search]; replace (10 + 1 <=? 10) with false by lia; reflexivity.
    - apply IH; lia. }
  apply K; lia.
Qed.

Lemma div_loop_zero msd : forall C q, Forall digit msd -> bi_canon C -> 0 <= bi_value C ->
  div_loop msd bi_default C q = Ok (repeat 10 (length msd) ++ q).
Proof.
  induction msd as [|d r IH]; intros C q Hm CC PC; [reflexivity|].
  inversion Hm; subst. cbn [div_loop]. destruct (cons_canon C d CC PC H1) as [C1 V1].
  set (C' := bi_rlz (mkBig (d :: bi_digits C) (bi_neg C))) in *. unfold digit in H1.
  rewrite div_search_zero by (auto; lia). cbn [bind].
  destruct (bi_of_int_spec 10) as (m & Em & Cm & Vm). rewrite Em. cbn [bind].
  assert (C0 : bi_canon bi_default) by (repeat constructor).
  destruct (bi_mul_spec bi_default m) as (p & Ep & Cp & Vp); try apply canon_wf; auto. rewrite Ep. cbn [bind].
  change (bi_value bi_default) with 0 in Vp.
  destruct (bi_sub_nonneg C' p) as (C2 & E2 & CC2 & V2); auto; try lia.
  rewrite E2. cbn [bind]. rewrite IH by (auto; lia). f_equal. cbn [length]. rewrite <- Nat.add_1_r, repeat_app. cbn [repeat].
  now rewrite <- app_assoc.
Qed.

Lemma strip_tens n : strip (repeat 10 n) = repeat 10 n.
Proof.
  induction n as [|n IH]; [reflexivity|]. cbn [repeat strip]. rewrite IH. destruct (repeat 10 n); reflexivity.
Qed.

Lemma bi_div_negzero a : bi_wf a ->
  bi_div a (mkBig [] true) = Ok (match bi_digits a with [] => bi_default | _ => mkBig (repeat 10 (length (bi_digits a))) (negb (bi_neg a)) end).
Proof.
  intros Ha. unfold bi_div. cbn [bi_equal bi_digits bi_neg zlist_eqb Bool.eqb andb bi_default].
  change (bi_abs (mkBig [] true)) with bi_default. change {| bi_digits := []; bi_neg := false |} with bi_default.
  rewrite div_loop_zero.
  - cbn [bind]. rewrite app_nil_r, rev_length. unfold bi_rlz. cbn [bi_digits bi_neg]. rewrite strip_tens.
    destruct (bi_digits a); [reflexivity|]. cbn [length repeat]. destruct (bi_neg a); reflexivity.
  - apply Forall_rev, Ha.
  - repeat constructor.
  - cbn. lia.
Qed.

(** Remainder *)
Lemma bi_mod_spec a b : bi_wf a -> bi_wf b -> bi_value b <> 0 ->
  exists r, bi_mod a b = Ok r /\ bi_wf r /\ bi_value r = Z.rem (bi_value a) (bi_value b) /\ bi_neg r = bi_neg a.
Proof.
  intros Ha Hb V. unfold bi_mod.
  destruct (bi_div_spec a b Ha Hb V) as (q & E & Cq & Vq). rewrite E. cbn [bind].
  destruct (bi_mul_spec q b) as (p & Ep & Cp & Vp); [now apply canon_wf|assumption|]. rewrite Ep. cbn [bind].
  destruct (bi_sub_spec a p) as (r & Er & Wr & Vr & _); [assumption|now apply canon_wf|]. rewrite Er. cbn [bind].
  eexists. split; [reflexivity|]. split; [exact Wr|]. split; [|reflexivity].
  rewrite Vq in Vp.
  pose proof (Z.quot_rem' (bi_value a) (bi_value b)) as QR.
  assert (SA : Z.abs (bi_value p) <= Z.abs (bi_value a) /\ (0 <= bi_value a -> 0 <= bi_value p) /\ (bi_value a <= 0 -> bi_value p <= 0)).
  { set (x := bi_value a) in *. set (y := bi_value b) in *.
    assert (bi_value p = x - Z.rem x y) by lia. rewrite H.
    destruct (Z_le_gt_dec 0 x).
    - pose proof (Z.rem_nonneg x y V ltac:(lia)). pose proof (Z.rem_le x (Z.abs y) ltac:(lia) ltac:(lia)).
      rewrite Z.rem_abs_r in H1 by assumption. lia.
    - pose proof (Z.rem_nonpos x y V ltac:(lia)).
      pose proof (Z.rem_le (- x) (Z.abs y) ltac:(lia) ltac:(lia)). rewrite Z.rem_abs_r, Z.rem_opp_l in H1 by assumption. lia. }
  assert (L : lval (bi_digits r) = Z.abs (bi_value a) - Z.abs (bi_value p)).
  { rewrite <- (abs_value r Wr), Vr. unfold sub_result.
    destruct (Bool.eqb (bi_neg a) (bi_neg p)); [lia|]. destruct (bi_neg a); lia. }
  unfold bi_value at 1. cbn [bi_neg bi_digits]. rewrite L.
  assert (if bi_neg a then bi_value a <= 0 else 0 <= bi_value a).
  { pose proof (wf_nonneg a Ha). unfold bi_value. destruct (bi_neg a); lia. }
  destruct (bi_neg a); lia.
Qed.

(** Power *)
Lemma pow_loop_spec fuel : forall e r b, 0 <= e < 2 ^ Z.of_nat fuel -> bi_canon r -> bi_wf b ->
  exists x, pow_loop fuel e r b = Ok x /\ bi_canon x /\ bi_value x = bi_value r * bi_value b ^ e.
Proof.
  induction fuel as [|f IH]; intros e r b He Cr Wb.
  - cbn in He. assert (e = 0) by lia. subst. exists r. cbn. split; [reflexivity|]. split; [assumption|]. lia.
  - cbn [pow_loop]. destruct (0 <? e) eqn:E.
    2:{ assert (e = 0) by lia. subst. exists r. split; [reflexivity|]. split; [assumption|]. rewrite Z.pow_0_r. lia. }
    rewrite Nat2Z.inj_succ, Z.pow_succ_r in He by lia.
    rewrite Z.quot_div_nonneg, Z.rem_mod_nonneg by lia.
    pose proof (Z.div_mod e 2 ltac:(lia)) as DM. pose proof (Z.mod_pos_bound e 2 ltac:(lia)) as MB.
    destruct (bi_mul_spec b b) as (b' & Eb & Cb & Vb); auto.
    assert (P2 : bi_value b' ^ (e / 2) = bi_value b ^ (2 * (e / 2))).
    { rewrite Vb, Z.pow_mul_l, <- Z.pow_add_r by lia. f_equal. lia. }
    destruct (e mod 2 =? 1) eqn:Q.
    + destruct (bi_mul_spec r b) as (r' & Er & Cr' & Vr); auto; [now apply canon_wf|].
      rewrite Er. cbn [bind]. rewrite Eb. cbn [bind].
      destruct (IH (e / 2) r' b') as (x & Ex & Cx & Vx); auto; [lia|now apply canon_wf|].
      exists x. split; [exact Ex|]. split; [exact Cx|]. rewrite Vx, Vr, P2.
      replace e with (1 + 2 * (e / 2)) at 2 by lia. rewrite Z.pow_add_r by lia. rewrite Z.pow_1_r. lia.
    + cbn [bind]. rewrite Eb. cbn [bind].
      destruct (IH (e / 2) r b') as (x & Ex & Cx & Vx); auto; [lia|now apply canon_wf|].
      exists x. split; [exact Ex|]. split; [exact Cx|]. rewrite Vx, P2. replace (2 * (e / 2)) with e by lia. reflexivity.
Qed.

Lemma canon_one : bi_canon (mkBig [1] false).
Proof. split; [split; [constructor; [unfold digit; lia|constructor]|reflexivity]|discriminate]. Qed.
Lemma canon_two : bi_canon (mkBig [2] false).
Proof. split; [split; [constructor; [unfold digit; lia|constructor]|reflexivity]|discriminate]. Qed.
Lemma canon_zero : bi_canon bi_default.
Proof. repeat constructor. Qed.

Lemma bi_pow_spec a e : bi_wf a -> 0 <= e <= 2147483647 ->
  exists r, bi_pow a e = Ok r /\ bi_canon r /\ bi_value r = bi_value a ^ e.
Proof.
  intros Ha He. unfold bi_pow. replace (e <? 0) with false by lia.
  destruct (pow_loop_spec 32 e (mkBig [1] false) a) as (r & E & C & V); auto.
  - change (2 ^ Z.of_nat 32) with 4294967296. lia.
  - apply canon_one.
  - exists r. split; [exact E|]. split; [exact C|]. rewrite V. change (bi_value (mkBig [1] false)) with 1. lia.
Qed.

(** Square root *)
Lemma sqrt_loop_spec a : bi_canon a -> 0 <= bi_value a -> forall fuel low high,
  bi_canon low -> bi_canon high -> 1 <= bi_value low -> 0 <= bi_value high -> bi_value low <= bi_value high + 1 ->
  (bi_value low - 1) * (bi_value low - 1) < bi_value a -> bi_value a < (bi_value high + 1) * (bi_value high + 1) ->
  bi_value high - bi_value low + 1 < 2 ^ Z.of_nat fuel ->
  exists r, sqrt_loop fuel a low high = Ok r /\ bi_canon r /\ 0 <= bi_value r /\
    bi_value r * bi_value r <= bi_value a < (bi_value r + 1) * (bi_value r + 1).
Proof.
  intros Ca Pa. induction fuel as [|f IH]; intros low high Cl Ch Pl Ph Hlh Hl Hh Hf.
  - cbn [sqrt_loop]. rewrite lt_nonneg, equal_canon by (auto; lia). change (2 ^ Z.of_nat 0) with 1 in Hf.
    replace ((bi_value low <? bi_value high) || (bi_value low =? bi_value high)) with false by lia.
    exists high. split; [reflexivity|]. split; [assumption|]. split; [assumption|].
    assert (bi_value low = bi_value high + 1) by lia. nia.
  - cbn [sqrt_loop]. rewrite lt_nonneg, equal_canon by (auto; lia).
    destruct ((bi_value low <? bi_value high) || (bi_value low =? bi_value high)) eqn:Q.
    2:{ exists high. split; [reflexivity|]. split; [assumption|]. split; [assumption|].
        assert (bi_value low = bi_value high + 1) by lia. nia. }
    rewrite Nat2Z.inj_succ, Z.pow_succ_r in Hf by lia.
    destruct (bi_add_nonneg low high) as (s & Es & Cs & Vs); auto; [lia|]. rewrite Es. cbn [bind].
    destruct (bi_div_spec s (mkBig [2] false)) as (mid & Em & Cm & Vm);
      [now apply canon_wf|apply canon_wf, canon_two|discriminate|]. rewrite Em. cbn [bind].
    change (bi_value (mkBig [2] false)) with 2 in Vm. rewrite Z.quot_div_nonneg in Vm by lia.
    pose proof (Z.div_mod (bi_value s) 2 ltac:(lia)) as DM. pose proof (Z.mod_pos_bound (bi_value s) 2 ltac:(lia)) as MB.
    rewrite <- Vm in DM.
    unfold bi_sqr. destruct (bi_mul_spec mid mid) as (sq & Eq & Cq & Vq); try (now apply canon_wf). rewrite Eq. cbn [bind].
    rewrite equal_canon, lt_nonneg by (auto; nia). rewrite Vq.
    destruct (bi_value mid * bi_value mid =? bi_value a) eqn:Q1.
    { exists mid. split; [reflexivity|]. split; [assumption|]. split; [lia|]. nia. }
    assert (Cone := canon_one).
    destruct (bi_value mid * bi_value mid <? bi_value a) eqn:Q2.
    + destruct (bi_add_nonneg mid (mkBig [1] false)) as (low' & El & Cl' & Vl'); auto; [lia|cbn; lia|]. rewrite El. cbn [bind].
      change (bi_value (mkBig [1] false)) with 1 in Vl'. apply IH; auto; try lia.
    + destruct (bi_sub_nonneg mid (mkBig [1] false)) as (high' & El & Cl' & Vl'); auto; [lia|cbn; lia|]. rewrite El. cbn [bind].
      change (bi_value (mkBig [1] false)) with 1 in Vl'. apply IH; auto; try lia.
Qed.

Lemma bi_sqrt_spec a fuel : bi_wf a -> bi_neg a = false -> (4 * length (bi_digits a) <= fuel)%nat ->
  exists r, bi_sqrt fuel a = Ok r /\ bi_canon r /\ bi_value r = Z.sqrt (bi_value a).
Proof.
  intros Wa Na Hf. assert (Ca : bi_canon a) by (split; [assumption|congruence]).
  assert (Va : bi_value a = lval (bi_digits a)) by (unfold bi_value; now rewrite Na).
  pose proof (lval_bound _ (proj1 Wa)) as B.
  unfold bi_sqrt. rewrite Na, !equal_canon by (auto using canon_zero, canon_one).
  change (bi_value bi_default) with 0. change (bi_value (mkBig [1] false)) with 1.
  destruct ((bi_value a =? 0) || (bi_value a =? 1)) eqn:Q.
  - exists a. split; [reflexivity|]. split; [assumption|]. assert (bi_value a = 0 \/ bi_value a = 1) as [-> | ->] by lia; reflexivity.
  - destruct (sqrt_loop_spec a Ca ltac:(lia) fuel (mkBig [1] false) a) as (r & E & C & P & V); auto using canon_one;
      change (bi_value (mkBig [1] false)) with 1; try lia; try nia.
    + assert (pow10 (length (bi_digits a)) <= 2 ^ Z.of_nat (4 * length (bi_digits a))).
      { rewrite Nat2Z.inj_mul, Z.pow_mul_r by lia. apply Z.pow_le_mono_l. split; [lia|]. cbn. lia. }
      pose proof (Z.pow_le_mono_r 2 (Z.of_nat (4 * length (bi_digits a))) (Z.of_nat fuel) ltac:(lia) ltac:(lia)). lia.
    + exists r. split; [exact E|]. split; [exact C|]. symmetry. apply Z.sqrt_unique. lia.
Qed.

(** Printing *)
Lemma print_digits_spec msd : Forall digit msd ->
  print_digits msd = Ok (ascii_chars (map (fun d => Z.to_N (d + 48)) msd)).
Proof.
  induction 1 as [|d r H _ IH]; [reflexivity|]. cbn [print_digits]. unfold digit in H. rewrite ck_ok by lia. cbn [bind].
  rewrite IH. cbn [bind ascii_chars map]. f_equal. f_equal. unfold char_of_byte, low_byte. now rewrite Z.mod_small by lia.
Qed.

Lemma digits_value_map msd : Forall digit msd ->
  digits_value (map (fun d => Z.to_N (d + 48)) msd) = lval (rev msd).
Proof.
  induction 1 as [|d r H _ IH]; [reflexivity|]. cbn [map]. rewrite digits_value_cons, lval_rev_cons, IH, map_length.
  unfold digit in H. rewrite Z2N.id by lia. f_equal. f_equal. lia.
Qed.

Lemma last_nonzero l : strip l = l -> l <> [] -> exists d r, rev l = d :: r /\ d <> 0.
Proof.
  induction l as [|x l IH]; intros S N; [congruence|]. apply strip_cons in S as [S1 S2].
  destruct l as [|y l]; [exists x, []; cbn; auto|].
  destruct IH as (d & r & E & D); [assumption|discriminate|]. exists d, (r ++ [x]). cbn [rev] in *. rewrite E. split; [reflexivity|exact D].
Qed.

Lemma to_string_spec b : bi_wf b ->
  exists t, bi_to_string b = Ok (ascii_chars t) /\ canonical_numeral t (bi_value b).
Proof.
  intros [F S]. unfold bi_to_string, bi_value. destruct b as [ds n]; cbn [bi_digits bi_neg] in *.
  destruct ds as [|d0 ds0] eqn:E.
  { exists [48%N]. split; [reflexivity|]. cbn [lval]. destruct n; constructor. }
  rewrite <- E in *. assert (Nn : ds <> []) by (subst; discriminate). clear E d0 ds0.
  rewrite print_digits_spec by (apply Forall_rev, F). cbn [bind].
  destruct (last_nonzero ds S Nn) as (d & r & Er & Hd).
  assert (Fr := Forall_rev F). 
  set (t := map (fun d => Z.to_N (d + 48)) (rev ds)).
  assert (Vt : digits_value t = lval ds) by (subst t; rewrite digits_value_map, rev_involutive by assumption; reflexivity).
  assert (Ft : Forall ascii_digit t).
  { subst t. apply Forall_map. eapply Forall_impl; [|exact Fr]. intros x Hx. unfold digit in Hx. unfold ascii_digit. lia. }
  assert (Ht : t = Z.to_N (d + 48) :: map (fun d => Z.to_N (d + 48)) r) by (subst t; rewrite Er; reflexivity).
  assert (Hd' : Z.to_N (d + 48) <> 48%N).
  { rewrite Er in Fr. inversion Fr; subst. unfold digit in H1. lia. }
  destruct n.
  - exists (45%N :: t). split; [reflexivity|]. rewrite <- Vt. now apply can_neg with (Z.to_N (d + 48)) (map (fun d => Z.to_N (d + 48)) r).
  - exists t. split; [reflexivity|]. rewrite <- Vt. now apply can_pos with (Z.to_N (d + 48)) (map (fun d => Z.to_N (d + 48)) r).
Qed.
