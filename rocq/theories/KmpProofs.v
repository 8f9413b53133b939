From Coq Require Import List Arith NArith Bool Lia.
From Verif Require Import Outcome StrModel Kmp SpecStr StrProofs.
Import ListNotations.

(** [firstn k p] is a suffix of [w]. *)
Definition psuf (p : list N) (k : nat) (w : list N) : Prop :=
  (k <= length p)%nat /\ exists a, w = a ++ firstn k p.

(** Largest proper border of the prefix of length [i]. *)
Definition fl (p : list N) (i j : nat) : Prop :=
  (j < i)%nat /\ psuf p j (firstn i p) /\ forall k, (k < i)%nat -> psuf p k (firstn i p) -> (k <= j)%nat.

Definition fail_ok (p : list N) (failure : list kidx) (i : nat) : Prop :=
  length failure = (length p + 1)%nat /\ nth_error failure 0 = Some None /\
  forall t, (1 <= t <= i)%nat -> exists f, nth_error failure t = Some (Some f) /\ fl p t f.

Lemma psuf_length p k w : psuf p k w -> (k <= length w)%nat.
Proof. intros (H & a & ->). rewrite app_length, firstn_length. lia. Qed.

Lemma psuf_0 p w : psuf p 0 w.
Proof. split; [lia|]. exists w. cbn. now rewrite app_nil_r. Qed.

Lemma suffix_nested {A} (a b x y : list A) : a ++ x = b ++ y -> (length x <= length y)%nat -> exists c, y = c ++ x.
Proof.
  revert b. induction a as [|z a IH]; intros b H L.
  - cbn in H. subst x. rewrite app_length in L. exists []. destruct b; [reflexivity|cbn in L; lia].
  - destruct b as [|z' b].
    + cbn in H. subst y. exists (z :: a). reflexivity.
    + cbn in H. injection H as -> H. eauto.
Qed.

Lemma psuf_nested p k j w : psuf p k w -> psuf p j w -> (k <= j)%nat -> psuf p k (firstn j p).
Proof.
  intros (Hk & a & Ea) (Hj & b & Eb) L. split; [assumption|].
  rewrite Ea in Eb. apply suffix_nested in Eb; [assumption|]. rewrite !firstn_length. lia.
Qed.

Lemma psuf_trans p k j w : psuf p j w -> psuf p k (firstn j p) -> psuf p k w.
Proof.
  intros (Hj & b & Eb) (Hk & a & Ea). split; [assumption|]. exists (b ++ a). rewrite Eb, Ea. now rewrite app_assoc.
Qed.

Lemma firstn_S_nth {A} (p : list A) k c : nth_error p k = Some c -> firstn (S k) p = firstn k p ++ [c].
Proof.
  revert p. induction k as [|k IH]; intros [|x p] H; try discriminate; cbn in *.
  - now injection H as ->.
  - f_equal. now apply IH.
Qed.

Lemma psuf_snoc p k w c : psuf p (S k) (w ++ [c]) <-> psuf p k w /\ nth_error p k = Some c.
Proof.
  split.
  - intros (H & a & E). destruct (nth_error p k) as [d|] eqn:D.
    2:{ apply nth_error_None in D. lia. }
    rewrite (firstn_S_nth _ _ _ D), app_assoc in E. apply app_inj_tail in E. destruct E as [-> ->].
    split; [|reflexivity]. split; [lia|now exists a].
  - intros [(H & a & ->) D]. split.
    + assert (k < length p)%nat by (apply nth_error_Some; congruence). lia.
    + exists a. now rewrite (firstn_S_nth _ _ _ D), app_assoc.
Qed.

Definition step_result (p : list N) (w : list N) (c : N) (B : nat) (r : kidx) : Prop :=
  psuf p (kincr r) (w ++ [c]) /\ (kincr r <= B)%nat /\
  forall k, (k <= B)%nat -> psuf p k (w ++ [c]) -> (k <= kincr r)%nat.

(** The inner loop. [B] bounds the candidates considered. *)
Lemma kmp_while_spec p failure w c B :
  (B <= length p)%nat -> fail_ok p failure (B - 1) ->
  forall fuel j, (j < fuel)%nat -> (j < B)%nat -> psuf p j w ->
  (forall k, (j < k < B)%nat -> psuf p k w -> nth_error p k <> Some c) ->
  exists r, kmp_while fuel p failure c (Some j) = Ok r /\ step_result p w c B r.
Proof.
  intros HB (FL & F0 & FS). induction fuel as [|fuel IH]; intros j Hf Hj HP HI; [lia|].
  cbn [kmp_while]. unfold str_get. destruct (nth_error p j) as [d|] eqn:D.
  2:{ apply nth_error_None in D. lia. }
  cbn [bind]. destruct (N.eqb_spec d c) as [->|E].
  - exists (Some j). split; [reflexivity|]. split; [now apply psuf_snoc|]. cbn. split; [lia|].
    intros [|k] Hk HK; [lia|]. apply psuf_snoc in HK. destruct HK as [HK1 HK2].
    destruct (Nat.le_gt_cases k j); [lia|]. exfalso. apply (HI k); [lia|assumption..].
  - unfold vec_get. destruct (Nat.eq_dec j 0) as [->|Hj0].
    + rewrite F0. cbn [bind]. exists None. split; [destruct fuel; reflexivity|].
      split; [apply psuf_0|]. cbn. split; [lia|].
      intros [|k] Hk HK; [lia|]. apply psuf_snoc in HK. destruct HK as [HK1 HK2].
      exfalso. destruct (Nat.eq_dec k 0) as [->|Hk0]; [congruence|]. apply (HI k); [lia|assumption..].
    + destruct (FS j) as (f & Ef & Hf1 & Hf2 & Hf3); [lia|]. rewrite Ef. cbn [bind].
      apply IH; [lia|lia|eapply psuf_trans; eassumption|].
      intros k Hk HK. destruct (Nat.lt_trichotomy k j) as [L|[->|L]].
      * exfalso. assert (k <= f)%nat; [|lia]. apply Hf3; [lia|]. eapply psuf_nested; [exact HK|exact HP|lia].
      * congruence.
      * apply HI; [lia|assumption].
Qed.

Lemma vec_set_spec {A} (l : list A) i x : (i < length l)%nat ->
  exists l', vec_set l i x = Ok l' /\ length l' = length l /\ nth_error l' i = Some x /\
    forall k, k <> i -> nth_error l' k = nth_error l k.
Proof.
  revert i. induction l as [|y l IH]; intros i H; [cbn in H; lia|].
  destruct i as [|i]; cbn [vec_set].
  - exists (x :: l). repeat split. intros [|k] Hk; [congruence|reflexivity].
  - destruct (IH i) as (l' & E & L & N1 & N2); [cbn in H; lia|]. rewrite E. cbn [bind].
    exists (y :: l'). split; [reflexivity|]. split; [cbn; congruence|]. split; [exact N1|].
    intros [|k] Hk; [reflexivity|]. cbn. apply N2. congruence.
Qed.

Lemma kmp_failure_loop_spec p : forall n failure i j,
  (i + n = length p)%nat -> fail_ok p failure i ->
  (j = None /\ i = 0%nat \/ exists f, j = Some f /\ (0 < i)%nat /\ fl p i f) ->
  exists failure', kmp_failure_loop n p failure i j = Ok failure' /\ fail_ok p failure' (length p).
Proof.
  induction n as [|n IH]; intros failure i j Hn HF Hj.
  - exists failure. split; [reflexivity|]. now replace (length p) with i by lia.
  - cbn [kmp_failure_loop]. unfold str_get at 1. destruct (nth_error p i) as [c|] eqn:C.
    2:{ apply nth_error_None in C. lia. }
    cbn [bind].
    assert (W : exists r, kmp_while (S (length p)) p failure c j = Ok r /\ step_result p (firstn i p) c i r).
    { destruct Hj as [[-> ->]|(f & -> & Hi & Hf)].
      - exists None. split; [reflexivity|]. split; [apply psuf_0|]. cbn. split; [lia|]. intros; lia.
      - destruct Hf as (Hf1 & Hf2 & Hf3). apply kmp_while_spec.
        + lia.
        + destruct HF as (H1 & H2 & H3). split; [assumption|]. split; [assumption|]. intros t Ht. apply H3. lia.
        + lia.
        + lia.
        + assumption.
        + intros k Hk HK. exfalso. apply Hf3 in HK; lia. }
    destruct W as (r & -> & HR). cbn [bind].
    assert (HFl : fl p (S i) (kincr r)).
    { unfold fl. rewrite (firstn_S_nth _ _ _ C). destruct HR as (R1 & R2 & R3).
      split; [lia|]. split; [assumption|]. intros k Hk HK. apply R3; [lia|assumption]. }
    destruct HF as (H1 & H2 & H3).
    destruct (vec_set_spec failure (S i) (Some (kincr r))) as (failure' & E & L & N1 & N2); [lia|].
    rewrite E. cbn [bind]. apply IH; [lia| |].
    + split; [congruence|]. split; [rewrite N2 by lia; assumption|].
      intros t Ht. destruct (Nat.eq_dec t (S i)) as [->|Ht'].
      * exists (kincr r). auto.
      * rewrite N2 by assumption. apply H3. lia.
    + right. exists (kincr r). split; [reflexivity|]. split; [lia|assumption].
Qed.

Lemma get_kmp_failure_vec_spec p : exists failure, get_kmp_failure_vec p = Ok failure /\ fail_ok p failure (length p).
Proof.
  unfold get_kmp_failure_vec. rewrite Nat.add_1_r. cbn [repeat vec_set bind].
  apply kmp_failure_loop_spec; [lia| |left; auto].
  split; [cbn; rewrite repeat_length; lia|]. split; [reflexivity|]. intros; lia.
Qed.

Definition matched (p w : list N) : Prop := exists i, psuf p (length p) (firstn i w).

Lemma matched_occurs p w : matched p w <-> occurs p w.
Proof.
  split.
  - intros (i & _ & a & E). rewrite firstn_all in E. exists a, (skipn i w).
    rewrite app_assoc, <- E. symmetry. apply firstn_skipn.
  - intros (a & b & ->). exists (length (a ++ p)). split; [lia|].
    exists a. rewrite app_assoc, firstn_app_l, firstn_all. reflexivity.
Qed.

Lemma kmp_loop_spec p failure : p <> [] -> fail_ok p failure (length p) ->
  forall text w j, (j < length p)%nat -> psuf p j w -> (forall k, psuf p k w -> (k <= j)%nat) ->
  (~ occurs p w) ->
  exists v, kmp_loop p failure text j = Ok v /\ (v = true <-> occurs p (w ++ text)).
Proof.
  intros Hp HF. induction text as [|c text IH]; intros w j Hj HP HM HO.
  - exists false. split; [reflexivity|]. rewrite app_nil_r. split; [discriminate|tauto].
  - cbn [kmp_loop].
    destruct (kmp_while_spec p failure w c (length p)) with (fuel := S (length p)) (j := j) as (r & Er & R1 & R2 & R3);
      [lia| |lia|lia|assumption| |].
    { destruct HF as (H1 & H2 & H3). split; [assumption|]. split; [assumption|]. intros t Ht. apply H3. lia. }
    { intros k Hk HK. apply HM in HK. lia. }
    rewrite Er. cbn [bind]. destruct (Nat.eqb_spec (kincr r) (length p)) as [E|E].
    + exists true. split; [reflexivity|]. split; [|reflexivity]. intros _.
      rewrite E in R1. destruct R1 as (_ & a & R1). rewrite firstn_all in R1. exists a, text.
      change (c :: text) with ([c] ++ text). rewrite app_assoc, R1, app_assoc. reflexivity.
    + destruct (IH (w ++ [c]) (kincr r)) as (v & Ev & HV); [lia|assumption| | |].
      * intros k HK. apply R3; [apply HK|assumption].
      * intros (a & b & Eab). destruct b as [|b0 b _] using rev_ind.
        -- rewrite app_nil_r in Eab. assert (HK : psuf p (length p) (w ++ [c])).
           { split; [lia|]. exists a. now rewrite firstn_all. }
           apply R3 in HK; lia.
        -- rewrite !app_assoc in Eab. apply app_inj_tail in Eab. destruct Eab as [Eab _].
           apply HO. exists a, b. now rewrite Eab, app_assoc.
      * exists v. rewrite <- app_assoc in HV. auto.
Qed.

Lemma kmp_spec p text : p <> [] -> exists v, kmp p text = Ok v /\ (v = true <-> occurs p text).
Proof.
  intros Hp. unfold kmp. destruct (get_kmp_failure_vec_spec p) as (failure & -> & HF). cbn [bind].
  assert (1 <= length p)%nat by (destruct p; [congruence|cbn; lia]).
  destruct (kmp_loop_spec p failure Hp HF text [] 0) as (v & E & HV); [lia|apply psuf_0| | |eauto].
  - intros k HK. apply psuf_length in HK. cbn in HK. lia.
  - intros (a & b & E). destruct a; [|discriminate]. destruct p; [congruence|discriminate].
Qed.

Lemma kmp_empty_pattern text :
  kmp [] text = match text with
                | [] => Ok false
                | c :: rest => if (c =? 0)%N then match rest with [] => Ok false | _ => UB end else Ok true
                end.
Proof.
  unfold kmp. cbn. destruct text as [|c rest]; [reflexivity|]. cbn [kmp_loop kmp_while length].
  unfold str_get. cbn [nth_error Nat.eqb length bind]. destruct (N.eqb_spec 0 c) as [<-|E].
  - cbn. destruct rest; reflexivity.
  - replace (c =? 0)%N with false by (symmetry; apply N.eqb_neq; congruence). cbn. reflexivity.
Qed.

Lemma kmp_decides p text : p <> [] ->
  (kmp p text = Ok true <-> occurs p text) /\ (kmp p text = Ok false <-> ~ occurs p text).
Proof.
  intros H. destruct (kmp_spec p text H) as (v & -> & HV). destruct v; split; split; intros.
  - now apply HV.
  - reflexivity.
  - discriminate.
  - exfalso. now apply H0, HV.
  - discriminate.
  - apply HV in H0. discriminate.
  - intros HO. apply HV in HO. discriminate.
  - reflexivity.
Qed.

Lemma kmp_safe p text : p <> [] -> exists v, kmp p text = Ok v.
Proof. intros H. destruct (kmp_spec p text H) as (v & E & _). eauto. Qed.

Lemma failure_safe p : exists failure, get_kmp_failure_vec p = Ok failure /\ length failure = S (length p).
Proof.
  destruct (get_kmp_failure_vec_spec p) as (f & E & L & _). exists f. split; [assumption|]. lia.
Qed.
