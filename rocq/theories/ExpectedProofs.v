(** Proofs about object lifetimes in Expected. *)
From Coq Require Import List Arith Bool Permutation Lia.
From Verif Require Import Outcome ExpectedLife.
Import ListNotations.

Lemma upd_same m x v : upd m x v x = v.
Proof. unfold upd. now rewrite Nat.eqb_refl. Qed.
Lemma upd_other m x v y : y <> x -> upd m x v y = m y.
Proof. intros N. unfold upd. now apply Nat.eqb_neq in N as ->. Qed.

(** [own s x i]: variable x holds object i. *)
Definition own (s : estate) (x i : nat) : Prop := exists v, vars s x = Some v /\ slot v = Some (i, has v).

Record inv (L : scope) (s : estate) : Prop := {
  iv_scope : forall x, In x L <-> vars s x <> None;
  iv_alive : forall x v, vars s x = Some v -> exists i, slot v = Some (i, has v);
  iv_uniq : forall x y i, own s x i -> own s y i -> x = y;
  iv_own : forall x i, own s x i -> i < made s /\ ~ In i (destroyed s);
  iv_dead : forall i, In i (destroyed s) -> i < made s;
  iv_nodup : NoDup (destroyed s);
  iv_all : forall i, i < made s -> In i (destroyed s) \/ exists x, own s x i }.

Lemma inv0 : inv [] estate0.
Proof.
  constructor; cbn; try tauto; try discriminate; try (now constructor); try (intros; lia).
  - intros x y i (v & H & _). discriminate.
  - intros x i (v & H & _). discriminate.
Qed.

Lemma construct_inv L s x k : inv L s -> ~ In x L ->
  inv (x :: L) (EState (upd (vars s) x (Some (EVar k (Some (made s, k))))) (S (made s)) (destroyed s)).
Proof.
  intros [SC AL UN OW DE ND AA] Nx.
  assert (ON : forall y i, own (EState (upd (vars s) x (Some (EVar k (Some (made s, k))))) (S (made s)) (destroyed s)) y i <->
    (y = x /\ i = made s) \/ (y <> x /\ own s y i)).
  { intros y i. unfold own. cbn. destruct (Nat.eq_dec y x) as [->|N].
    - rewrite upd_same. split; [intros (v & H & H'); injection H as <-; injection H' as <-; auto|].
      intros [[_ ->]|[C _]]; [eexists; split; reflexivity|contradiction].
    - rewrite upd_other by assumption. split; [auto|]. intros [[C _]|[_ H]]; [contradiction|assumption]. }
  constructor; cbn [made destroyed].
  - intros y. cbn. destruct (Nat.eq_dec y x) as [->|N].
    + rewrite upd_same. split; [discriminate|auto].
    + rewrite upd_other by assumption. rewrite <- SC. split; [intros [C|H]; [congruence|assumption]|auto].
  - intros y v. cbn. destruct (Nat.eq_dec y x) as [->|N]; [rewrite upd_same; intros H; injection H as <-; eexists; reflexivity|].
    rewrite upd_other by assumption. apply AL.
  - intros y z i. rewrite !ON. intros [[-> ->]|[Ny Hy]] [[-> Hi]|[Nz Hz]]; try reflexivity.
    + apply OW in Hz as [Hz _]. lia.
    + subst. apply OW in Hy as [Hy _]. lia.
    + eapply UN; eassumption.
  - intros y i. rewrite ON. intros [[-> ->]|[_ H]].
    + split; [lia|]. intros I. apply DE in I. lia.
    + apply OW in H as [H H']. split; [lia|assumption].
  - intros i I. apply DE in I. lia.
  - assumption.
  - intros i Hi. destruct (Nat.eq_dec i (made s)) as [->|N].
    + right. exists x. apply ON. auto.
    + destruct (AA i ltac:(lia)) as [I|[y H]]; [now left|]. right. exists y. apply ON. right. split; [|assumption].
      intros ->. destruct H as (v & H & _). apply Nx. apply SC. congruence.
Qed.

(** Destroying the object of [x] and removing the variable. *)
Lemma destroy_inv L s x v i : inv L s -> vars s x = Some v -> slot v = Some (i, has v) ->
  inv (remove Nat.eq_dec x L) (EState (upd (vars s) x None) (made s) (destroyed s ++ [i])).
Proof.
  intros [SC AL UN OW DE ND AA] V Sl.
  assert (OX : own s x i) by (exists v; auto).
  assert (ON : forall y j, own (EState (upd (vars s) x None) (made s) (destroyed s ++ [i])) y j <-> y <> x /\ own s y j).
  { intros y j. unfold own. cbn. destruct (Nat.eq_dec y x) as [->|N].
    - rewrite upd_same. split; [intros (? & H & _); discriminate|tauto].
    - rewrite upd_other by assumption. tauto. }
  constructor; cbn [made destroyed].
  - intros y. cbn. split.
    + intros I. apply in_remove in I as [I N]. rewrite upd_other by assumption. now apply SC.
    + intros H. destruct (Nat.eq_dec y x) as [->|N]; [rewrite upd_same in H; contradiction|].
      rewrite upd_other in H by assumption. apply in_in_remove; [assumption|now apply SC].
  - intros y w. cbn. destruct (Nat.eq_dec y x) as [->|N]; [rewrite upd_same; discriminate|].
    rewrite upd_other by assumption. apply AL.
  - intros y z j. rewrite !ON. intros [_ Hy] [_ Hz]. eapply UN; eassumption.
  - intros y j. rewrite ON. intros [N H]. pose proof (OW _ _ H) as [H1 H2]. split; [assumption|].
    intros I. apply in_app_iff in I as [I|[<-|[]]]; [auto|]. apply N. eapply UN; eassumption.
  - intros j I. apply in_app_iff in I as [I|[<-|[]]]; [auto|]. now apply OW in OX.
  - apply (Permutation_NoDup (Permutation_cons_append (destroyed s) i)).
    constructor; [|assumption]. now apply OW in OX.
  - intros j Hj. destruct (AA j Hj) as [I|[y H]]; [left; apply in_app_iff; auto|].
    destruct (Nat.eq_dec y x) as [->|N].
    + left. apply in_app_iff. right. left. destruct H as (w & H & H'). rewrite V in H. injection H as <-. congruence.
    + right. exists y. apply ON. auto.
Qed.

Lemma inv_weaken_scope L L' s : (forall x, In x L <-> In x L') -> inv L s -> inv L' s.
Proof. intros E [SC AL UN OW DE ND AA]. constructor; try assumption. intros x. now rewrite <- E. Qed.

Lemma inv_ext L s m : (forall x, m x = vars s x) -> inv L s -> inv L (EState m (made s) (destroyed s)).
Proof.
  intros E [SC AL UN OW DE ND AA].
  assert (ON : forall y i, own (EState m (made s) (destroyed s)) y i <-> own s y i).
  { intros. unfold own. cbn. rewrite E. reflexivity. }
  constructor; cbn; try assumption.
  - intros x. now rewrite E.
  - intros x v. rewrite E. apply AL.
  - intros x y i. rewrite !ON. apply UN.
  - intros x i. rewrite ON. apply OW.
  - intros i Hi. destruct (AA i Hi) as [|[x H]]; [auto|]. right. exists x. now apply ON.
Qed.

Lemma alive_inv L s x v : inv L s -> vars s x = Some v -> alive v = true.
Proof. intros I V. destruct (iv_alive _ _ I x v V) as [i Hi]. unfold alive. rewrite Hi. apply eqb_reflx. Qed.

Lemma in_scope L s x : inv L s -> In x L -> exists v i, vars s x = Some v /\ slot v = Some (i, has v).
Proof.
  intros I H. apply (iv_scope _ _ I) in H. destruct (vars s x) as [v|] eqn:V; [|contradiction].
  destruct (iv_alive _ _ I x v V) as [i Hi]. eauto.
Qed.
Lemma out_scope L s x : inv L s -> ~ In x L -> vars s x = None.
Proof. intros I H. destruct (vars s x) as [v|] eqn:V; [|reflexivity]. exfalso. apply H. apply (iv_scope _ _ I). congruence. Qed.

Lemma assign_inv L s x y vx vy : inv L s -> vars s x = Some vx -> vars s y = Some vy ->
  exists s', assign s x y vx vy false = Ok s' /\ inv L s'.
Proof.
  intros I Vx Vy. unfold assign. destruct (Nat.eqb_spec x y) as [->|N]; [eauto|].
  destruct (iv_alive _ _ I x vx Vx) as [i Hi]. unfold destroy_union. rewrite Hi, eqb_reflx. cbn [bind].
  rewrite (alive_inv L s y vy I Vy). cbn. eexists. split; [reflexivity|].
  pose proof (destroy_inv L s x vx i I Vx Hi) as I1.
  pose proof (construct_inv _ _ x (has vy) I1 ltac:(apply remove_In)) as I2. cbn in I2.
  assert (Lx : In x L) by (apply (iv_scope _ _ I); congruence).
  eapply inv_weaken_scope in I2.
  - eapply inv_ext in I2; [exact I2|]. intros z. cbn. unfold upd. now destruct (Nat.eqb z x).
  - intros z. cbn. split.
    + intros [<-|H]; [assumption|]. now apply in_remove in H.
    + intros H. destruct (Nat.eq_dec x z) as [|Nz]; [now left|]. right. apply in_in_remove; congruence.
Qed.

Lemma step_inv L o h L' s : legal L (o :: h) L' -> inv L s -> bad_assignment o = false ->
  exists s' L1, estep s o = Ok s' /\ inv L1 s' /\ legal L1 h L'.
Proof.
  intros Lg I B. inversion Lg; subst; cbn [estep].
  - rewrite (out_scope L s x I) by assumption. eexists _, _. split; [reflexivity|]. split; [|eassumption]. now apply construct_inv.
  - rewrite (out_scope L s x I) by assumption. eexists _, _. split; [reflexivity|]. split; eassumption.
  - rewrite (out_scope L s x I) by assumption. destruct (in_scope L s y I) as (v & i & V & _); [assumption|].
    rewrite V, (alive_inv L s y v I V). eexists _, _. split; [reflexivity|]. split; [|eassumption]. now apply construct_inv.
  - rewrite (out_scope L s x I) by assumption. destruct (in_scope L s y I) as (v & i & V & _); [assumption|].
    rewrite V, (alive_inv L s y v I V). eexists _, _. split; [reflexivity|]. split; eassumption.
  - rewrite (out_scope L s x I) by assumption. destruct (in_scope L s y I) as (v & i & V & _); [assumption|].
    rewrite V, (alive_inv L s y v I V). eexists _, _. split; [reflexivity|]. split; [|eassumption]. now apply construct_inv.
  - rewrite (out_scope L s x I) by assumption. destruct (in_scope L s y I) as (v & i & V & _); [assumption|].
    rewrite V, (alive_inv L s y v I V). eexists _, _. split; [reflexivity|]. split; eassumption.
  - destruct (in_scope L s x I) as (vx & i & Vx & _); [assumption|]. destruct (in_scope L s y I) as (vy & j & Vy & _); [assumption|].
    rewrite Vx, Vy. destruct t.
    + cbn in B. apply negb_false_iff in B. unfold assign. rewrite B. eauto.
    + destruct (assign_inv L s x y vx vy I Vx Vy) as (s' & E & I'). eauto.
  - destruct (in_scope L s x I) as (vx & i & Vx & _); [assumption|]. destruct (in_scope L s y I) as (vy & j & Vy & _); [assumption|].
    rewrite Vx, Vy. destruct t.
    + cbn in B. apply negb_false_iff in B. unfold assign. rewrite B. eauto.
    + destruct (assign_inv L s x y vx vy I Vx Vy) as (s' & E & I'). eauto.
  - destruct (in_scope L s x I) as (vx & i & Vx & Hi); [assumption|]. rewrite Vx. unfold destroy_union. rewrite Hi, eqb_reflx.
    cbn. eexists _, _. split; [reflexivity|]. split; [|eassumption].
    pose proof (destroy_inv L s x vx i I Vx Hi) as I1.
    eapply inv_ext in I1; [exact I1|]. intros z. cbn. unfold upd. now destruct (Nat.eqb z x).
  - destruct (in_scope L s x I) as (vx & i & Vx & _); [assumption|]. rewrite Vx, (alive_inv L s x vx I Vx). eauto.
Qed.

Lemma exec_inv h : forall L L' s, legal L h L' -> inv L s -> forallb (fun o => negb (bad_assignment o)) h = true ->
  exists s', eexec s h = Ok s' /\ inv L' s'.
Proof.
  induction h as [|o h IH]; intros L L' s Lg I B.
  - inversion Lg; subst. exists s. split; [reflexivity|assumption].
  - cbn in B. apply andb_true_iff in B as [B1 B2]. apply negb_true_iff in B1.
    destruct (step_inv L o h L' s Lg I B1) as (s1 & L1 & E & I1 & Lg1).
    destruct (IH L1 L' s1 Lg1 I1 B2) as (s' & E' & I'). exists s'. cbn. rewrite E. cbn. auto.
Qed.

(** The claim: at any point of such a history no object is destroyed twice, destroyed objects are
    not held, and every object is destroyed or held by exactly one variable. *)
Lemma lifetimes h L : legal [] h L -> forallb (fun o => negb (bad_assignment o)) h = true ->
  exists s, eexec estate0 h = Ok s /\ NoDup (destroyed s) /\
    (forall i, i < made s -> (In i (destroyed s) /\ (forall x, ~ own s x i)) \/
       (~ In i (destroyed s) /\ exists x, In x L /\ own s x i /\ forall y, own s y i -> y = x)) /\
    (L = [] -> Permutation (destroyed s) (seq 0 (made s))).
Proof.
  intros Lg B. destruct (exec_inv h [] L estate0 Lg inv0 B) as (s & E & I). exists s. split; [assumption|].
  split; [apply (iv_nodup _ _ I)|]. split.
  - intros i Hi. destruct (iv_all _ _ I i Hi) as [D|[x H]].
    + left. split; [assumption|]. intros x H. now apply (iv_own _ _ I) in H.
    + right. split; [now apply (iv_own _ _ I) in H|]. exists x. split; [|split; [assumption|]].
      * apply (iv_scope _ _ I). destruct H as (v & H & _). congruence.
      * intros y Hy. eapply (iv_uniq _ _ I); eassumption.
  - intros ->. apply NoDup_Permutation; [apply (iv_nodup _ _ I)|apply seq_NoDup|].
    intros i. rewrite in_seq. split.
    + intros D. apply (iv_dead _ _ I) in D. lia.
    + intros [_ Hi]. destruct (iv_all _ _ I i Hi) as [D|[x H]]; [assumption|]. exfalso.
      destruct H as (v & H & _). assert (In x []) by (apply (iv_scope _ _ I); congruence). contradiction.
Qed.

(** A variable whose union holds nothing. *)
Definition hollow (s : estate) (x : nat) : Prop := exists h, vars s x = Some (EVar h None).

Lemma hollow_stays o s s' x : estep s o = Ok s' -> hollow s x -> hollow s' x.
Proof.
  intros E (hx & Vx). destruct o as [z v t|z y t|z y t|z y t|z y t|z|z]; cbn in E.
  - destruct (vars s z) eqn:V; [discriminate|]. assert (x <> z) by congruence. destruct t; injection E as <-; exists hx; cbn; [assumption|].
    now rewrite upd_other.
  - destruct (vars s z) eqn:V; [discriminate|]. assert (x <> z) by congruence. destruct (vars s y) as [vy|]; [|discriminate].
    destruct (alive vy); [|discriminate]. destruct t; injection E as <-; exists hx; cbn; [assumption|]. now rewrite upd_other.
  - destruct (vars s z) eqn:V; [discriminate|]. assert (x <> z) by congruence. destruct (vars s y) as [vy|]; [|discriminate].
    destruct (alive vy); [|discriminate]. destruct t; injection E as <-; exists hx; cbn; [assumption|]. now rewrite upd_other.
  - destruct (vars s z) as [vz|] eqn:V; [|discriminate]. destruct (vars s y) as [vy|] eqn:Vy; [|discriminate].
    unfold assign in E. destruct (Nat.eqb z y); [injection E as <-; exists hx; assumption|].
    unfold destroy_union in E. destruct (slot vz) as [[i k]|] eqn:Sz; [|discriminate].
    destruct (Bool.eqb k (has vz)); [|discriminate]. cbn in E.
    destruct (alive vy); [|discriminate].
    assert (x <> z) by (intros ->; rewrite V in Vx; injection Vx as ->; discriminate).
    destruct t; injection E as <-; exists hx; cbn; rewrite !upd_other by assumption; assumption.
  - destruct (vars s z) as [vz|] eqn:V; [|discriminate]. destruct (vars s y) as [vy|] eqn:Vy; [|discriminate].
    unfold assign in E. destruct (Nat.eqb z y); [injection E as <-; exists hx; assumption|].
    unfold destroy_union in E. destruct (slot vz) as [[i k]|] eqn:Sz; [|discriminate].
    destruct (Bool.eqb k (has vz)); [|discriminate]. cbn in E.
    destruct (alive vy); [|discriminate].
    assert (x <> z) by (intros ->; rewrite V in Vx; injection Vx as ->; discriminate).
    destruct t; injection E as <-; exists hx; cbn; rewrite !upd_other by assumption; assumption.
  - destruct (vars s z) as [vz|] eqn:V; [|discriminate]. unfold destroy_union in E.
    destruct (slot vz) as [[i k]|] eqn:Sz; [|discriminate]. destruct (Bool.eqb k (has vz)); [|discriminate]. cbn in E. injection E as <-.
    assert (x <> z) by (intros ->; rewrite V in Vx; injection Vx as ->; discriminate).
    exists hx. cbn. rewrite !upd_other by assumption. assumption.
  - destruct (vars s z) as [vz|]; [|discriminate]. destruct (alive vz); [|discriminate]. injection E as <-. exists hx. assumption.
Qed.

Lemma bad_hollow s o s' : bad_assignment o = true -> estep s o = Ok s' -> exists x, hollow s' x /\ vars s x <> None.
Proof.
  intros B E. destruct o as [z v t|z y t|z y t|z y [|]|z y [|]|z|z]; try discriminate B; cbn in B; apply negb_true_iff in B; cbn in E;
  (destruct (vars s z) as [vz|] eqn:V; [|discriminate]; destruct (vars s y) as [vy|] eqn:Vy; [|discriminate];
   unfold assign in E; rewrite B in E; unfold destroy_union in E; destruct (slot vz) as [[i k]|]; [|discriminate];
   destruct (Bool.eqb k (has vz)); [|discriminate]; cbn in E; destruct (alive vy); [|discriminate]; injection E as <-;
   exists z; split; [exists (has vy); cbn; apply upd_same|congruence]).
Qed.

(** No exception or fuel outcome: a history ends Ok or UB. *)
Lemma step_ok_or_ub s o : (exists s', estep s o = Ok s') \/ estep s o = UB.
Proof.
  assert (C : forall s x v t, exists s', construct s x v t = Ok s') by (intros ? ? ? []; unfold construct; eauto).
  assert (D : forall s x v, (exists s', destroy_union s x v = Ok s') \/ destroy_union s x v = UB).
  { intros s0 x v. unfold destroy_union. destruct (slot v) as [[i k]|]; [|auto]. destruct (Bool.eqb k (has v)); eauto. }
  assert (A : forall s x y vx vy t, (exists s', assign s x y vx vy t = Ok s') \/ assign s x y vx vy t = UB).
  { intros s0 x y vx vy t. unfold assign. destruct (Nat.eqb x y); [eauto|].
    destruct (D s0 x vx) as [[s1 ->]| ->]; [|auto]. cbn. destruct (alive vy); [|auto]. destruct t; eauto. }
  destruct o as [z v t|z y t|z y t|z y t|z y t|z|z]; cbn [estep].
  - destruct (vars s z); [auto|]. left. apply C.
  - destruct (vars s z); [auto|]. destruct (vars s y) as [e|]; [|auto]. destruct (alive e); [left; apply C|auto].
  - destruct (vars s z); [auto|]. destruct (vars s y) as [e|]; [|auto]. destruct (alive e); [left; apply C|auto].
  - destruct (vars s z); [|auto]. destruct (vars s y); [|auto]. apply A.
  - destruct (vars s z); [|auto]. destruct (vars s y); [|auto]. apply A.
  - destruct (vars s z) as [e|]; [|auto]. destruct (D s z e) as [[s1 ->]| ->]; cbn; eauto.
  - destruct (vars s z) as [e|]; [|auto]. destruct (alive e); eauto.
Qed.

(** A legal history that has ended (all variables destroyed) is undefined exactly when some
    assignment between different variables threw. *)
Lemma complete_history h : legal [] h [] ->
  (eexec estate0 h = UB <-> existsb bad_assignment h = true) /\
  (existsb bad_assignment h = false -> exists s, eexec estate0 h = Ok s /\ Permutation (destroyed s) (seq 0 (made s))).
Proof.
  intros Lg.
  assert (OKs : existsb bad_assignment h = false -> exists s, eexec estate0 h = Ok s /\ Permutation (destroyed s) (seq 0 (made s))).
  { intros B. assert (forallb (fun o => negb (bad_assignment o)) h = true) as B'.
    { clear - B. induction h as [|o h IH]; [reflexivity|]. cbn in *. apply orb_false_iff in B as [-> B]. now apply IH. }
    destruct (lifetimes h [] Lg B') as (s & E & _ & _ & P). exists s. auto. }
  split; [|assumption]. split.
  - intros U. destruct (existsb bad_assignment h) eqn:B; [reflexivity|]. destruct (OKs eq_refl) as (s & E & _). congruence.
  - intros B.
    assert (G : forall h L s, legal L h [] -> inv L s -> existsb bad_assignment h = true -> eexec s h = UB).
    { clear. induction h as [|o h IH]; intros L s Lg I B; [discriminate|]. cbn in B.
      destruct (bad_assignment o) eqn:Bo.
      - cbn. destruct (step_ok_or_ub s o) as [[s1 E]| ->]; [|reflexivity]. rewrite E. cbn.
        destruct (bad_hollow s o s1 Bo E) as (x & Hx & Vx). apply (iv_scope _ _ I) in Vx.
        assert (Lg1 : legal L h []) by (destruct o as [z v t|z y t|z y t|z y t|z y t|z|z]; try discriminate Bo; inversion Lg; subst; assumption).
        clear E. revert s1 Hx Lg1 Vx. generalize L. clear. induction h as [|o h IH]; intros L s Hx Lg Vx.
        + inversion Lg; subst. contradiction.
        + cbn. destruct (step_ok_or_ub s o) as [[s1 E]| ->]; [|reflexivity]. rewrite E. cbn.
          pose proof (hollow_stays _ _ _ _ E Hx) as H1.
          inversion Lg; subst; try (eapply IH; [eassumption|eassumption|cbn; auto]).
          apply in_in_remove; [|assumption].
          intros ->. cbn in E. destruct Hx as (hx & V). rewrite V in E. discriminate.
      - cbn in B. destruct (step_inv L o h [] s Lg I Bo) as (s1 & L1 & E & I1 & Lg1). cbn. rewrite E. cbn. eapply IH; eassumption. }
    apply (G h [] estate0 Lg inv0 B).
Qed.

(** [legal] is decided by computation. *)
Fixpoint legal_run (L : scope) (h : list eop) : option scope :=
  let has z := existsb (Nat.eqb z) L in
  match h with
  | [] => Some L
  | ENew x _ t :: r => if has x then None else legal_run (if t then L else x :: L) r
  | ECopy x y t :: r | EMove x y t :: r => if negb (has x) && has y then legal_run (if t then L else x :: L) r else None
  | EAssign x y _ :: r | EMoveAssign x y _ :: r => if has x && has y then legal_run L r else None
  | EDestroy x :: r => if has x then legal_run (remove Nat.eq_dec x L) r else None
  | EUse x :: r => if has x then legal_run L r else None
  end.
Lemma legal_run_sound h : forall L L', legal_run L h = Some L' -> legal L h L'.
Proof.
  assert (HI : forall z L, existsb (Nat.eqb z) L = true -> In z L).
  { intros z L H. apply existsb_exists in H as (y & I & E). now apply Nat.eqb_eq in E as ->. }
  assert (HN : forall z L, existsb (Nat.eqb z) L = false -> ~ In z L).
  { intros z L H I. enough (existsb (Nat.eqb z) L = true) by congruence. apply existsb_exists. exists z. now rewrite Nat.eqb_refl. }
  induction h as [|o h IH]; intros L L' H; [injection H as <-; constructor|].
  destruct o as [x v t|x y t|x y t|x y t|x y t|x|x]; cbn in H.
  - destruct (existsb (Nat.eqb x) L) eqn:X; [discriminate|]. apply HN in X. destruct t; constructor; auto.
  - destruct (existsb (Nat.eqb x) L) eqn:X; [discriminate|]. destruct (existsb (Nat.eqb y) L) eqn:Y; [|discriminate]. destruct t; constructor; auto.
  - destruct (existsb (Nat.eqb x) L) eqn:X; [discriminate|]. destruct (existsb (Nat.eqb y) L) eqn:Y; [|discriminate]. destruct t; constructor; auto.
  - destruct (existsb (Nat.eqb x) L) eqn:X; [|discriminate]. destruct (existsb (Nat.eqb y) L) eqn:Y; [|discriminate]. constructor; auto.
  - destruct (existsb (Nat.eqb x) L) eqn:X; [|discriminate]. destruct (existsb (Nat.eqb y) L) eqn:Y; [|discriminate]. constructor; auto.
  - destruct (existsb (Nat.eqb x) L) eqn:X; [|discriminate]. constructor; auto.
  - destruct (existsb (Nat.eqb x) L) eqn:X; [|discriminate]. constructor; auto.
Qed.
