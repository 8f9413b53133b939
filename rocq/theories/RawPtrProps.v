(** Final theorems about Ptr: C116. *)
From Coq Require Import List Arith Bool Lia.
From Verif Require Import Outcome RawPtr.
Import ListNotations.

(** A program that neither copies a Ptr nor resets one to the pointer it holds. *)
Definition single_owner (o : pop) : Prop := match o with PCopy _ _ | PResetSame _ => False | _ => True end.
(** An operation that is meant to delete. *)
Definition deletes (o : pop) : Prop :=
  match o with PReset _ | PResetNew _ | PResetSame _ | PDestroy _ => True | _ => False end.

Record pinv (s : pstate) : Prop := {
  p_fresh : forall x i, pvars s x = Some i -> i < pmade s;
  p_distinct : forall x y i, pvars s x = Some i -> pvars s y = Some i -> x = y;
  p_alive : forall x i, pvars s x = Some i -> ~ In i (pdeleted s);
  p_made : forall i, In i (pdeleted s) -> i < pmade s;
  p_once : NoDup (pdeleted s) }.

Lemma not_deleted i l : ~ In i l -> existsb (Nat.eqb i) l = false.
Proof. intro H. apply not_true_is_false. intro E. apply existsb_exists in E as (j & I & E). apply Nat.eqb_eq in E. congruence. Qed.
Lemma nodup_snoc (l : list nat) i : NoDup l -> ~ In i l -> NoDup (l ++ [i]).
Proof. intros. apply NoDup_Add with (a := i) (l := l); [|now split]. rewrite <- (app_nil_r l) at 1. apply Add_app. Qed.

Lemma pinv0 : pinv pstate0.
Proof. split; cbn; try discriminate; try tauto. constructor. Qed.

Lemma pset_same m x v : pset m x v x = v.
Proof. unfold pset. now rewrite Nat.eqb_refl. Qed.
Lemma pset_cases m x v y i : pset m x v y = Some i -> (y = x /\ v = Some i) \/ (y <> x /\ m y = Some i).
Proof. unfold pset. destruct (Nat.eqb_spec y x); auto. Qed.

(** Putting null or a new object in a variable. *)
Lemma set_inv s x n (v : option nat) : pinv s -> pmade s <= n ->
  (v = None \/ (v = Some (pmade s) /\ pmade s < n)) -> pinv (PState (pset (pvars s) x v) n (pdeleted s)).
Proof.
  intros [F D A M O] L V. split; cbn.
  - intros y i H. apply pset_cases in H as [[-> E]|[_ E]].
    + destruct V as [->|[-> V]]; [discriminate|]. injection E as <-. assumption.
    + specialize (F _ _ E). lia.
  - intros y z i Hy Hz. apply pset_cases in Hy as [[-> Ey]|[Ny Ey]]; apply pset_cases in Hz as [[-> Ez]|[Nz Ez]]; auto.
    + destruct V as [->|[-> V]]; [discriminate|]. injection Ey as <-. specialize (F _ _ Ez). lia.
    + destruct V as [->|[-> V]]; [discriminate|]. injection Ez as <-. specialize (F _ _ Ey). lia.
    + eauto.
  - intros y i H. apply pset_cases in H as [[-> E]|[_ E]]; [|eauto].
    destruct V as [->|[-> V]]; [discriminate|]. injection E as <-. intro I. specialize (M _ I). lia.
  - intros i I. specialize (M _ I). lia.
  - assumption.
Qed.
Lemma pinv_ext m m' n d : (forall x, m' x = m x) -> pinv (PState m n d) -> pinv (PState m' n d).
Proof.
  intros E [F D A M O]. cbn in *. split; cbn; auto.
  - intros x i H. rewrite E in H. eauto.
  - intros x y i Hx Hy. rewrite E in Hx, Hy. eauto.
  - intros x i H. rewrite E in H. eauto.
Qed.
Lemma delete_inv s x : pinv s -> exists d, pdelete s (pvars s x) = Ok (PState (pvars s) (pmade s) d) /\
  pinv (PState (pset (pvars s) x None) (pmade s) d).
Proof.
  intros I. destruct (pvars s x) as [i|] eqn:E; cbn.
  - rewrite not_deleted by (eapply p_alive; eauto). eexists. split; [reflexivity|].
    destruct I as [F D A M O]. split; cbn.
    + intros y j H. apply pset_cases in H as [[-> K]|[_ K]]; [discriminate|eauto].
    + intros y z j Hy Hz. apply pset_cases in Hy as [[-> Ey]|[Ny Ey]]; [discriminate|].
      apply pset_cases in Hz as [[-> Ez]|[Nz Ez]]; [discriminate|eauto].
    + intros y j H. apply pset_cases in H as [[-> K]|[Ny K]]; [discriminate|].
      rewrite in_app_iff. intros [H|[->|[]]]; [eapply A; eauto|]. apply Ny. eauto.
    + intros j H. apply in_app_iff in H as [H|[->|[]]]; eauto.
    + apply nodup_snoc; eauto.
  - exists (pdeleted s). split; [now destruct s|]. apply set_inv; auto.
Qed.
Lemma pstep_inv s o : pinv s -> single_owner o -> exists s1, pstep s o = Ok s1 /\ pinv s1.
Proof.
  intros I H. destruct o as [x|x|x y|x|x|x|x|x]; try contradiction; cbn [pstep].
  - eexists. split; [reflexivity|]. apply set_inv; auto.
  - eexists. split; [reflexivity|]. apply set_inv; auto.
  - destruct (delete_inv s x I) as (d & E & J). unfold preset. rewrite E. cbn. eauto.
  - destruct (delete_inv s x I) as (d & E & J). unfold preset. cbn [pvars pmade pdeleted].
    assert (E' : pdelete (PState (pvars s) (S (pmade s)) (pdeleted s)) (pvars s x) = Ok (PState (pvars s) (S (pmade s)) d)).
    { revert E. destruct s as [m n d0]. cbn. destruct (m x) as [i|]; cbn; [destruct (existsb (Nat.eqb i) d0)|]; intro E; inversion E; reflexivity. }
    rewrite E'. cbn. eexists. split; [reflexivity|].
    pose proof (set_inv _ x (S (pmade s)) (Some (pmade s)) J) as K. cbn in K.
    eapply pinv_ext; [|apply K; auto]. intro y. cbn. unfold pset. now destruct (Nat.eqb y x).
  - destruct (delete_inv s x I) as (d & E & J). unfold pdestroy. rewrite E. cbn. eauto.
  - destruct (pvars s x) as [i|] eqn:E; cbn; [|eauto]. rewrite not_deleted by (eapply p_alive; eauto). eauto.
Qed.
Lemma pexec_inv h : forall s, pinv s -> Forall single_owner h -> exists s1, pexec s h = Ok s1 /\ pinv s1.
Proof.
  induction h as [|o h IH]; intros s I F; cbn; [eauto|]. inversion F; subst.
  destruct (pstep_inv s o I) as (s1 & E & I1); auto. rewrite E. cbn. auto.
Qed.

(** Without copies: no undefined behaviour, no object deleted twice. *)
Theorem C116_single_owner_partial : forall h, Forall single_owner h ->
  exists s, pexec pstate0 h = Ok s /\ NoDup (pdeleted s) /\ (forall x i, pvars s x = Some i -> ~ In i (pdeleted s)).
Proof. intros h F. destruct (pexec_inv h _ pinv0 F) as (s & E & I). exists s. repeat split; auto; apply I. Qed.
Print Assumptions C116_single_owner_partial.
Example C116_single_owner_case : Forall single_owner [PNew 0; PDeref 0; PResetNew 0; PNew 1; PDestroy 0; PDeref 0; PReset 1] /\
  exists m, pexec pstate0 [PNew 0; PDeref 0; PResetNew 0; PNew 1; PDestroy 0; PDeref 0; PReset 1] = Ok (PState m 3 [0; 1; 2]).
Proof. split; [repeat constructor|eexists; reflexivity]. Qed.
(** Copying, assigning and dropping a Ptr never delete; every deletion is one Reset or Destroy asked for. *)
Theorem C116_deletes_only_when_asked : forall h s s', pexec s h = Ok s' -> Forall (fun o => ~ deletes o) h ->
  pdeleted s' = pdeleted s.
Proof.
  induction h as [|o h IH]; intros s s' E F; cbn in E; [now inversion E|]. inversion F as [|? ? Ho Fh]; subst.
  destruct (pstep s o) as [s1| | |] eqn:Es; try discriminate. cbn in E. rewrite (IH s1 s' E Fh).
  destruct o as [x|x|x y|x|x|x|x|x]; cbn in Ho; try tauto; cbn in Es; try (inversion Es; subst; reflexivity).
  destruct (pvars s x); cbn in Es; [destruct (existsb _ _)|]; inversion Es; reflexivity.
Qed.
Print Assumptions C116_deletes_only_when_asked.
(** Dereferencing a null Ptr throws; the Ptr that was reset or destroyed is null. *)
Theorem C116_null_throws : forall s s' x, (pstep s (PReset x) = Ok s' \/ pstep s (PDestroy x) = Ok s') ->
  pvars s' x = None /\ pderef (pvars s' x) = Throw ERuntimeError /\
  (forall i, pvars s x = Some i -> pdeleted s' = pdeleted s ++ [i]).
Proof.
  intros s s' x H.
  assert (E : (s1 <- pdelete s (pvars s x) ;; Ok (PState (pset (pvars s1) x None) (pmade s1) (pdeleted s1))) = Ok s') by (destruct H; assumption).
  clear H. unfold pdelete in E. destruct (pvars s x) as [i|]; cbn in E; [destruct (existsb (Nat.eqb i) (pdeleted s))|];
    inversion E; subst; cbn; rewrite pset_same; repeat split; intros; congruence.
Qed.
Print Assumptions C116_null_throws.
Example C116_null_case : exists s s', pexec pstate0 [PNew 0] = Ok s /\ pstep s (PDestroy 0) = Ok s' /\ pdeleted s' = [0].
Proof. eexists. eexists. repeat split. Qed.
(** The other copies are not: using one is undefined, deleting through it deletes twice. *)
Theorem C116_copies_refuted :
  pexec pstate0 [PNew 0; PCopy 1 0; PDestroy 0; PDeref 1] = UB /\
  pexec pstate0 [PNew 0; PCopy 1 0; PReset 0; PDestroy 1] = UB.
Proof. split; reflexivity. Qed.
Print Assumptions C116_copies_refuted.
(** Reset(p.Get()) deletes the object and keeps the pointer to it: any later use is undefined. *)
Theorem C116_reset_same_refuted : forall s s' x i, pvars s x = Some i -> pstep s (PResetSame x) = Ok s' ->
  pvars s' x = Some i /\ In i (pdeleted s') /\ pstep s' (PDeref x) = UB /\ pstep s' (PDestroy x) = UB.
Proof.
  intros s s' x i E H. cbn in H. unfold preset in H. rewrite E in H. cbn in H.
  destruct (existsb (Nat.eqb i) (pdeleted s)); inversion H; subst. cbn. rewrite pset_same.
  assert (X : existsb (Nat.eqb i) (pdeleted s ++ [i]) = true)
    by (apply existsb_exists; exists i; split; [apply in_app_iff; right; now left|apply Nat.eqb_refl]).
  unfold pdestroy, pdelete. cbn. rewrite pset_same. rewrite X. repeat split. apply in_app_iff. right. now left.
Qed.
Print Assumptions C116_reset_same_refuted.
Example C116_reset_same_case : exists s s', pexec pstate0 [PNew 0] = Ok s /\ pvars s 0 = Some 0 /\ pstep s (PResetSame 0) = Ok s'.
Proof. eexists. eexists. repeat split. Qed.
