(** Proofs about UniquePtr. *)
From Coq Require Import List Arith Bool Permutation Lia.
From Verif Require Import Outcome UniquePtr.
Import ListNotations.

Lemma uset_same m x v : uset m x v x = v.
Proof. unfold uset. now rewrite Nat.eqb_refl. Qed.
Lemma uset_other m x v y : y <> x -> uset m x v y = m y.
Proof. intros N. unfold uset. now apply Nat.eqb_neq in N as ->. Qed.
Lemma has_true z L : existsb (Nat.eqb z) L = true <-> In z L.
Proof.
  rewrite existsb_exists. split.
  - intros (y & I & E). now apply Nat.eqb_eq in E as ->.
  - intros I. exists z. now rewrite Nat.eqb_refl.
Qed.
Lemma has_false z L : existsb (Nat.eqb z) L = false <-> ~ In z L.
Proof. rewrite <- has_true. now destruct (existsb (Nat.eqb z) L). Qed.

(** [uowns s x i]: variable x owns object i. *)
Definition uowns (s : ustate) (x i : nat) : Prop := uvars s x = Some (Some i).

Record uinv (L : list nat) (s : ustate) : Prop := {
  uv_scope : forall x, In x L <-> uvars s x <> None;
  uv_uniq : forall x y i, uowns s x i -> uowns s y i -> x = y;
  uv_own : forall x i, uowns s x i -> i < umade s /\ ~ In i (udeleted s);
  uv_dead : forall i, In i (udeleted s) -> i < umade s;
  uv_nodup : NoDup (udeleted s);
  uv_all : forall i, i < umade s -> In i (udeleted s) \/ exists x, uowns s x i }.

Lemma uinv0 : uinv [] ustate0.
Proof.
  constructor; cbn; try tauto; try (now constructor); try (intros; lia); try (unfold uowns; cbn; discriminate).
Qed.

Lemma nodup_snoc (l : list nat) i : NoDup l -> ~ In i l -> NoDup (l ++ [i]).
Proof. intros N H. apply (Permutation_NoDup (Permutation_cons_append l i)). now constructor. Qed.

Ltac cases_eq := repeat match goal with
  | H : context [Nat.eqb ?a ?b] |- _ => destruct (Nat.eqb_spec a b); subst
  | |- context [Nat.eqb ?a ?b] => destruct (Nat.eqb_spec a b); subst
  end.

(** The object let go of by an operation, if any. *)
Definition lets_go (s : ustate) (o : uop) : option nat :=
  match o with
  | UDestroy x | UReset x | UResetNew x => match uvars s x with Some p => p | None => None end
  | UMoveAssign x y => if Nat.eqb x y then None else match uvars s x with Some p => p | None => None end
  | _ => None
  end.

Lemma udelete_owned L s x p : uinv L s -> uvars s x = Some p ->
  udelete s p = Ok (UState (uvars s) (umade s) (udeleted s ++ match p with Some i => [i] | None => [] end)).
Proof.
  intros I V. destruct p as [i|]; cbn.
  - assert (H : ~ In i (udeleted s)) by (eapply uv_own; eassumption). apply has_false in H as ->. reflexivity.
  - rewrite app_nil_r. now destruct s.
Qed.

Definition del (p : option nat) : list nat := match p with Some i => [i] | None => [] end.

(** Dropping what [x] owns: [x] becomes null, or disappears. *)
Lemma drop_inv L s x p q : uinv L s -> uvars s x = Some p -> q = Some None \/ q = None ->
  uinv (match q with None => remove Nat.eq_dec x L | _ => L end) (UState (uset (uvars s) x q) (umade s) (udeleted s ++ del p)).
Proof.
  intros [SC UN OW DE ND AA] V Q.
  assert (ON : forall y j, uowns (UState (uset (uvars s) x q) (umade s) (udeleted s ++ del p)) y j <-> y <> x /\ uowns s y j).
  { intros y j. unfold uowns. cbn. destruct (Nat.eq_dec y x) as [->|N].
    - rewrite uset_same. split; [|tauto]. destruct Q; subst; discriminate.
    - rewrite uset_other by assumption. tauto. }
  constructor; cbn [umade udeleted].
  - intros y. cbn. destruct (Nat.eq_dec y x) as [->|N].
    + rewrite uset_same. destruct Q as [-> | ->].
      * split; [discriminate|]. intros _. apply SC. congruence.
      * split; [|congruence]. intros I. exfalso. revert I. apply remove_In.
    + rewrite uset_other by assumption. destruct Q as [-> | ->]; [apply SC|]. rewrite <- SC. split.
      * intros I. now apply in_remove in I.
      * intros I. now apply in_in_remove.
  - intros y z j. rewrite !ON. intros [_ A] [_ B]. eapply UN; eassumption.
  - intros y j. rewrite ON. intros [N H]. pose proof (OW _ _ H) as [H1 H2]. split; [assumption|].
    intros I. apply in_app_iff in I as [I|I]; [auto|]. destruct p as [i|]; [|destruct I]. destruct I as [<-|[]].
    apply N. eapply UN; [exact H|exact V].
  - intros j I. apply in_app_iff in I as [I|I]; [auto|]. destruct p as [i|]; [|destruct I]. destruct I as [<-|[]]. eapply OW. exact V.
  - destruct p as [i|]; cbn; [|now rewrite app_nil_r]. apply nodup_snoc; [assumption|]. eapply OW. exact V.
  - intros j Hj. destruct (AA j Hj) as [I|[y H]]; [left; apply in_app_iff; auto|].
    destruct (Nat.eq_dec y x) as [->|N].
    + left. apply in_app_iff. right. unfold uowns in H. rewrite V in H. injection H as ->. now left.
    + right. exists y. apply ON. auto.
Qed.

(** Giving a new object to a null or non-existing variable. *)
Lemma fill_inv L s x q : uinv L s -> uvars s x = q -> q = Some None \/ q = None ->
  uinv (match q with None => x :: L | _ => L end) (UState (uset (uvars s) x (Some (Some (umade s)))) (S (umade s)) (udeleted s)).
Proof.
  intros [SC UN OW DE ND AA] V Q.
  assert (ON : forall y j, uowns (UState (uset (uvars s) x (Some (Some (umade s)))) (S (umade s)) (udeleted s)) y j <->
    (y = x /\ j = umade s) \/ (y <> x /\ uowns s y j)).
  { intros y j. unfold uowns. cbn. destruct (Nat.eq_dec y x) as [->|N].
    - rewrite uset_same. split; [intros H; injection H as <-; auto|]. intros [[_ ->]|[C _]]; [reflexivity|contradiction].
    - rewrite uset_other by assumption. intuition. }
  constructor; cbn [umade udeleted].
  - intros y. cbn. destruct (Nat.eq_dec y x) as [->|N].
    + rewrite uset_same. split; [discriminate|]. intros _. destruct Q as [-> | ->]; [|now left]. apply SC. congruence.
    + rewrite uset_other by assumption. rewrite <- SC. destruct Q as [-> | ->]; [tauto|]. cbn. intuition congruence.
  - intros y z j. rewrite !ON. intros [[-> ->]|[Ny A]] [[-> B]|[Nz B]]; try reflexivity.
    + apply OW in B as [B _]. lia.
    + subst. apply OW in A as [A _]. lia.
    + eapply UN; eassumption.
  - intros y j. rewrite ON. intros [[-> ->]|[_ H]].
    + split; [lia|]. intros I. apply DE in I. lia.
    + apply OW in H as [H H']. split; [lia|assumption].
  - intros j I. apply DE in I. lia.
  - assumption.
  - intros j Hj. destruct (Nat.eq_dec j (umade s)) as [->|N].
    + right. exists x. apply ON. auto.
    + destruct (AA j ltac:(lia)) as [I|[y H]]; [auto|]. right. exists y. apply ON. right. split; [|assumption].
      intros ->. unfold uowns in H. destruct Q; congruence.
Qed.

(** Moving what [y] owns into a null or non-existing [x]. *)
Lemma move_inv L s x y p q : uinv L s -> x <> y -> uvars s x = q -> q = Some None \/ q = None -> uvars s y = Some p ->
  uinv (match q with None => x :: L | _ => L end) (UState (uset (uset (uvars s) x (Some p)) y (Some None)) (umade s) (udeleted s)).
Proof.
  intros [SC UN OW DE ND AA] XY V Q Vy.
  assert (ON : forall z j, uowns (UState (uset (uset (uvars s) x (Some p)) y (Some None)) (umade s) (udeleted s)) z j <->
    (z = x /\ uowns s y j) \/ (z <> x /\ z <> y /\ uowns s z j)).
  { intros z j. unfold uowns. cbn. destruct (Nat.eq_dec z y) as [->|Ny].
    - rewrite uset_same. split; [discriminate|]. intros [[C _]|(_ & C & _)]; congruence.
    - rewrite uset_other by assumption. destruct (Nat.eq_dec z x) as [->|Nx].
      + rewrite uset_same, Vy. intuition.
      + rewrite uset_other by assumption. intuition. }
  constructor; cbn [umade udeleted].
  - intros z. cbn. destruct (Nat.eq_dec z y) as [->|Ny].
    + rewrite uset_same. split; [discriminate|]. intros _. assert (In y L) by (apply SC; congruence).
      destruct Q as [-> | ->]; [assumption|now right].
    + rewrite uset_other by assumption. destruct (Nat.eq_dec z x) as [->|Nx].
      * rewrite uset_same. split; [discriminate|]. intros _. destruct Q as [-> | ->]; [|now left]. apply SC. congruence.
      * rewrite uset_other by assumption. rewrite <- SC. destruct Q as [-> | ->]; [tauto|]. cbn. intuition congruence.
  - intros a b j. rewrite !ON. intros [[-> A]|(N1 & N2 & A)] [[-> B]|(N3 & N4 & B)]; try reflexivity.
    + exfalso. apply N4. eapply UN; eassumption.
    + exfalso. apply N2. eapply UN; eassumption.
    + eapply UN; eassumption.
  - intros z j. rewrite ON. intros [[-> A]|(_ & _ & A)]; eapply OW; exact A.
  - assumption.
  - assumption.
  - intros j Hj. destruct (AA j Hj) as [I|[z H]]; [auto|]. right.
    destruct (Nat.eq_dec z y) as [->|Ny]; [exists x; apply ON; auto|].
    exists z. apply ON. right. split; [|auto]. intros ->. unfold uowns in H. destruct Q; congruence.
Qed.

Lemma uinv_ext L s m : (forall x, m x = uvars s x) -> uinv L s -> uinv L (UState m (umade s) (udeleted s)).
Proof.
  intros E [SC UN OW DE ND AA].
  assert (ON : forall y i, uowns (UState m (umade s) (udeleted s)) y i <-> uowns s y i).
  { intros. unfold uowns. cbn. now rewrite E. }
  constructor; cbn [umade udeleted]; try assumption.
  - intros x. cbn. now rewrite E.
  - intros x y i. rewrite !ON. apply UN.
  - intros x i. rewrite ON. apply OW.
  - intros i Hi. destruct (AA i Hi) as [|[x H]]; [auto|]. right. exists x. now apply ON.
Qed.

Lemma in_sc L s x : uinv L s -> existsb (Nat.eqb x) L = true -> exists p, uvars s x = Some p.
Proof. intros I H. apply has_true, (uv_scope _ _ I) in H. destruct (uvars s x); [eauto|contradiction]. Qed.
Lemma out_sc L s x : uinv L s -> existsb (Nat.eqb x) L = false -> uvars s x = None.
Proof. intros I H. apply has_false in H. destruct (uvars s x) eqn:V; [|reflexivity]. exfalso. apply H, (uv_scope _ _ I). congruence. Qed.

(** Every step of a legal program: defined, keeps the invariant, deletes exactly the object let go. *)
Lemma ustep_inv L o h L' s : uscope L (o :: h) = Some L' -> uinv L s ->
  exists s' L1, ustep s o = Ok s' /\ uinv L1 s' /\ uscope L1 h = Some L' /\
    udeleted s' = udeleted s ++ del (lets_go s o).
Proof.
  intros Sc I. destruct o as [x|x|x y|x|x y|x|x|x|x]; cbn [uscope] in Sc; cbn [ustep lets_go del].
  - destruct (existsb (Nat.eqb x) L) eqn:X; [discriminate|]. pose proof (out_sc L s x I X) as V. rewrite V, app_nil_r.
    eexists _, _. split; [reflexivity|]. split; [|split; [exact Sc|reflexivity]].
    destruct I as [SC UN OW DE ND AA].
    assert (ON : forall y j, uowns (UState (uset (uvars s) x (Some None)) (umade s) (udeleted s)) y j <-> uowns s y j).
    { intros y j. unfold uowns. cbn. unfold uset. destruct (Nat.eqb_spec y x) as [->|N]; [|tauto]. rewrite V. split; discriminate. }
    constructor; cbn [umade udeleted]; try assumption.
    + intros y. cbn. unfold uset. destruct (Nat.eqb_spec y x) as [->|N]; [split; [discriminate|auto]|].
      rewrite <- SC. intuition congruence.
    + intros y z j. rewrite !ON. apply UN.
    + intros y j. rewrite ON. apply OW.
    + intros j Hj. destruct (AA j Hj) as [|[y H]]; [auto|]. right. exists y. now apply ON.
  - destruct (existsb (Nat.eqb x) L) eqn:X; [discriminate|]. pose proof (out_sc L s x I X) as V. rewrite V, app_nil_r.
    eexists _, _. split; [reflexivity|]. split; [|split; [exact Sc|reflexivity]]. exact (fill_inv L s x None I V (or_intror eq_refl)).
  - destruct (existsb (Nat.eqb x) L) eqn:X; [discriminate|]. destruct (existsb (Nat.eqb y) L) eqn:Y; [|discriminate]. cbn in Sc.
    pose proof (out_sc L s x I X) as V. destruct (in_sc L s y I Y) as [p Vy]. rewrite V, Vy, app_nil_r.
    eexists _, _. split; [reflexivity|]. split; [|split; [exact Sc|reflexivity]].
    apply (move_inv L s x y p None I); auto. congruence.
  - destruct (existsb (Nat.eqb x) L) eqn:X; [|discriminate]. destruct (in_sc L s x I X) as [p V]. rewrite V.
    rewrite (udelete_owned L s x p I V). cbn. eexists _, _. split; [reflexivity|]. split; [|split; [exact Sc|reflexivity]].
    exact (drop_inv L s x p None I V (or_intror eq_refl)).
  - destruct (existsb (Nat.eqb x) L) eqn:X; [|discriminate]. destruct (existsb (Nat.eqb y) L) eqn:Y; [|discriminate]. cbn in Sc.
    destruct (in_sc L s x I X) as [p V]. destruct (in_sc L s y I Y) as [q Vy]. rewrite V, Vy.
    destruct (Nat.eqb_spec x y) as [E|N]; [rewrite app_nil_r; exists s, L; auto|].
    rewrite (udelete_owned L s x p I V). cbn. eexists _, _. split; [reflexivity|]. split; [|split; [exact Sc|reflexivity]].
    pose proof (drop_inv L s x p (Some None) I V (or_introl eq_refl)) as I1. cbn in I1.
    pose proof (move_inv L _ x y q (Some None) I1 N (uset_same _ _ _) (or_introl eq_refl)) as I2. cbn in I2.
    rewrite (uset_other _ x _ y) in I2 by congruence. specialize (I2 Vy). cbn in I2.
    eapply uinv_ext in I2; [exact I2|]. intros z. cbn. unfold uset. destruct (Nat.eqb z y), (Nat.eqb z x); reflexivity.
  - destruct (existsb (Nat.eqb x) L) eqn:X; [|discriminate]. destruct (in_sc L s x I X) as [p V]. rewrite V. unfold ureset.
    destruct p as [i|]; [|cbn; rewrite app_nil_r; exists s, L; auto].
    rewrite (udelete_owned L s x _ I V). cbn. eexists _, _. split; [reflexivity|]. split; [|split; [exact Sc|reflexivity]].
    exact (drop_inv L s x (Some i) (Some None) I V (or_introl eq_refl)).
  - destruct (existsb (Nat.eqb x) L) eqn:X; [|discriminate]. destruct (in_sc L s x I X) as [p V]. rewrite V. unfold ureset.
    pose proof (drop_inv L s x p (Some None) I V (or_introl eq_refl)) as I1. cbn in I1.
    pose proof (fill_inv L _ x (Some None) I1 (uset_same _ _ _) (or_introl eq_refl)) as I2. cbn in I2.
    assert (Ex : forall z, uset (uvars s) x (Some (Some (umade s))) z = uset (uset (uvars s) x (Some None)) x (Some (Some (umade s))) z).
    { intros z. unfold uset. now destruct (Nat.eqb z x). }
    destruct p as [i|].
    + assert (Hi : i < umade s /\ ~ In i (udeleted s)) by (eapply uv_own; eassumption).
      destruct (Nat.eqb_spec i (umade s)) as [E|N]; [lia|]. cbn. destruct Hi as [_ Hi]. apply has_false in Hi as ->. cbn.
      eexists _, _. split; [reflexivity|]. split; [|split; [exact Sc|reflexivity]].
      eapply uinv_ext in I2; [exact I2|exact Ex].
    + cbn. eexists _, _. split; [reflexivity|]. split; [|split; [exact Sc|cbn; now rewrite app_nil_r]].
      cbn in I2. rewrite app_nil_r in I2. eapply uinv_ext in I2; [exact I2|exact Ex].
  - destruct (existsb (Nat.eqb x) L) eqn:X; [|discriminate]. destruct (in_sc L s x I X) as [p V]. rewrite V, app_nil_r. unfold ureset.
    destruct p as [i|]; [rewrite Nat.eqb_refl|]; exists s, L; auto.
  - destruct (existsb (Nat.eqb x) L) eqn:X; [|discriminate]. destruct (in_sc L s x I X) as [p V]. rewrite V, app_nil_r.
    destruct p as [i|]; cbn; [|exists s, L; auto]. assert (Hi : ~ In i (udeleted s)) by (eapply uv_own; eassumption).
    apply has_false in Hi as ->. exists s, L; auto.
Qed.

Lemma uexec_inv h : forall L L' s, uscope L h = Some L' -> uinv L s -> exists s', uexec s h = Ok s' /\ uinv L' s'.
Proof.
  induction h as [|o h IH]; intros L L' s Sc I; [injection Sc as <-; exists s; split; [reflexivity|assumption]|].
  destruct (ustep_inv L o h L' s Sc I) as (s1 & L1 & E & I1 & Sc1 & _).
  destruct (IH L1 L' s1 Sc1 I1) as (s' & E' & I'). exists s'. cbn. rewrite E. auto.
Qed.

Lemma uscope_app h1 : forall L h2 L', uscope L (h1 ++ h2) = Some L' -> exists L1, uscope L h1 = Some L1 /\ uscope L1 h2 = Some L'.
Proof.
  induction h1 as [|o h1 IH]; intros L h2 L' H; [exists L; auto|].
  destruct o as [x|x|x y|x|x y|x|x|x|x]; cbn [app uscope] in *;
  repeat match goal with |- context [if ?b then _ else _] => destruct b end; try discriminate; now apply IH.
Qed.

Lemma unique_ownership h L : uscope [] h = Some L ->
  exists s, uexec ustate0 h = Ok s /\ NoDup (udeleted s) /\
    (forall i, i < umade s -> (In i (udeleted s) /\ (forall x, ~ uowns s x i)) \/
       (~ In i (udeleted s) /\ exists x, In x L /\ uowns s x i /\ forall y, uowns s y i -> y = x)) /\
    (forall i, In i (udeleted s) -> i < umade s) /\
    (L = [] -> Permutation (udeleted s) (seq 0 (umade s))).
Proof.
  intros Sc. destruct (uexec_inv h [] L ustate0 Sc uinv0) as (s & E & I). exists s. split; [assumption|].
  split; [apply (uv_nodup _ _ I)|]. split.
  - intros i Hi. destruct (uv_all _ _ I i Hi) as [D|[x H]].
    + left. split; [assumption|]. intros x H. now apply (uv_own _ _ I) in H.
    + right. split; [now apply (uv_own _ _ I) in H|]. exists x. split; [|split; [assumption|]].
      * apply (uv_scope _ _ I). unfold uowns in H. congruence.
      * intros y Hy. eapply (uv_uniq _ _ I); eassumption.
  - split; [apply (uv_dead _ _ I)|]. intros ->. apply NoDup_Permutation; [apply (uv_nodup _ _ I)|apply seq_NoDup|].
    intros i. rewrite in_seq. split.
    + intros D. apply (uv_dead _ _ I) in D. lia.
    + intros [_ Hi]. destruct (uv_all _ _ I i Hi) as [D|[x H]]; [assumption|]. exfalso.
      assert (In x []) by (apply (uv_scope _ _ I); unfold uowns in H; congruence). contradiction.
Qed.

Lemma unique_timing h o L : uscope [] (h ++ [o]) = Some L ->
  exists s s', uexec ustate0 h = Ok s /\ ustep s o = Ok s' /\ udeleted s' = udeleted s ++ del (lets_go s o).
Proof.
  intros Sc. apply uscope_app in Sc as (L1 & S1 & S2).
  destruct (uexec_inv h [] L1 ustate0 S1 uinv0) as (s & E & I).
  destruct (ustep_inv L1 o [] L s S2 I) as (s' & L2 & E' & _ & _ & D). eauto.
Qed.
