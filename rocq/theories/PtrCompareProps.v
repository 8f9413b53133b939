(** Property C141: comparing pointers. *)
From Coq Require Import List NArith Arith Bool Lia.
From Verif Require Import Outcome UniquePtr UniquePtrProofs SharedPtr SharedPtrProofs RawPtr RawPtrProps PtrCompare.
Import ListNotations.

(** What the four operators should say: [e] whether the pointers are the same, [n] whether the first is null. *)
Definition says (r : outcome compared) (e n : Prop) : Prop :=
  exists c, r = Ok c /\ (is_eq c = true <-> e) /\ (is_ne c = true <-> ~ e) /\ (is_null c = true <-> n) /\ (not_null c = true <-> ~ n).
(** The variable gives the object [i] when dereferenced; it throws. *)
Definition ugives (s : ustate) (x i : nat) : Prop := exists p, uvars s x = Some p /\ uderef p = Ok i.
Definition uthrows (s : ustate) (x : nat) : Prop := exists p, uvars s x = Some p /\ uderef p = Throw ERuntimeError.
Definition sgives (s : sstate) (x i : nat) : Prop := exists p, svars s x = Some p /\ deref p = Ok i.
Definition sthrows (s : sstate) (x : nat) : Prop := exists p, svars s x = Some p /\ deref p = Throw ERuntimeError.

Lemma values_say d p q : readable d p = true -> readable d q = true ->
  says (compare_values d p q) (p = q) (p = None).
Proof.
  intros P Q. unfold compare_values. rewrite P, Q. eexists. split; [reflexivity|]. cbn [is_eq is_ne is_null not_null].
  destruct p as [i|], q as [j|]; cbn; rewrite ?negb_true_iff, ?Nat.eqb_eq, ?Nat.eqb_neq;
    intuition (try congruence; try discriminate).
Qed.
Lemma says_iff r e n e' n' : says r e n -> (e <-> e') -> (n <-> n') -> says r e' n'.
Proof. intros (c & E & A & B & C & D) H K. exists c. split; [assumption|]. tauto. Qed.

(** UniquePtr: two UniquePtrs are equal only if both are null; in every history. *)
Theorem C141_unique : forall h L x y, uscope [] h = Some L -> In x L -> In y L ->
  exists s, uexec ustate0 h = Ok s /\ says (ucompare s x y) (x = y \/ (uthrows s x /\ uthrows s y)) (uthrows s x).
Proof.
  intros h L x y Sc X Y. destruct (uexec_inv h [] L ustate0 Sc uinv0) as (s & E & I). exists s. split; [exact E|].
  destruct (in_sc L s x I) as (p & P); [now apply has_true|]. destruct (in_sc L s y I) as (q & Q); [now apply has_true|].
  destruct (unique_ownership h L Sc) as (s' & E' & _ & O & D & _). rewrite E in E'. injection E' as <-.
  assert (R : forall z v, uvars s z = Some v -> readable (udeleted s) v = true).
  { intros z [i|] V; cbn; [|reflexivity]. rewrite negb_true_iff. apply has_false. intro B.
    destruct (O i (D i B)) as [(_ & N)|(N & _)]; [exact (N z V)|exact (N B)]. }
  unfold ucompare. rewrite P, Q. eapply says_iff; [apply values_say; eauto| |].
  - split.
    + intros <-. destruct p as [i|].
      * left. assert (~ In i (udeleted s)) as N by (specialize (R x _ P); cbn in R; now rewrite negb_true_iff, has_false in R).
        assert (i < umade s) as M by (exact (proj1 (uv_own _ _ I x i P))).
        destruct (O i M) as [(B & _)|(_ & z & _ & _ & U)]; [contradiction|]. rewrite (U x P). symmetry. exact (U y Q).
      * right. split; exists None; auto.
    + intros [->|((p' & P' & A) & (q' & Q' & B))]; [congruence|].
      rewrite P in P'. rewrite Q in Q'. injection P' as <-. injection Q' as <-. destruct p; [discriminate|]. destruct q; [discriminate|]. reflexivity.
  - split; [intros ->; exists None; auto|]. intros (p' & P' & A). rewrite P in P'. injection P' as <-. destruct p; [discriminate|reflexivity].
Qed.
Print Assumptions C141_unique.

(** SharedPtr and WeakPtr: under every history and schedule two are equal exactly if both give the
    same object or both throw. *)
Lemma shared_says s x y p q : sdel s = [] -> svars s x = Some p -> svars s y = Some q ->
  says (scompare s x y) ((exists i, sgives s x i /\ sgives s y i) \/ (sthrows s x /\ sthrows s y)) (sthrows s x).
Proof.
  intros D P Q. unfold scompare. rewrite P, Q, D.
  assert (R : forall v, readable [] v = true) by (intros [v|]; reflexivity).
  eapply says_iff; [apply values_say; apply R| |].
  - split.
    + intros <-. destruct p as [i|]; [left; exists i; split; exists (Some i); auto|right; split; exists None; auto].
    + intros [(i & (p' & P' & A) & (q' & Q' & B))|((p' & P' & A) & (q' & Q' & B))];
        rewrite P in P'; rewrite Q in Q'; injection P' as <-; injection Q' as <-; destruct p, q; cbn in *; congruence.
  - split; [intros ->; exists None; auto|]. intros (p' & P' & A). rewrite P in P'. injection P' as <-. destruct p; [discriminate|reflexivity].
Qed.
Theorem C141_shared : forall es s x y, sexec sstate0 es = Some (Ok s) -> exists_ s x = true -> exists_ s y = true ->
  says (scompare s x y) ((exists i, sgives s x i /\ sgives s y i) \/ (sthrows s x /\ sthrows s y)) (sthrows s x) /\
  says (wcompare s x y) ((exists i, sgives s x i /\ sgives s y i) \/ (sthrows s x /\ sthrows s y)) (expired s x = true).
Proof.
  intros es s x y H X Y. apply exists_true in X as (p & P). apply exists_true in Y as (q & Q).
  pose proof (never_deleted es s H) as (D & _). pose proof (shared_says s x y p q D P Q) as S. split; [exact S|].
  replace (wcompare s x y) with (scompare s x y) by reflexivity.
  eapply says_iff; [exact S|tauto|]. unfold expired. split.
  - intros (p' & P' & A). rewrite P in *. injection P' as <-. destruct p; [discriminate|reflexivity].
  - rewrite P. destruct p; [discriminate|]. intros _. exists None. auto.
Qed.
Print Assumptions C141_shared.

Lemma sexec_app_ok es es' : forall s0 s, sexec s0 es = Some (Ok s) -> sexec s0 (es ++ es') = sexec s es'.
Proof.
  induction es as [|e es IH]; intros s0 s H; cbn [sexec app] in *; [now injection H as ->|].
  destruct (allowed s0 e); [|discriminate]. destruct (sstep s0 e); try discriminate. now apply IH.
Qed.
(** A new pointer differs from all others, a finished copy equals its source, and pointers stay equal
    or different until a call writes one of them. *)
Theorem C141_new : forall es s s' x y, sexec sstate0 es = Some (Ok s) -> sexec s [EStart (SNew x)] = Some (Ok s') ->
  exists_ s' y = true -> says (scompare s' x y) (x = y) False.
Proof.
  intros es s s' x y H E Y.
  assert (H' := sexec_app_ok _ [EStart (SNew x)] _ _ H). rewrite E in H'. pose proof (never_deleted _ _ H') as (D & _).
  assert (I : inv s). { destruct (sexec_inv es sstate0 (Ok s) inv0 H) as [(s1 & E1 & I1)|(E1 & _)]; [|discriminate]. now injection E1 as <-. }
  assert (F : forall z o, svars s z = Some (Some o) -> o < smade s).
  { intros z o Z. destruct I as [V _ _]. destruct V; eauto. }
  cbn [sexec] in E. destruct (allowed s (EStart (SNew x))) eqn:A; [|discriminate]. cbn in E. injection E as <-.
  unfold exists_, scompare in *. cbn [svars set_pend sdel] in *. rewrite fset_same. cbn [sdel] in D. rewrite D in *.
  assert (R : forall v, readable [] v = true) by (intros [v|]; reflexivity).
  destruct (Nat.eq_dec y x) as [->|N].
  - rewrite fset_same. eapply says_iff; [apply values_say; apply R|tauto|]. split; [discriminate|tauto].
  - rewrite fset_other in * by assumption. destruct (svars s y) as [q|] eqn:Q; [|discriminate].
    eapply says_iff; [apply values_say; apply R| |].
    + split; [|congruence]. intros <-. specialize (F y _ Q). lia.
    + split; [discriminate|tauto].
Qed.
Print Assumptions C141_new.
Theorem C141_stable : forall es s e s' x y, sexec sstate0 es = Some (Ok s) -> sexec s [e] = Some (Ok s') ->
  (forall o, call_of s e = Some o -> ~ In x (writes o) /\ ~ In y (writes o)) -> scompare s' x y = scompare s x y.
Proof.
  intros es s e s' x y H E W. unfold scompare.
  rewrite (frame es s e s' x H E), (frame es s e s' y H E) by (intros o C; apply (W o C)).
  assert (A := sexec_app_ok es [e] sstate0 s H). rewrite E in A.
  pose proof (never_deleted _ _ A) as (-> & _). pose proof (never_deleted _ _ H) as (-> & _). reflexivity.
Qed.
Print Assumptions C141_stable.
(** Copying or assigning, with whatever other calls in progress. *)
Theorem C141_copy : forall es s s' x y n, sexec sstate0 es = Some (Ok s) -> n = length (pend s) ->
  sexec s [EStart (SCopy x y); ERun n] = Some (Ok s') \/
  (x <> y /\ sexec s [EStart (SAssign x y); ERun n; ERun n] = Some (Ok s')) ->
  says (scompare s' x y) True (sthrows s y) /\ svars s' y = svars s y /\ pend s' = pend s.
Proof.
  intros es s s' x y n H -> E. pose proof (never_deleted es s H) as (D & D').
  assert (R : forall v, readable [] v = true) by (intros [v|]; reflexivity).
  assert (G : forall s1 p, svars s y = Some p -> svars s1 x = Some p -> svars s1 y = Some p -> sdel s1 = [] ->
    says (scompare s1 x y) True (sthrows s y)).
  { intros s1 p P X Y D1. unfold scompare. rewrite X, Y, D1. eapply says_iff; [apply values_say; apply R|tauto|].
    unfold sthrows. rewrite P. split; [intros ->; eauto|]. intros (p' & [= <-] & T). destruct p; [discriminate|reflexivity]. }
  destruct E as [E|(N & E)].
  - cbn [sexec] in E. destruct (allowed s (EStart (SCopy x y))) eqn:A; [|discriminate].
    cbn [allowed in_scope] in A. apply andb_prop in A as (A & _). apply andb_prop in A as (Ax & Ay).
    apply negb_true_iff, exists_false in Ax. apply exists_true in Ay as (p & P).
    assert (N : y <> x) by congruence.
    unfold sstep, code in E. cbn [iexec] in E. rewrite P in E. cbn [bind app] in E.
    destruct (allowed _ (ERun _)); [|discriminate]. cbn [pend set_pend residue] in E. rewrite nth_last in E.
    cbn [iexec set_pend svars set_var cdel] in E. rewrite fset_same, D' in E. destruct p as [o|]; [|discriminate].
    cbn [mem existsb bind residue app] in E. rewrite firstn_last, skipn_last, app_nil_r in E. injection E as <-.
    cbn [set_pend set_count set_var svars pend sdel]. rewrite fset_other by assumption. split; [|auto].
    apply (G _ (Some o)); cbn [set_pend set_count set_var svars pend sdel]; rewrite ?fset_same, ?fset_other; auto.
  - destruct (svars s y) as [p|] eqn:P.
    2:{ cbn [sexec] in E. destruct (allowed s (EStart (SAssign x y))) eqn:A; [|discriminate]. cbn [allowed in_scope] in A.
        apply andb_prop in A as (A & _). apply andb_prop in A as (_ & A). unfold exists_ in A. now rewrite P in A. }
    cbn [sexec] in E. destruct (allowed s (EStart (SAssign x y))) eqn:A; [|discriminate].
    destruct (sexec_inv es _ _ inv0 H) as [(s0 & E0 & I)|[E0 _]]; [|discriminate]. injection E0 as <-.
    pose proof (start_inv s _ I A) as (s1 & E1 & I1). rewrite E1 in E.
    cbn [sstep code] in E1. apply Nat.eqb_neq in N as N'. rewrite N' in E1.
    assert (S1 : pend s1 = pend s ++ [(SAssign x y, [ICopy x y; IIncIf x])] /\ svars s1 = svars s).
    { pose proof A as A'. cbn in A'. apply andb_true_iff in A' as [Sc Cf]. apply andb_true_iff in Sc as [Hx _]. apply exists_true in Hx as [v Hx].
      destruct (v_release s (pend s) x v (iv_v _ I) Hx) as (s2 & E2 & _ & Sv & _).
      - apply (not_rbusy s (SAssign x y)); [|exact (iv_shape _ I)|unfold uses; cbn; rewrite N'; cbn; auto].
        rewrite Forall_forall. rewrite forallb_forall in Cf. intros [q c] Hq. apply Cf in Hq. now apply negb_true_iff in Hq.
      - rewrite E2 in E1. cbn in E1. injection E1 as <-. cbn. auto. }
    destruct S1 as [P1 V1]. pose proof (v_sdel _ _ _ (iv_v _ I1)) as D1. pose proof (v_cdel _ _ _ (iv_v _ I1)) as D2.
    rewrite (allowed_last _ _ _ P1) in E. cbn [sstep] in E. rewrite P1, nth_last in E. cbn [iexec] in E. rewrite V1, P in E.
    cbn [bind app residue] in E. rewrite firstn_last, skipn_last in E.
    rewrite (allowed_last _ (pend s) (SAssign x y, [IIncIf x])) in E by reflexivity.
    cbn [sstep pend set_pend] in E. rewrite nth_last in E. cbn [iexec svars set_var set_pend cdel] in E. rewrite fset_same, D2 in E.
    destruct p as [o|]; cbn [mem existsb bind app residue] in E; rewrite firstn_last, skipn_last, app_nil_r in E; injection E as <-;
      cbn [set_pend set_count set_var svars pend sdel]; rewrite fset_other, V1 by congruence; split; auto.
    + apply (G _ (Some o)); cbn [set_pend set_count set_var svars pend sdel]; rewrite ?fset_same, ?fset_other, ?V1; auto.
    + apply (G _ None); cbn [set_pend set_count set_var svars pend sdel]; rewrite ?fset_same, ?fset_other, ?V1; auto.
Qed.
Print Assumptions C141_copy.

(** Ptr: comparisons are defined while the objects live; a program without copies has no two Ptrs
    that are equal and not null. *)
Theorem C141_raw : forall h s x y, pexec pstate0 h = Ok s ->
  (forall z i, z = x \/ z = y -> pvars s z = Some i -> ~ In i (pdeleted s)) ->
  says (pcompare s x y) (pvars s x = pvars s y) (pderef (pvars s x) = Throw ERuntimeError) /\
  (Forall single_owner h -> forall i, pvars s x = Some i -> says (pcompare s x y) (x = y) False).
Proof.
  intros h s x y E L.
  assert (R : forall z, z = x \/ z = y -> readable (pdeleted s) (pvars s z) = true).
  { intros z Z. destruct (pvars s z) as [i|] eqn:V; [|reflexivity]. cbn. rewrite negb_true_iff. apply not_deleted. eauto. }
  assert (S : says (pcompare s x y) (pvars s x = pvars s y) (pvars s x = None)) by (apply values_say; auto).
  split.
  - eapply says_iff; [exact S|tauto|]. destruct (pvars s x); cbn; split; congruence.
  - intros F i X. destruct (pexec_inv h _ pinv0 F) as (s1 & E1 & I). rewrite E in E1. injection E1 as <-.
    eapply says_iff; [exact S| |].
    + rewrite X. split; [|congruence]. intro Y. symmetry in Y. exact (p_distinct _ I x y i X Y).
    + rewrite X. split; [discriminate|tauto].
Qed.
Print Assumptions C141_raw.

(** UniquePtrs 0 (moved from), 1, 2 (null), 3; SharedPtrs with a copy, an own object and a null pointer;
    a Ptr, its copy and another Ptr. *)
Example C141_ex :
  uscope [] [UNew 0; UMove 1 0; UNull 2; UNew 3] = Some [3; 2; 1; 0] /\
  (exists s, uexec ustate0 [UNew 0; UMove 1 0; UNull 2; UNew 3] = Ok s /\
     map (fun '(x, y) => ucompare s x y) [(0, 2); (1, 3); (1, 1)] =
       [Ok (Compared true false true false); Ok (Compared false true false true); Ok (Compared true false false true)]) /\
  (exists s, sexec sstate0 [EStart (SNew 0); EStart (SNew 1); EStart (SNull 2); EStart (SCopy 3 0); ERun 0] = Some (Ok s) /\
     map (fun '(x, y) => wcompare s x y) [(0, 3); (0, 1); (2, 0)] =
       [Ok (Compared true false false true); Ok (Compared false true false true); Ok (Compared false true true false)]) /\
  (exists s, pexec pstate0 [PNew 0; PCopy 1 0; PNew 2; PDestroy 2] = Ok s /\ pcompare s 0 1 = Ok (Compared true false false true)).
Proof. repeat (split; [eexists; split; reflexivity|]) || (split; [reflexivity|]). eexists; split; reflexivity. Qed.
