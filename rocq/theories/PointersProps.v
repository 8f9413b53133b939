(** Properties C76-C82: smart pointers. *)
From Coq Require Import List NArith Arith Bool Permutation Lia.
From Verif Require Import Outcome UniquePtr UniquePtrProofs SharedPtr SharedPtrProofs.
Import ListNotations.

(** C76: in every history nothing is undefined (in particular nothing is deleted twice or accessed
    after deletion), every object is owned by exactly one UniquePtr or deleted, and when all
    UniquePtrs are gone every object has been deleted exactly once. *)
Theorem C76_exactly_once : forall h L, uscope [] h = Some L ->
  exists s, uexec ustate0 h = Ok s /\ NoDup (udeleted s) /\
    (forall i, i < umade s -> (In i (udeleted s) /\ (forall x, ~ uowns s x i)) \/
       (~ In i (udeleted s) /\ exists x, In x L /\ uowns s x i /\ forall y, uowns s y i -> y = x)) /\
    (forall i, In i (udeleted s) -> i < umade s) /\
    (L = [] -> Permutation (udeleted s) (seq 0 (umade s))).
Proof. exact unique_ownership. Qed.
Print Assumptions C76_exactly_once.
(** An object is deleted by exactly the call through which its owner lets go of it. *)
Theorem C76_when : forall h o L, uscope [] (h ++ [o]) = Some L ->
  exists s s', uexec ustate0 h = Ok s /\ ustep s o = Ok s' /\
    udeleted s' = udeleted s ++ match lets_go s o with Some i => [i] | None => [] end.
Proof. exact unique_timing. Qed.
Print Assumptions C76_when.
Definition uhistory : list uop :=
  [UNew 0; UNull 1; UMoveAssign 1 0; UMoveAssign 1 1; UNew 2; UMoveAssign 2 1; UResetSame 2; UDeref 2; UMove 3 2; UResetNew 3; UReset 3;
   UDestroy 3; UDestroy 2; UDestroy 1; UDestroy 0].
Example C76_ex : uscope [] uhistory = Some [] /\
  omap (fun s => (umade s, udeleted s)) (uexec ustate0 uhistory) = Ok (3, [1; 0; 2]).
Proof. split; vm_compute; reflexivity. Qed.

(** C77: under every history and schedule the counter of every object is the number of its owners;
    when no call is in progress these are the SharedPtrs that point to it. *)
Theorem C77_count_is_owners : forall es s o, sexec sstate0 es = Some (Ok s) -> o < smade s ->
  number_of (owner s o) (counts s o).
Proof. exact count_owners. Qed.
Print Assumptions C77_count_is_owners.
Theorem C77_count_at_rest : forall es s o, sexec sstate0 es = Some (Ok s) -> pend s = [] -> o < smade s ->
  number_of (fun x => svars s x = Some (Some o)) (counts s o).
Proof.
  intros es s o H P Ho. eapply number_ext; [|exact (count_owners es s o H Ho)].
  intros x. unfold owner, busy. rewrite P. split; [tauto|]. intros E. split; [exact E|]. intros (p & [] & _).
Qed.
Print Assumptions C77_count_at_rest.
(** Two copies and an assignment from the same pointer, overlapping. *)
Definition shared_history : list event :=
  [EStart (SNew 0); EStart (SNew 1); EStart (SCopy 2 0); EStart (SCopy 3 0); EStart (SAssign 1 0); ERun 1; ERun 1; ERun 0; ERun 0;
   EStart (SMove 4 3); EStart (SDestroy 2); ERun 0].
Example C77_ex : exists s, sexec sstate0 shared_history = Some (Ok s) /\ pend s = [] /\ counts s 0 = 3%N /\ counts s 1 = 0%N /\
  map (svars s) [0; 1; 2; 3; 4] = [Some (Some 0); Some (Some 0); None; Some None; Some (Some 0)].
Proof. eexists. split; [vm_compute; reflexivity|]. vm_compute. repeat split. Qed.

(** C78, refuted: the only owner is destroyed, the object is not deleted. *)
Theorem C78_refuted : exists s, sexec sstate0 [EStart (SNew 0); EStart (SDestroy 0); ERun 0] = Some (Ok s) /\
  pend s = [] /\ smade s = 1 /\ (forall x, svars s x <> Some (Some 0)) /\ ~ In 0 (sdel s).
Proof.
  eexists. split; [vm_compute; reflexivity|]. cbn. repeat split; auto.
  intros [|x]; cbn; discriminate.
Qed.
Print Assumptions C78_refuted.
(** It is so always: no history and no schedule ever deletes an object or a counter. *)
Theorem C78_never_deleted_refuted : forall es s, sexec sstate0 es = Some (Ok s) -> sdel s = [] /\ cdel s = [].
Proof. exact never_deleted. Qed.
Print Assumptions C78_never_deleted_refuted.
(** Not vacuous: many objects can be abandoned. *)
Example C78_ex : exists s, sexec sstate0 shared_history = Some (Ok s) /\ smade s = 2 /\ sdel s = [].
Proof. eexists. split; [vm_compute; reflexivity|]. split; reflexivity. Qed.

(** C79: every history is defined up to the copy of a null pointer (C80): nothing is deleted twice
    or accessed after deletion, neither an object nor a counter. *)
Theorem C79_no_use_after_delete : forall es r, sexec sstate0 es = Some r ->
  (exists s, r = Ok s) \/
  (r = UB /\ exists es1 e es2 s1, es = es1 ++ e :: es2 /\ sexec sstate0 es1 = Some (Ok s1) /\ null_copy s1 e).
Proof. exact only_null_copies. Qed.
Print Assumptions C79_no_use_after_delete.
Example C79_ex : exists s, sexec sstate0 (shared_history ++ [EStart (SDeref 1); EStart (SDestroy 0); EStart (SDeref 4); ERun 0]) = Some (Ok s).
Proof. eexists. vm_compute. reflexivity. Qed.

(** C80, refuted: copying a null pointer is undefined, whatever else is going on; so is copying a
    WeakPtr without target and making a WeakPtr from a null SharedPtr. *)
Theorem C80_refuted : forall s x y, allowed s (EStart (SCopy x y)) = true -> svars s y = Some None ->
  sexec s [EStart (SCopy x y); ERun (length (pend s))] = Some UB /\
  wcall s (WCopy x y) = SCopy x y /\ wcall s (WFrom x y) = SCopy x y.
Proof. intros s x y A Y. split; [now apply copy_null_ub|]. split; reflexivity. Qed.
Print Assumptions C80_refuted.
Example C80_ex : exists s, sexec sstate0 [EStart (SNull 0)] = Some (Ok s) /\ allowed s (EStart (SCopy 1 0)) = true /\ svars s 0 = Some None.
Proof. eexists. split; [vm_compute; reflexivity|]. split; reflexivity. Qed.
(** What does work: assigning a null pointer to another variable. *)
Theorem C80_partial : forall es s x y, sexec sstate0 es = Some (Ok s) -> allowed s (EStart (SAssign x y)) = true -> x <> y ->
  svars s y = Some None ->
  exists s', sexec s [EStart (SAssign x y); ERun (length (pend s)); ERun (length (pend s))] = Some (Ok s') /\
    svars s' x = Some None /\ svars s' y = Some None /\ pend s' = pend s.
Proof. exact assign_null_ok. Qed.
Print Assumptions C80_partial.
Example C80_partial_ex : exists s, sexec sstate0 [EStart (SNull 0); EStart (SNew 1)] = Some (Ok s) /\
  allowed s (EStart (SAssign 1 0)) = true /\ svars s 0 = Some None /\ svars s 1 = Some (Some 0).
Proof. eexists. split; [vm_compute; reflexivity|]. repeat split; reflexivity. Qed.

(** C81, refuted: the last SharedPtr is gone, the WeakPtr (variable 1) is not expired and is
    counted as an owner. *)
Theorem C81_refuted : exists s,
  sexec sstate0 [EStart (SNew 0); EStart (wcall sstate0 (WFrom 1 0)); ERun 0; EStart (SDestroy 0); ERun 0] = Some (Ok s) /\
  pend s = [] /\ (forall x, svars s x = Some (Some 0) -> x = 1) /\ expired s 1 = false /\ counts s 0 = 1%N.
Proof.
  eexists. split; [vm_compute; reflexivity|]. cbn. repeat split; auto.
  intros [|[|x]]; cbn; congruence.
Qed.
Print Assumptions C81_refuted.
(** Whether a WeakPtr is expired depends on that WeakPtr alone: no call that does not write it
    changes it, in every history. *)
Theorem C81_partial : forall es s e s' w, sexec sstate0 es = Some (Ok s) -> sexec s [e] = Some (Ok s') ->
  (forall o, call_of s e = Some o -> ~ In w (writes o)) -> expired s' w = expired s w.
Proof.
  intros es s e s' w H E W. unfold expired. now rewrite (frame es s e s' w H E W).
Qed.
Print Assumptions C81_partial.
Example C81_partial_ex : exists s s',
  sexec sstate0 [EStart (SNew 0); EStart (SCopy 1 0); ERun 0] = Some (Ok s) /\
  sexec s [EStart (SReset 0)] = Some (Ok s') /\ ~ In 1 (writes (SReset 0)) /\ expired s 1 = false.
Proof. eexists. eexists. split; [vm_compute; reflexivity|]. split; [vm_compute; reflexivity|]. split; [cbn; intuition discriminate|reflexivity]. Qed.
(** lock, in every history: null and no new owner for an expired WeakPtr, otherwise one more owner of the same object. *)
Theorem C81_lock : forall es s x y, sexec sstate0 es = Some (Ok s) -> allowed s (EStart (wcall s (WLock x y))) = true -> exists_ s y = true ->
  (expired s y = true -> exists s', sexec s [EStart (wcall s (WLock x y))] = Some (Ok s') /\
     svars s' x = Some None /\ counts s' = counts s /\ pend s' = pend s) /\
  (expired s y = false -> exists o s', svars s y = Some (Some o) /\
     sexec s [EStart (wcall s (WLock x y)); ERun (length (pend s))] = Some (Ok s') /\
     svars s' x = Some (Some o) /\ counts s' o = (counts s o + 1)%N /\ pend s' = pend s).
Proof.
  intros es s x y H A Y. destruct (never_deleted es s H) as [_ D]. unfold exists_ in Y. unfold wcall, expired in *.
  destruct (svars s y) as [[o|]|] eqn:V; try discriminate; (split; [intros E|intros E]; try discriminate).
  - exists o. cbn [sexec]. rewrite A. cbn [sstep code iexec]. rewrite V. cbn [bind]. cbn [app residue].
    cbn [sexec allowed set_pend pend set_var]. rewrite app_length. cbn [length].
    replace (length (pend s) <? length (pend s) + 1) with true by (symmetry; apply Nat.ltb_lt; lia).
    cbn [sstep set_pend pend]. rewrite nth_error_app2, Nat.sub_diag by lia. cbn [nth_error iexec set_pend set_var svars cdel].
    unfold fset at 1. rewrite Nat.eqb_refl, D. cbn [mem existsb bind]. eexists. split; [reflexivity|]. split; [reflexivity|].
    cbn [set_pend set_count set_var svars counts pend residue app]. unfold fset. rewrite !Nat.eqb_refl. split; [reflexivity|]. split; [reflexivity|].
    rewrite firstn_app, firstn_all, Nat.sub_diag. cbn [firstn]. rewrite skipn_all2 by (rewrite app_length; cbn; lia). rewrite !app_nil_r. reflexivity.
  - cbn [sexec]. rewrite A. cbn [sstep code iexec bind app residue]. eexists. split; [reflexivity|].
    cbn [set_pend set_var svars counts pend]. unfold fset. rewrite Nat.eqb_refl, app_nil_r. auto.
Qed.
Print Assumptions C81_lock.
Example C81_lock_ex : exists s, sexec sstate0 [EStart (SNew 0); EStart (SCopy 1 0); ERun 0; EStart (SNull 2)] = Some (Ok s) /\
  allowed s (EStart (wcall s (WLock 3 1))) = true /\ expired s 1 = false /\ allowed s (EStart (wcall s (WLock 3 2))) = true /\ expired s 2 = true.
Proof. eexists. split; [vm_compute; reflexivity|]. repeat split; reflexivity. Qed.

(** C82: dereferencing throws exactly when the pointer is null, and otherwise gives the object. *)
Theorem C82_null_deref_throws : forall p,
  (p = None -> uderef p = Throw ERuntimeError /\ deref p = Throw ERuntimeError /\ weak_deref p = Throw ERuntimeError) /\
  (forall o, p = Some o -> uderef p = Ok o /\ deref p = Ok o /\ weak_deref p = Ok o).
Proof. intros p. split; [intros ->|intros o ->]; repeat split. Qed.
Print Assumptions C82_null_deref_throws.
(** In every history: a moved-from or reset pointer throws. *)
Theorem C82_moved_from_throws : forall h x y L, uscope [] (h ++ [UMove x y]) = Some L ->
  exists s, uexec ustate0 (h ++ [UMove x y]) = Ok s /\
    (forall p, uvars s y = Some p -> uderef p = Throw ERuntimeError) /\ uvars s y <> None.
Proof.
  intros h x y L Sc. destruct (uscope_app h [] [UMove x y] L Sc) as (L1 & S1 & S2).
  destruct (uexec_inv h [] L1 ustate0 S1 uinv0) as (s & E & I).
  assert (A : forall h1 h2 s0 s1, uexec s0 h1 = Ok s1 -> uexec s0 (h1 ++ h2) = uexec s1 h2).
  { induction h1 as [|o h1 IH]; intros h2 s0 s1 H; cbn in *; [injection H as ->; reflexivity|].
    destruct (ustep s0 o) as [s2|e| |]; try discriminate H. cbn in *. now apply IH. }
  destruct (ustep_inv L1 (UMove x y) [] L s S2 I) as (s' & L2 & E' & _ & _ & _).
  exists s'. rewrite (A _ _ _ _ E). cbn [uexec]. rewrite E'. split; [reflexivity|].
  cbn in E'. destruct (uvars s x); [discriminate|]. destruct (uvars s y); [|discriminate]. injection E' as <-. cbn. unfold uset. rewrite Nat.eqb_refl.
  split; [intros p H; injection H as <-; reflexivity|discriminate].
Qed.
Print Assumptions C82_moved_from_throws.
Example C82_ex : uscope [] ([UNew 0] ++ [UMove 1 0]) = Some [1; 0].
Proof. reflexivity. Qed.
