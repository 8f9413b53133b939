(** Proofs about programs over variables: running refines the ideal machine. *)
From Coq Require Import List NArith ZArith Bool Arith Lia.
From Verif Require Import Outcome StrModel BigInt BigFloat SpecInt Vars SpecVars.
Import ListNotations.

Lemma set_nth_length {T} (l : list T) i x : length (set_nth l i x) = length l.
Proof. revert i; induction l as [|y l IH]; intros [|i]; cbn; auto. Qed.
Lemma set_nth_get {T} (l : list T) i x k : (i < length l)%nat ->
  nth_error (set_nth l i x) k = if Nat.eqb k i then Some x else nth_error l k.
Proof.
  revert i k; induction l as [|y l IH]; intros i k H; cbn in H; [lia|]. destruct i as [|i], k as [|k]; cbn; auto.
  apply IH. lia.
Qed.

Section Refine.
Context {A V Op : Type}.
Variable c : cls A.
Variable apply : Op -> bool -> A -> A -> outcome A.
Variable empty : V.
Variable op : Op -> V -> V -> option V.
Variable R : A -> V -> Prop.
Variable good : Op -> bool -> Prop.
Variable e : exn.
Hypothesis Lfresh : R (fresh c) empty.
Hypothesis Lcopied : forall a v, R a v -> R (copied c a) v.
Hypothesis Lmoved : forall a v, R a v -> R (fst (moved c a)) v /\ R (snd (moved c a)) empty.
Hypothesis Lassigned : forall a v b w, R a v -> R b w -> R (assigned c a b) w.
Hypothesis Lself : forall a v, R a v -> R (assigned_self c a) v.
Hypothesis Lmove_assigned : forall a v b w, R a v -> R b w ->
  R (fst (move_assigned c a b)) w /\ R (snd (move_assigned c a b)) empty.
Hypothesis Lmove_self : forall a v, R a v -> R (move_assigned_self c a) v.
Hypothesis Lop : forall o self a v b w, good o self -> R a v -> R b w -> (self = true -> a = b /\ v = w) ->
  match op o v w with Some r => exists a', apply o self a b = Ok a' /\ R a' r | None => apply o self a b = Throw e end.

Definition rel (s : list A) (m : values) : Prop :=
  length s = fst m /\ forall i a, nth_error s i = Some a -> R a (snd m i).

Lemma rel_set s n f i x v : rel s (n, f) -> (i < n)%nat -> R x v -> rel (set_nth s i x) (n, put f i v).
Proof.
  intros [L H] Hi Hx. cbn in L. split; cbn; [now rewrite set_nth_length|]. intros k a. rewrite set_nth_get by lia. unfold put.
  destruct (Nat.eqb k i) eqn:E; [intros [= <-]; exact Hx|]. apply H.
Qed.
Lemma rel_push s n f x v : rel s (n, f) -> R x v -> rel (s ++ [x]) (S n, put f n v).
Proof.
  intros [L H] Hx. cbn in L. split; cbn; [rewrite app_length; cbn; lia|]. intros k a E. unfold put.
  destruct (Nat.eqb k n) eqn:K.
  - apply Nat.eqb_eq in K as ->. rewrite nth_error_app2 in E by lia. rewrite L, Nat.sub_diag in E. injection E as <-. exact Hx.
  - apply Nat.eqb_neq in K. assert (k < length s)%nat.
    { assert (k < length (s ++ [x]))%nat by (apply nth_error_Some; congruence). rewrite app_length in *. cbn in *. lia. }
    rewrite nth_error_app1 in E by lia. now apply H.
Qed.
Lemma rel_ext s n f g : rel s (n, f) -> (forall i, f i = g i) -> rel s (n, g).
Proof. intros [L H] E. split; [exact L|]. cbn. intros i a X. rewrite <- E. now apply H. Qed.
Lemma rel_get s n f i : rel s (n, f) -> (i < n)%nat -> exists a, nth_error s i = Some a /\ vec_get s i = Ok a /\ R a (f i).
Proof.
  intros [L H] Hi. cbn in L. destruct (nth_error s i) as [a|] eqn:E.
  - exists a. split; [reflexivity|]. split; [unfold vec_get; now rewrite E|now apply H].
  - apply nth_error_None in E. lia.
Qed.

Lemma move_refines s n f i j : rel s (n, f) -> (i < n)%nat -> (j < n)%nat ->
  exists s', do_move c s i j = Ok s' /\ rel s' (n, if Nat.eqb i j then f else put (put f j empty) i (f j)).
Proof.
  intros H Hi Hj. destruct (rel_get s n f i H Hi) as (a & Na & Ga & Ra), (rel_get s n f j H Hj) as (b & Nb & Gb & Rb).
  unfold do_move. rewrite Ga, Gb. cbn [bind]. destruct (Nat.eqb i j) eqn:E.
  - eexists. split; [reflexivity|]. apply Nat.eqb_eq in E as <-. eapply rel_ext; [apply (rel_set s n f i _ (f i)); auto|].
    intros k. unfold put. destruct (Nat.eqb k i) eqn:K; [apply Nat.eqb_eq in K; now subst|reflexivity].
  - destruct (move_assigned c a b) as [x' y'] eqn:M. destruct (Lmove_assigned a (f i) b (f j) Ra Rb) as [X Y]. rewrite M in X, Y. cbn in X, Y.
    eexists. split; [reflexivity|]. eapply rel_ext.
    + apply rel_set; [apply rel_set; [exact H|exact Hi|exact X]|exact Hj|exact Y].
    + intros k. unfold put. apply Nat.eqb_neq in E. destruct (Nat.eqb k j) eqn:K; destruct (Nat.eqb k i) eqn:K'; auto.
      apply Nat.eqb_eq in K, K'. congruence.
Qed.

Lemma swap_refines s n f i j : rel s (n, f) -> (i < n)%nat -> (j < n)%nat ->
  exists s', do_swap c s i j = Ok s' /\ rel s' (n, put (put f i (f j)) j (f i)).
Proof.
  intros H Hi Hj. destruct (rel_get s n f i H Hi) as (a & Na & Ga & Ra).
  unfold do_swap. rewrite Ga. cbn [bind]. destruct (moved c a) as [tmp x'] eqn:M. destruct (Lmoved a (f i) Ra) as [X Y]. rewrite M in X, Y. cbn in X, Y.
  destruct (move_refines (set_nth s i x') n (put f i empty) i j) as (s1 & E1 & R1); auto. { apply rel_set; auto. }
  rewrite E1. cbn [bind]. destruct (rel_get s1 n _ j R1 Hj) as (b & Nb & Gb & Rb). rewrite Gb. cbn [bind].
  destruct (move_assigned c b tmp) as [y' q] eqn:M2. destruct (Lmove_assigned b _ tmp (f i) Rb X) as [Z _]. rewrite M2 in Z. cbn in Z.
  eexists. split; [reflexivity|]. eapply rel_ext; [apply rel_set; [exact R1|exact Hj|exact Z]|].
  intros k. unfold put. destruct (Nat.eqb k j) eqn:K; [reflexivity|]. destruct (Nat.eqb i j) eqn:E.
  - apply Nat.eqb_eq in E as ->. now rewrite K.
  - destruct (Nat.eqb k i) eqn:K'; rewrite ?K; [|reflexivity]. rewrite (proj2 (Nat.eqb_neq j i)); [reflexivity|].
    apply Nat.eqb_neq in E. congruence.
Qed.

Definition good_stmt (st : stmt Op) : Prop := match st with SOp i o j => good o (Nat.eqb i j) | _ => True end.

Lemma stmt_refines s m st : rel s m -> Forall (fun i => (i < fst m)%nat) (uses st) -> good_stmt st ->
  match ideal_stmt empty op m st with
  | Some m' => fst m' = (fst m + declares st)%nat /\ exists s', do_stmt c apply s st = Ok s' /\ rel s' m'
  | None => do_stmt c apply s st = Throw e
  end.
Proof.
  destruct m as [n f]. cbn [fst]. intros H U G. destruct st as [|j|j|i j|i j|i j|i o j]; cbn [uses] in U; cbn [ideal_stmt do_stmt declares];
    rewrite Forall_forall in U; try (pose proof (U i (or_introl eq_refl)) as H0; pose proof (U j (or_intror (or_introl eq_refl))) as H1);
    try (pose proof (U j (or_introl eq_refl)) as H0).
  - split; [cbn; lia|]. eexists. split; [reflexivity|]. now apply rel_push.
  - split; [cbn; lia|]. destruct (rel_get s n f j H H0) as (b & _ & G1 & Rb). rewrite G1. cbn [bind].
    eexists. split; [reflexivity|]. now apply rel_push, Lcopied.
  - split; [cbn; lia|]. destruct (rel_get s n f j H H0) as (b & _ & G1 & Rb). rewrite G1. cbn [bind].
    destruct (moved c b) as [x y'] eqn:M. destruct (Lmoved b (f j) Rb) as [X Y]. rewrite M in X, Y. cbn in X, Y.
    eexists. split; [reflexivity|]. apply rel_push; [|exact X]. now apply rel_set.
  - split; [cbn; lia|]. destruct (rel_get s n f i H H0) as (a & Na & G1 & Ra), (rel_get s n f j H H1) as (b & Nb & G2 & Rb). rewrite G1, G2. cbn [bind].
    eexists. split; [reflexivity|]. apply rel_set; [exact H|exact H0|]. destruct (Nat.eqb i j) eqn:E; [|now apply Lassigned with (f i)].
    apply Nat.eqb_eq in E as <-. now apply Lself.
  - split; [cbn; lia|]. destruct (move_refines s n f i j H H0 H1) as (s' & E & R'). exists s'. split; [exact E|]. exact R'.
  - split; [cbn; lia|]. now apply swap_refines.
  - destruct (rel_get s n f i H H0) as (a & Na & G1 & Ra), (rel_get s n f j H H1) as (b & Nb & G2 & Rb).
    assert (SF : Nat.eqb i j = true -> a = b /\ f i = f j). { intros E. apply Nat.eqb_eq in E as <-. split; [congruence|reflexivity]. }
    pose proof (Lop o (Nat.eqb i j) a (f i) b (f j) G Ra Rb SF) as L. rewrite G1, G2. cbn [bind].
    destruct (op o (f i) (f j)) as [r|].
    + destruct L as (a' & -> & R'). cbn [bind]. split; [cbn; lia|]. eexists. split; [reflexivity|]. now apply rel_set.
    + now rewrite L.
Qed.

Theorem run_refines p : forall s m, rel s m -> scoped (fst m) p -> Forall good_stmt p ->
  match ideal empty op m p with Some m' => exists s', run c apply s p = Ok s' /\ rel s' m' | None => run c apply s p = Throw e end.
Proof.
  induction p as [|st p IH]; intros s m H S G; cbn; [eauto|]. destruct S as [U S]. inversion_clear G.
  pose proof (stmt_refines s m st H U H0) as L. destruct (ideal_stmt empty op m st) as [m'|].
  - destruct L as (N & s' & -> & R'). cbn [bind]. apply IH; auto. now rewrite N.
  - now rewrite L.
Qed.
Lemma rel_start v : rel [] (0%nat, v).
Proof. split; [reflexivity|]. intros [|i] a E; discriminate E. Qed.
End Refine.
