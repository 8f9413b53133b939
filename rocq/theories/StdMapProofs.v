(** std::map stays sorted and answers like a finite function. *)
From Coq Require Import List Bool Sorted.
From Verif Require Import StdMap.
Import ListNotations.

Section Proofs.
  Context {K V : Type} (ltb : K -> K -> bool).
  Definition strict_total : Prop :=
    (forall s, ltb s s = false) /\
    (forall s t u, ltb s t = true -> ltb t u = true -> ltb s u = true) /\
    (forall s t, ltb s t = true \/ s = t \/ ltb t s = true).
  Context (T : strict_total).
  Definition klt (a b : K) : Prop := ltb a b = true.
  Definition sorted (m : std_map K V) : Prop := StronglySorted klt (map fst m).

  Lemma asym a b : ltb a b = true -> ltb b a = false.
  Proof. intros H. destruct T as (IR & TR & _). destruct (ltb b a) eqn:E; [|reflexivity]. rewrite <- (IR a). symmetry. eapply TR; eassumption. Qed.
  Lemma eq_of a b : ltb a b = false -> ltb b a = false -> a = b.
  Proof. intros H H'. destruct T as (_ & _ & TO). destruct (TO a b) as [X|[X|X]]; congruence. Qed.

  Lemma key_of_update k d f (m : std_map K V) x : In x (map fst (map_update ltb k d f m)) <-> x = k \/ In x (map fst m).
  Proof.
    induction m as [|[k' v] r IH]; cbn; [intuition|].
    destruct (ltb k k') eqn:E1; [cbn; intuition|].
    destruct (ltb k' k) eqn:E2; cbn; [rewrite IH; intuition|].
    pose proof (eq_of _ _ E1 E2). subst. intuition.
  Qed.

  Lemma update_sorted k d f (m : std_map K V) : sorted m -> sorted (map_update ltb k d f m).
  Proof.
    unfold sorted. induction m as [|[k' v] r IH]; cbn; intros S; [constructor; constructor|].
    pose proof S as S0. apply StronglySorted_inv in S as [S A].
    destruct (ltb k k') eqn:E1; [|destruct (ltb k' k) eqn:E2]; cbn.
    - constructor; [assumption|]. constructor; [assumption|].
      rewrite Forall_forall in A |- *. intros x I. specialize (A x I). destruct T as (_ & TR & _). eapply TR; eassumption.
    - constructor; [now apply IH|]. rewrite Forall_forall in A |- *. intros x I.
      apply key_of_update in I as [->|I]; [assumption|]. now apply A.
    - now constructor.
  Qed.

  Lemma erase_sub k (m : std_map K V) x : In x (map fst (map_erase ltb k m)) -> In x (map fst m).
  Proof.
    induction m as [|[k' v] r IH]; cbn; [auto|].
    destruct (ltb k k') eqn:E1; [cbn; auto|]. destruct (ltb k' k) eqn:E2; cbn; intuition.
  Qed.

  Lemma erase_sorted k (m : std_map K V) : sorted m -> sorted (map_erase ltb k m).
  Proof.
    unfold sorted. induction m as [|[k' v] r IH]; cbn; intros S; [constructor|].
    pose proof S as S0. apply StronglySorted_inv in S as [S A].
    destruct (ltb k k') eqn:E1; [assumption|]. destruct (ltb k' k) eqn:E2; cbn; [|assumption].
    constructor; [now apply IH|]. rewrite Forall_forall in A |- *. intros x I. apply A. now apply erase_sub with k.
  Qed.

  Lemma find_below k (m : std_map K V) : Forall (klt k) (map fst m) -> map_find ltb k m = None.
  Proof. destruct m as [|[k' v] r]; cbn; [reflexivity|]. intros F. inversion F as [|? ? F1 F2]. unfold klt in F1. now rewrite F1. Qed.

  Lemma find_in k v (m : std_map K V) : sorted m -> (map_find ltb k m = Some v <-> In (k, v) m).
  Proof.
    unfold sorted. induction m as [|[k' w] r IH]; cbn; intros S; [split; [discriminate|tauto]|].
    apply StronglySorted_inv in S as [S A]. rewrite Forall_forall in A.
    assert (B : forall x, In (k, x) r -> ltb k' k = true).
    { intros x I. apply A. apply in_map_iff. exists (k, x). auto. }
    destruct (ltb k k') eqn:E1; [|destruct (ltb k' k) eqn:E2].
    - split; [discriminate|]. intros [I|I]; exfalso.
      + injection I as -> ->. destruct T as (IR & _). rewrite IR in E1. discriminate.
      + apply B in I. apply asym in I. congruence.
    - rewrite IH by assumption. split; [auto|]. intros [I|I]; [|assumption].
      injection I as -> ->. destruct T as (IR & _). rewrite IR in E2. discriminate.
    - pose proof (eq_of _ _ E1 E2) as <-. split.
      + intros I. injection I as ->. now left.
      + intros [I|I]; [injection I as ->; reflexivity|]. apply B in I. congruence.
  Qed.

  Lemma find_update k d f (m : std_map K V) k' : sorted m ->
    map_find ltb k' (map_update ltb k d f m) =
    if ltb k k' || ltb k' k then map_find ltb k' m
    else Some (f (match map_find ltb k m with Some v => v | None => d end)).
  Proof.
    destruct T as (IR & TR & TO). unfold sorted.
    induction m as [|[c v] r IH]; intros S.
    - cbn. destruct (ltb k' k) eqn:A; [now rewrite orb_true_r|]. destruct (ltb k k') eqn:B; reflexivity.
    - cbn [map fst] in S. apply StronglySorted_inv in S as [S A]. specialize (IH S). cbn [map_update map_find].
      destruct (ltb k c) eqn:E1; [|destruct (ltb c k) eqn:E2]; cbn [map_find].
      + destruct (ltb k' k) eqn:B1; [|destruct (ltb k k') eqn:B2]; cbn [orb]; try reflexivity.
        now rewrite orb_true_r, (TR _ _ _ B1 E1).
      + rewrite IH. destruct (ltb k' c) eqn:C1; [|destruct (ltb c k') eqn:C2]; try reflexivity.
        * rewrite (TR _ _ _ C1 E2), orb_true_r. reflexivity.
        * pose proof (eq_of _ _ C1 C2) as ->. rewrite E2, orb_true_r. reflexivity.
      + pose proof (eq_of _ _ E1 E2) as <-. rewrite (orb_comm (ltb k k')).
        destruct (ltb k' k) eqn:C1; [|destruct (ltb k k') eqn:C2]; reflexivity.
  Qed.

  Lemma find_erase k (m : std_map K V) k' : sorted m ->
    map_find ltb k' (map_erase ltb k m) =
    if ltb k k' || ltb k' k then map_find ltb k' m else None.
  Proof.
    destruct T as (IR & TR & TO). unfold sorted.
    induction m as [|[c v] r IH]; intros S; [cbn; now destruct (ltb k k' || ltb k' k)|].
    cbn [map fst] in S. apply StronglySorted_inv in S as [S A]. specialize (IH S). cbn [map_erase map_find].
    destruct (ltb k c) eqn:E1; [|destruct (ltb c k) eqn:E2]; cbn [map_find].
    - destruct (ltb k k') eqn:B1; cbn [orb]; [reflexivity|]. destruct (ltb k' k) eqn:B2; cbn [orb]; [reflexivity|].
      pose proof (eq_of _ _ B1 B2) as <-. now rewrite E1.
    - rewrite IH. destruct (ltb k' c) eqn:C1; [|destruct (ltb c k') eqn:C2]; try reflexivity.
      + rewrite (TR _ _ _ C1 E2), orb_true_r. reflexivity.
      + pose proof (eq_of _ _ C1 C2) as ->. rewrite E2, orb_true_r. reflexivity.
    - pose proof (eq_of _ _ E1 E2) as <-.
      destruct (ltb k k') eqn:B1; cbn [orb].
      + rewrite (asym _ _ B1). reflexivity.
      + destruct (ltb k' k) eqn:B2; cbn [orb].
        * apply find_below. rewrite Forall_forall in A |- *. intros x I. specialize (A x I). eapply TR; eassumption.
        * pose proof (eq_of _ _ B1 B2) as <-. now apply find_below.
  Qed.
End Proofs.

Lemma fold_snoc {A B} (f : A -> B) l : forall acc, fold_left (fun o e => o ++ [f e]) l acc = acc ++ map f l.
Proof. induction l as [|x r IH]; intros acc; cbn; [now rewrite app_nil_r|]. now rewrite IH, <- app_assoc. Qed.

Lemma get_map_keys_eq {K V} (m : list (K * V)) : get_map_keys m = map fst m.
Proof. apply (fold_snoc fst m []). Qed.
Lemma get_map_values_eq {K V} (m : list (K * V)) : get_map_values m = map snd m.
Proof. apply (fold_snoc snd m []). Qed.
