(** Property C95: GetMapKeys and GetMapValues. *)
From Coq Require Import List Bool Sorted NArith Lia.
From Verif Require Import StdMap StdMapProofs.
Import ListNotations.

(** Specification: what a history of writes and erasures has stored under a key. *)
Section Spec.
  Context {K V : Type} (ltb : K -> K -> bool).
  Inductive mop := Put (k : K) (v : V) | Erase (k : K).
  Definition do_mop (m : std_map K V) (o : mop) : std_map K V :=
    match o with Put k v => map_update ltb k v (fun _ => v) m | Erase k => map_erase ltb k m end.
  (** The stored function, by recursion on the history, last operation first. *)
  Inductive stored : list mop -> K -> V -> Prop :=
  | st_put h k v : stored (Put k v :: h) k v
  | st_put_other h k v k' v' : k <> k' -> stored h k v -> stored (Put k' v' :: h) k v
  | st_erase_other h k v k' : k <> k' -> stored h k v -> stored (Erase k' :: h) k v.
  Definition after (h : list mop) : std_map K V := fold_left do_mop (rev h) [].

  Lemma after_cons o h : after (o :: h) = do_mop (after h) o.
  Proof. unfold after. cbn. now rewrite fold_left_app. Qed.

  Context (T : strict_total ltb).
  Lemma after_sorted h : sorted ltb (after h).
  Proof.
    induction h as [|o h IH]; [constructor|]. rewrite after_cons.
    destruct o; [now apply update_sorted|now apply erase_sorted].
  Qed.

  Lemma distinct_iff k k' : ltb k k' || ltb k' k = true <-> k <> k'.
  Proof.
    destruct T as (IR & TR & TO). split.
    - intros H <-. now rewrite IR in H.
    - intros N. apply orb_true_iff. destruct (TO k k') as [|[|]]; tauto.
  Qed.

  Lemma after_stored h : forall k v, map_find ltb k (after h) = Some v <-> stored h k v.
  Proof.
    induction h as [|o h IH]; intros k v; [split; [discriminate|inversion 1]|].
    rewrite after_cons. destruct o as [k' v'|k']; cbn [do_mop].
    - rewrite find_update by (assumption || apply after_sorted). 
      destruct (ltb k' k || ltb k k') eqn:E.
      + rewrite IH. apply distinct_iff in E. split; [intros; apply st_put_other; auto|].
        intros S. inversion S; subst; congruence.
      + assert (k = k') as -> by (destruct T as (_ & _ & TO); destruct (TO k k') as [X|[X|X]]; [rewrite X, orb_true_r in E; discriminate|assumption|rewrite X in E; discriminate]).
        split; [intros X; injection X as ->; constructor|]. intros S. inversion S; subst; congruence.
    - rewrite find_erase by (assumption || apply after_sorted).
      destruct (ltb k' k || ltb k k') eqn:E.
      + rewrite IH. apply distinct_iff in E. split; [intros; apply st_erase_other; auto|].
        intros S. inversion S; subst; congruence.
      + split; [discriminate|]. intros S. inversion S as [| |? ? ? ? N S']; subst. apply not_eq_sym, distinct_iff in N. congruence.
  Qed.
End Spec.
Arguments mop K V : clear implicits.

Lemma combine_keys_values {K V} (m : list (K * V)) : combine (get_map_keys m) (get_map_values m) = m.
Proof. rewrite get_map_keys_eq, get_map_values_eq. induction m as [|[k v] r IH]; cbn; [reflexivity|now rewrite IH]. Qed.

Lemma keys_values_any {K V} (m : list (K * V)) :
  length (get_map_keys m) = length m /\ length (get_map_values m) = length m /\
  forall i k v, nth_error m i = Some (k, v) <-> nth_error (get_map_keys m) i = Some k /\ nth_error (get_map_values m) i = Some v.
Proof.
  rewrite get_map_keys_eq, get_map_values_eq, !map_length. split; [reflexivity|split; [reflexivity|]].
  intros i k v. rewrite !nth_error_map. destruct (nth_error m i) as [[a b]|]; cbn; split; intros H.
  - injection H as -> ->. auto.
  - destruct H as [H1 H2]. congruence.
  - discriminate.
  - destruct H; discriminate.
Qed.

Lemma keys_values_history {K V} (ltb : K -> K -> bool) (h : list (mop K V)) : strict_total ltb ->
  let ks := get_map_keys (after ltb h) in let vs := get_map_values (after ltb h) in
  StronglySorted (fun a b => ltb a b = true) ks /\ length ks = length vs /\
  forall k v, In (k, v) (combine ks vs) <-> stored h k v.
Proof.
  intros T ks vs. unfold ks, vs. split; [|split].
  - rewrite get_map_keys_eq. apply (after_sorted ltb T).
  - destruct (keys_values_any (after ltb h)) as (-> & -> & _). reflexivity.
  - intros k v. rewrite combine_keys_values, <- (find_in ltb T) by (apply (after_sorted ltb T)). apply (after_stored ltb T).
Qed.

(** C95.  Any container of pairs (std::map, unordered_map ...): same length, i-th key with i-th value. *)
Theorem C95_pairwise : forall (K V : Type) (m : list (K * V)),
  length (get_map_keys m) = length m /\ length (get_map_values m) = length m /\
  forall i k v, nth_error m i = Some (k, v) <-> nth_error (get_map_keys m) i = Some k /\ nth_error (get_map_values m) i = Some v.
Proof. exact @keys_values_any. Qed.
Print Assumptions C95_pairwise.
(** std::map after any history of writes and erasures: keys in order, each with its last value. *)
Theorem C95_map_history : forall (K V : Type) (ltb : K -> K -> bool) (h : list (mop K V)), strict_total ltb ->
  let ks := get_map_keys (after ltb h) in let vs := get_map_values (after ltb h) in
  StronglySorted (fun a b => ltb a b = true) ks /\ length ks = length vs /\
  forall k v, In (k, v) (combine ks vs) <-> stored h k v.
Proof. exact @keys_values_history. Qed.
Print Assumptions C95_map_history.
Lemma N_strict_total : strict_total N.ltb.
Proof.
  split; [exact N.ltb_irrefl|]. split; intros.
  - rewrite N.ltb_lt in *. lia.
  - rewrite !N.ltb_lt. lia.
Qed.
Example C95_ex : let m := after N.ltb [Put 2 7; Erase 9; Put 5 1; Put 9 4; Put 2 3]%N in
  get_map_keys m = [2; 5]%N /\ get_map_values m = [7; 1]%N.
Proof. split; reflexivity. Qed.
