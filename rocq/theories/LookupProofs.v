From Coq Require Import String List Bool Lia.
From Verif Require Import Lookup SpecLookup.
Import ListNotations.
Local Open Scope list_scope.

Lemma ns_eqb_iff a b : ns_eqb a b = true <-> a = b.
Proof. unfold ns_eqb. destruct (list_eq_dec string_dec a b); split; congruence. Qed.

Lemma in_space_iff o sp d : in_space o sp d = true <-> d_op d = o /\ d_place d = Space sp.
Proof.
  unfold in_space. rewrite andb_true_iff, String.eqb_eq. destruct (d_place d).
  - split; intros [? ?]; discriminate.
  - rewrite ns_eqb_iff. split; intros [? H]; split; congruence.
Qed.
Lemma is_member_iff o d : is_member o d = true <-> d_op d = o /\ d_place d = Member.
Proof.
  unfold is_member. rewrite andb_true_iff, String.eqb_eq. destruct (d_place d); split; intros [? ?]; split; congruence.
Qed.

Lemma encloses_refl sp : encloses sp sp.
Proof. exists []. reflexivity. Qed.
Lemma encloses_cons n outer inner : encloses outer inner -> encloses outer (n :: inner).
Proof. intros [names ->]. exists (n :: names). reflexivity. Qed.
Lemma encloses_cons_inv n outer inner : encloses outer (n :: inner) -> outer = n :: inner \/ encloses outer inner.
Proof.
  intros [[|m names] H]; simpl in H; [left; congruence|]. right. exists names. congruence.
Qed.
Lemma encloses_nil outer : encloses outer [] -> outer = [].
Proof. intros [[|? ?] H]; simpl in H; congruence. Qed.

(** The unqualified lookup exactly: the functions of the innermost namespace that has any *)
Lemma unqualified_iff ds o sp d :
  In d (unqualified ds o sp) <->
  exists at_, d_op d = o /\ d_place d = Space at_ /\ In d ds /\ encloses at_ sp /\
    forall sp', encloses sp' sp -> has_own ds o sp' -> encloses sp' at_.
Proof.
  induction sp as [|n up IH]; cbn [unqualified].
  - assert (E : In d (match filter (in_space o []) ds with [] => [] | x :: l => x :: l end) <-> In d (filter (in_space o []) ds))
      by (destruct (filter (in_space o []) ds); reflexivity).
    rewrite E, filter_In, in_space_iff. split.
    + intros (Hi & Ho & Hp). exists []. refine (conj _ (conj _ (conj _ (conj _ _)))); trivial. apply encloses_refl.
    + intros (at_ & Ho & Hp & Hi & He & _). apply encloses_nil in He. subst. auto.
  - destruct (filter (in_space o (n :: up)) ds) as [|x l] eqn:E.
    + assert (No : ~ has_own ds o (n :: up)).
      { intros (d' & Hi & Hm). assert (H : In d' (filter (in_space o (n :: up)) ds)) by (apply filter_In; split; [|apply in_space_iff]; trivial).
        rewrite E in H. destruct H. }
      rewrite IH. split; intros (at_ & Ho & Hp & Hi & He & Hm); exists at_.
      * refine (conj _ (conj _ (conj _ (conj _ _)))); trivial; [apply encloses_cons; trivial|]. intros sp' He' Hh. apply encloses_cons_inv in He' as [-> |He']; [contradiction|auto].
      * apply encloses_cons_inv in He as [-> |He]; [exfalso; apply No; exists d; auto|].
        refine (conj _ (conj _ (conj _ (conj _ _)))); trivial. intros sp' He' Hh. apply Hm; [apply encloses_cons|]; trivial.
    + rewrite <- E, filter_In, in_space_iff. split.
      * intros (Hi & Ho & Hp). exists (n :: up). refine (conj _ (conj _ (conj _ (conj _ _)))); trivial. apply encloses_refl.
      * intros (at_ & Ho & Hp & Hi & He & Hm). repeat split; trivial. rewrite Hp. f_equal.
        assert (Hx : In x (filter (in_space o (n :: up)) ds)) by (rewrite E; left; reflexivity).
        apply filter_In in Hx as (Hxi & Hx). apply in_space_iff in Hx as (Hxo & Hxp).
        destruct (Hm (n :: up) (encloses_refl _)) as [b Hb]; [exists x; auto|].
        destruct He as [a Ha]. assert (L2 := f_equal (@List.length string) Hb). assert (L3 := f_equal (@List.length string) Ha).
        rewrite app_length in L2, L3. destruct b; [exact Hb|simpl in L2, L3; lia].
Qed.

Lemma by_operands_iff ds o l r d :
  In d (by_operands ds o l r) <->
  In d ds /\ d_op d = o /\ exists sp, d_place d = Space sp /\ (In sp (associated l) \/ In sp (associated r)).
Proof.
  unfold by_operands. rewrite filter_In, existsb_exists. split.
  - intros (Hi & sp & Hs & H). apply in_space_iff in H as (Ho & Hp). apply in_app_or in Hs. eauto 8.
  - intros (Hi & Ho & sp & Hp & Hs). split; trivial. exists sp. split; [apply in_or_app; trivial|apply in_space_iff; auto].
Qed.

Lemma usable_iff s o l r d :
  In d (usable s o l r) <->
  takes (d_takes d) l r = true /\
  (In d (s_all s) /\ d_op d = o /\ d_place d = Member \/
   In d (unqualified (s_before s) o (s_space s)) \/
   In d (by_operands (s_all s) o l r)).
Proof.
  unfold usable. rewrite filter_In, !in_app_iff, filter_In, is_member_iff. tauto.
Qed.

(** A global operator, exactly *)
Lemma global_iff s o l r d :
  d_op d = o -> d_place d = Space [] -> takes (d_takes d) l r = true ->
  (In d (usable s o l r) <->
   In d (s_before s) /\ ~ hidden s o \/ In d (s_all s) /\ (In [] (associated l) \/ In [] (associated r))).
Proof.
  intros Ho Hp Ht. rewrite usable_iff, unqualified_iff, by_operands_iff. split.
  - intros (_ & [(_ & _ & H)|[H|H]]).
    + congruence.
    + destruct H as (at_ & _ & Hp' & Hi & He & Hm). left. split; trivial. intros (sp & Hne & Hsp & Hh).
      assert (at_ = []) by congruence. subst at_. apply Hne, encloses_nil, Hm; trivial.
    + destruct H as (Hi & _ & sp & Hp' & H). right. assert (sp = []) by congruence. subst sp. auto.
  - intros [(Hi & Hn)|(Hi & H)]; split; trivial; right.
    + left. exists []. refine (conj _ (conj _ (conj _ (conj _ _)))); trivial; [exists (s_space s); rewrite app_nil_r; reflexivity|].
      intros sp' He Hh. destruct sp' as [|n up]; [apply encloses_refl|]. exfalso. apply Hn. exists (n :: up). split; [discriminate|auto].
    + right. eauto 8.
Qed.
