(** Lemmas about the type traits. *)
From Coq Require Import List NArith ZArith Bool Lia.
From Verif Require Import CxxTypes Traits SpecTraits.
Import ListNotations.

Section Induction.
  Variable P : ty -> Prop.
  Hypothesis Hb : forall c v b, P (TBase c v b).
  Hypothesis Hp : forall c v t, P t -> P (TPtr c v t).
  Hypothesis Hl : forall t, P t -> P (TLRef t).
  Hypothesis Hr : forall t, P t -> P (TRRef t).
  Hypothesis Ha : forall n t, P t -> P (TArr n t).
  Hypothesis Hf : forall r xs, P r -> Forall P xs -> P (TFun r xs).
  Fixpoint ty_ind' (t : ty) : P t :=
    match t with
    | TBase c v b => Hb c v b
    | TPtr c v u => Hp c v u (ty_ind' u)
    | TLRef u => Hl u (ty_ind' u)
    | TRRef u => Hr u (ty_ind' u)
    | TArr n u => Ha n u (ty_ind' u)
    | TFun r xs =>
        Hf r xs (ty_ind' r)
          ((fix go (l : list ty) : Forall P l :=
              match l with [] => Forall_nil _ | x :: l => Forall_cons _ (ty_ind' x) (go l) end) xs)
    end.
End Induction.

Lemma base_eqb_eq a b : base_eqb a b = true <-> a = b.
Proof.
  split.
  - destruct a, b; cbn; intro H; try discriminate; try reflexivity; apply PeanoNat.Nat.eqb_eq in H; now subst.
  - intros <-. destruct a; cbn; try reflexivity; apply PeanoNat.Nat.eqb_refl.
Qed.

Lemma ty_eqb_eq : forall a b, ty_eqb a b = true <-> a = b.
Proof.
  induction a as [c v x|c v t IH|t IH|t IH|n t IH|r xs IHr IHxs] using ty_ind'; intros [c' v' y|c' v' u|u|u|m u|s ys];
    cbn [ty_eqb]; try (split; discriminate).
  - rewrite !andb_true_iff, !eqb_true_iff, base_eqb_eq. split; [intros [[-> ->] ->]|intros [= -> -> ->]]; auto.
  - rewrite !andb_true_iff, !eqb_true_iff, IH. split; [intros [[-> ->] ->]|intros [= -> -> ->]]; auto.
  - rewrite IH. split; [intros ->|intros [= ->]]; auto.
  - rewrite IH. split; [intros ->|intros [= ->]]; auto.
  - rewrite andb_true_iff, IH. destruct n as [n|], m as [m|]; try (split; [intros [H _]; discriminate|intros [=]]).
    + rewrite N.eqb_eq. split; [intros [-> ->]|intros [= -> ->]]; auto.
    + split; [intros [_ ->]|intros [= ->]]; auto.
  - rewrite andb_true_iff, IHr.
    match goal with |- (_ /\ ?f xs ys = true) <-> _ => set (args := f) end.
    assert (E : args xs ys = true <-> xs = ys).
    { clear IHr. revert ys. induction IHxs as [|x xs Hx _ IH]; intros [|y ys]; cbn; try (split; (discriminate || reflexivity)).
      rewrite andb_true_iff, Hx, IH. split; [intros [-> ->]|intros [= -> ->]]; auto. }
    rewrite E. split; [intros [-> ->]|intros [= -> ->]]; auto.
Qed.

Lemma same_iff t u : same t u = true <-> t = u.
Proof. apply ty_eqb_eq. Qed.

Lemma const_without c v t : is_const (without c v t) = negb c && is_const t.
Proof. induction t; cbn; try now rewrite andb_false_r. all: auto. Qed.
Lemma volatile_without c v t : is_volatile (without c v t) = negb v && is_volatile t.
Proof. induction t; cbn; try now rewrite andb_false_r. all: auto. Qed.
Lemma const_qualify c v t : wf t = true -> is_const (qualify c v t) = (c && qualifiable t) || is_const t.
Proof.
  induction t using ty_ind'; cbn; intro W; try (now rewrite ?andb_true_r, ?andb_false_r).
  rewrite !andb_true_iff, !negb_true_iff in W. destruct W as [[[W1 W2] _] W3].
  rewrite IHt by assumption. unfold qualifiable. now rewrite W2, W3.
Qed.
Lemma volatile_qualify c v t : wf t = true -> is_volatile (qualify c v t) = (v && qualifiable t) || is_volatile t.
Proof.
  induction t using ty_ind'; cbn; intro W; try (now rewrite ?andb_true_r, ?andb_false_r).
  rewrite !andb_true_iff, !negb_true_iff in W. destruct W as [[[W1 W2] _] W3].
  rewrite IHt by assumption. unfold qualifiable. now rewrite W2, W3.
Qed.
Lemma qualify_qualify c v c' v' t : qualify c v (qualify c' v' t) = qualify (c || c') (v || v') t.
Proof. induction t; cbn; rewrite ?orb_assoc; congruence. Qed.
Lemma qualify_without c v t : qualify true true (without c v t) = qualify true true t.
Proof. induction t; cbn; congruence. Qed.
Lemma without_unqualified c v t : (c = true -> is_const t = false) -> (v = true -> is_volatile t = false) -> without c v t = t.
Proof.
  induction t; cbn; intros; f_equal; auto.
  all: destruct c; cbn; auto; try (symmetry; auto). all: destruct v; cbn; auto; symmetry; auto.
Qed.
Lemma remove_cv_impl_without t : remove_cv_impl t = without true true t.
Proof.
  unfold remove_cv_impl. destruct (is_const t) eqn:C, (is_volatile t) eqn:V; cbn [andb]; auto.
  - induction t; cbn in *; try discriminate; subst; auto. now rewrite IHt.
  - induction t; cbn in *; try discriminate; subst; auto. now rewrite IHt.
  - symmetry. apply without_unqualified; auto.
Qed.
Lemma without_qualify c v t : without true true (qualify c v t) = without true true t.
Proof. induction t; cbn; congruence. Qed.
Lemma const_qualifiable t : wf t = true -> is_const t = true -> qualifiable t = true.
Proof. destruct t; cbn; auto; discriminate. Qed.
Lemma volatile_qualifiable t : wf t = true -> is_volatile t = true -> qualifiable t = true.
Proof. destruct t; cbn; auto; discriminate. Qed.
Lemma requalified_unique c v t u u' :
  wf t = true -> requalified c v t u -> requalified c v t u' -> u = u'.
Proof.
  intros W (A & B & C) (A' & B' & C').
  assert (E : without true true u = without true true u').
  { rewrite <- (without_qualify true true u), C, <- C'. apply without_qualify. }
  clear C C'.
  assert (Ac : is_const u = is_const u') by congruence.
  assert (Av : is_volatile u = is_volatile u') by congruence.
  clear A A' B B'. revert u' E Ac Av. induction u; intros []; cbn; intros E Ac Av; inversion E; subst; auto.
  f_equal. auto.
Qed.
