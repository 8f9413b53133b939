(** Property C145: forwarding and moving keep the type and give the right category. *)
From Coq Require Import List NArith Bool Lia.
From Verif Require Import CxxTypes Traits Forward.
Import ListNotations.

(** The A deduced for a parameter A&& and an argument ([temp.deduct.call]/3); inside, the parameter is an lvalue. *)
Definition deduce (e : expr) : ty := if e_lvalue e then TLRef (e_type e) else e_type e.
Definition parameter (e : expr) : expr := Expr (e_type e) true.
(** std::move: an rvalue of the same type (functions are lvalues always) *)
Definition moved (e : expr) : expr := Expr (e_type e) (is_fun (e_type e)).
(** an expression a program can write *)
Definition writable (e : expr) : Prop := wf (e_type e) = true /\ is_ref (e_type e) = false /\ is_void (e_type e) = false /\
  (is_fun (e_type e) = true -> e_lvalue e = true).

Lemma ty_eqb_refl : forall t, ty_eqb t t = true.
Proof.
  fix IH 1. intros [c v b|c v t|t|t|n t|r args]; cbn [ty_eqb].
  - rewrite !eqb_reflx. destruct b; cbn [base_eqb]; rewrite ?PeanoNat.Nat.eqb_refl; reflexivity.
  - rewrite !eqb_reflx. apply IH.
  - apply IH.
  - apply IH.
  - rewrite (IH t). destruct n as [n|]; [rewrite N.eqb_refl|]; reflexivity.
  - rewrite (IH r). cbn [andb]. induction args as [|a args IHa]; [reflexivity|]. rewrite (IH a). exact IHa.
Qed.
Lemma same_type t : more_qualified t t = true.
Proof. unfold more_qualified. rewrite ty_eqb_refl, !implb_same. reflexivity. Qed.
Lemma noref t : is_ref t = false -> remove_reference t = t /\ lref t = TLRef t /\ rref t = TRRef t /\ IsLValueReference t = false.
Proof. destruct t; try discriminate; repeat split. Qed.

(** C145.  Passing on an argument gives an expression of its type and category. *)
Theorem C145_forward : forall e, writable e -> Forward (deduce e) (parameter e) = Some e.
Proof.
  intros [t l] (W & R & V & F). cbn [e_type e_lvalue] in *. unfold deduce, parameter. cbn [e_type e_lvalue].
  destruct (noref t R) as (R1 & L & R2 & N). unfold Forward. destruct l; cbn [remove_reference rref].
  - rewrite L, R2. cbn [binds e_type e_lvalue]. rewrite same_type. cbn [orb andb negb]. rewrite andb_false_r. reflexivity.
  - rewrite R1, L, R2. cbn [binds e_type e_lvalue]. rewrite same_type. cbn [orb andb negb]. rewrite andb_false_r. cbn [cast].
    destruct (is_fun t); [specialize (F eq_refl); discriminate|reflexivity].
Qed.
Print Assumptions C145_forward.
(** Every use of Forward<T>: it compiles exactly if the argument has the type named, up to more qualifiers, and is not an
    rvalue to be made an lvalue. *)
Theorem C145_exact : forall t e r, wf t = true -> writable e ->
  Forward t e = Some r <->
  (let u := match t with TLRef u | TRRef u => u | _ => t end in
   more_qualified u (e_type e) = true /\ ((exists u, t = TLRef u) -> e_lvalue e = true) /\
   e_type r = u /\ (e_lvalue r = true <-> (exists u, t = TLRef u) \/ is_fun u = true)).
Proof.
  intros t [u l] [r k] W (We & R & V & F). cbn [e_type e_lvalue] in *. cbv zeta.
  set (x := match t with TLRef u | TRRef u => u | _ => t end).
  assert (X : remove_reference t = x /\ is_ref x = false).
  { subst x. destruct t; split; try reflexivity; cbn [wf] in W; repeat (apply andb_prop in W as [W ?]); now apply negb_true_iff. }
  destruct X as [X1 X2]. destruct (noref x X2) as (_ & L & R2 & _).
  assert (C : cast (rref t) = Some (Expr x (IsLValueReference t || is_fun x))).
  { subst x. unfold IsLValueReference, is_lvalue_reference_impl. destruct t; reflexivity. }
  assert (I : IsLValueReference t = true <-> exists u, t = TLRef u).
  { unfold IsLValueReference, is_lvalue_reference_impl. destruct t; split; try discriminate; try (intros (? & ?); discriminate); eauto. }
  unfold Forward. rewrite X1, L, R2, C, <- I. cbn [binds e_type e_lvalue].
  destruct (more_qualified x u) eqn:M; cbn [andb]; [|split; [discriminate|intros (? & _); discriminate]].
  assert (E : forall b, Some (Expr x b) = Some (Expr r k) <-> r = x /\ k = b).
  { intros b. split; [intros H; injection H as -> ->; now split|intros [-> ->]; reflexivity]. }
  destruct l, (IsLValueReference t), (is_fun x) eqn:Fx; cbn [negb orb andb];
    try (destruct (is_const x && negb (is_volatile x)); cbn [orb andb negb]); rewrite ?E; destruct k; intuition (try discriminate; try congruence).
Qed.
Print Assumptions C145_exact.
(** MakeMovable of an lvalue is what std::move gives; it takes no rvalue but a const one. *)
Theorem C145_move_partial : forall e, writable e -> e_lvalue e = true -> MakeMovable e = Some (moved e).
Proof.
  intros [t l] (W & R & V & F) E. cbn [e_type e_lvalue] in *. subst l. destruct (noref t R) as (_ & L & R2 & _).
  unfold MakeMovable. cbn [e_type]. rewrite L, R2. cbn [binds e_type e_lvalue cast]. rewrite same_type. reflexivity.
Qed.
Print Assumptions C145_move_partial.
Theorem C145_move_refuted : forall e, writable e -> e_lvalue e = false ->
  (MakeMovable e = Some (moved e) <-> is_const (e_type e) = true /\ is_volatile (e_type e) = false) /\
  (MakeMovable e = None <-> is_const (e_type e) = false \/ is_volatile (e_type e) = true).
Proof.
  intros [t l] (W & R & V & F) E. cbn [e_type e_lvalue] in *. subst l. destruct (noref t R) as (_ & L & R2 & _).
  unfold MakeMovable, moved. cbn [e_type]. rewrite L, R2. cbn [binds e_type e_lvalue cast]. rewrite same_type. cbn [andb orb].
  destruct (is_const t), (is_volatile t); cbn [andb negb]; intuition (try discriminate).
Qed.
Print Assumptions C145_move_refuted.
(** Forwarding an rvalue that a function took as A&& moves it; a const object stays const, so it is copied. *)
Example C145_ex : let int := TBase false false BInt in let cint := TBase true false BInt in
  writable (Expr int false) /\ Forward (deduce (Expr int false)) (parameter (Expr int false)) = Some (Expr int false) /\
  Forward (TLRef int) (Expr int false) = None /\ Forward (TLRef cint) (Expr int true) = Some (Expr cint true) /\
  Forward int (Expr cint true) = None /\ MakeMovable (Expr cint true) = Some (Expr cint false) /\ MakeMovable (Expr int false) = None.
Proof. cbv zeta. unfold writable. repeat split. discriminate. Qed.
