(** Final theorems about the type traits: C102-C107. *)
From Coq Require Import List NArith ZArith Bool Lia.
From Verif Require Import CxxTypes Traits SpecTraits TraitsProofs.
Import ListNotations.

(** A few types for the examples. *)
Definition ty_int : ty := TBase false false BInt.
Definition ty_const_int : ty := TBase true false BInt.
Definition ty_volatile_int : ty := TBase false true BInt.

(** ** C102 type categories *)
Theorem C102_void_nullptr_bool : forall t,
  (IsVoid t = true <-> std_void t) /\ (IsNullPointer t = true <-> std_nullptr t) /\ (IsBoolean t = true <-> std_bool t).
Proof.
  assert (E : forall b t, same (TBase false false b) (remove_cv t) = true <-> exists c v, t = TBase c v b).
  { intros b t. unfold remove_cv. rewrite remove_cv_impl_without, same_iff. split.
    - destruct t; cbn; intro H; inversion H; subst; eauto.
    - intros (c & v & ->). reflexivity. }
  intro t. unfold IsVoid, IsNullPointer, IsBoolean. rewrite !E. unfold std_void, std_nullptr, std_bool. tauto.
Qed.
Print Assumptions C102_void_nullptr_bool.

Theorem C102_array_pointer_lvalue : forall t,
  (IsArray t = true <-> std_array t) /\ (IsPointer t = true <-> std_pointer t) /\
  (IsLValueReference t = true <-> std_lvalue_reference t).
Proof.
  intro t. unfold std_array, std_pointer, std_lvalue_reference.
  destruct t; cbn; repeat split; intro H; try discriminate; eauto;
    repeat match goal with H : exists _, _ |- _ => destruct H end; congruence.
Qed.
Print Assumptions C102_array_pointer_lvalue.
Example C102_array_case :
  IsArray (TArr (Some 3%N) ty_const_int) = true /\ IsPointer (TPtr true true (TFun ty_int [ty_int])) = true /\
  IsVoid (TBase true true BVoid) = true /\ IsLValueReference (TLRef (TArr None ty_int)) = true.
Proof. repeat split. Qed.

Lemma is_boolean_plain b : IsBoolean (TBase false false b) = true <-> b = BBool.
Proof. destruct (C102_void_nullptr_bool (TBase false false b)) as (_ & _ & ->). split; [intros (c & v & [=]); auto|intros ->; exists false, false; reflexivity]. Qed.

(** The arithmetic categories are right for types without qualifiers ... *)
Theorem C102_arithmetic_partial : forall t, unqualified t ->
  (IsCharacter t = true <-> std_character t) /\ (IsInteger t = true <-> std_integer t) /\
  (IsIntegral t = true <-> std_integral t) /\ (IsFloating t = true <-> std_floating t).
Proof.
  intros t [C V].
  assert (Q : forall P : base -> Prop, (exists c v b, t = TBase c v b /\ P b) <-> exists b, t = TBase false false b /\ P b).
  { intro P. split; [intros (c & v & b & -> & H)|intros (b & -> & H)]; cbn in *; subst; eauto 6. }
  assert (H1 : IsCharacter t = true <-> std_character t).
  { unfold std_character, narrow_or_wide_char. rewrite Q. split.
    - destruct t as [[] [] b| | | | |]; cbn in *; try discriminate.
      intro H. exists b. split; auto. destruct b; cbn in *; try discriminate; tauto.
    - intros (b & -> & H). cbn in H. intuition subst; reflexivity. }
  assert (H2 : IsInteger t = true <-> std_integer t).
  { unfold std_integer, standard_integer. rewrite Q. split.
    - destruct t as [[] [] b| | | | |]; cbn in *; try discriminate.
      intro H. exists b. split; auto. destruct b; cbn in *; try discriminate; tauto.
    - intros (b & -> & H). cbn in H. intuition subst; reflexivity. }
  assert (H3 : IsFloating t = true <-> std_floating t).
  { unfold std_floating. rewrite Q. split.
    - destruct t as [[] [] b| | | | |]; cbn in *; try discriminate.
      intro H. exists b. split; auto. destruct b; cbn in *; try discriminate; tauto.
    - intros (b & -> & H). cbn in H. intuition subst; reflexivity. }
  repeat split; try tauto.
  - unfold IsIntegral, std_integral. rewrite !orb_true_iff, H1, H2.
    destruct (C102_void_nullptr_bool t) as (_ & _ & ->). tauto.
  - unfold IsIntegral, std_integral. rewrite !orb_true_iff, H1, H2.
    destruct (C102_void_nullptr_bool t) as (_ & _ & ->). tauto.
Qed.
Print Assumptions C102_arithmetic_partial.
Example C102_arithmetic_case :
  unqualified (TBase false false BULLong) /\ IsIntegral (TBase false false BULLong) = true /\
  IsIntegral (TBase false false BDouble) = false /\ IsFloating (TBase false false BDouble) = true.
Proof. repeat split. Qed.

(** ... and deny every qualified one, for instance const int. *)
Theorem C102_qualified_arithmetic_refuted :
  (exists t, wf t = true /\ std_integral t /\ IsIntegral t = false) /\
  (forall t, is_const t || is_volatile t = true ->
     IsCharacter t = false /\ IsInteger t = false /\ IsFloating t = false /\ (IsIntegral t = true <-> std_bool t)).
Proof.
  split.
  - exists ty_const_int. repeat split. right. right. exists true, false, BInt. split; [reflexivity|]. cbn. tauto.
  - intros t H. destruct t as [[] [] b| | | | |]; cbn in H; try discriminate; unfold IsIntegral; cbn [IsCharacter IsInteger IsFloating orb];
      repeat split; try (intro K; now apply (proj2 (proj2 (C102_void_nullptr_bool _))) in K);
      try (intro K; now apply (proj2 (proj2 (C102_void_nullptr_bool _)))).
Qed.
Print Assumptions C102_qualified_arithmetic_refuted.

(** IsRValueReference holds for the lvalue references and for no rvalue reference. *)
Theorem C102_rvalue_reference_refuted :
  (forall t, std_rvalue_reference t -> IsRValueReference t = false) /\
  (forall t, IsRValueReference t = true <-> std_lvalue_reference t) /\
  (exists t, wf t = true /\ std_rvalue_reference t).
Proof.
  repeat split.
  - intros t [u ->]. reflexivity.
  - destruct t; cbn; try discriminate. intros _. now exists t.
  - intros [u ->]. reflexivity.
  - exists (TRRef ty_int). split; [reflexivity|now exists ty_int].
Qed.
Print Assumptions C102_rvalue_reference_refuted.

(** IsSame and IsDifferent compare the types, qualifiers included. *)
Theorem C102_same : forall t u, (same t u = true <-> t = u) /\ (different t u = true <-> t <> u).
Proof.
  intros t u. pose proof (same_iff t u) as S. split; [assumption|]. unfold different. rewrite negb_true_iff.
  rewrite <- S. destruct (same t u); split; congruence.
Qed.
Print Assumptions C102_same.
(** ** C103 qualifiers *)
Theorem C103_add : forall t, wf t = true ->
  requalified true (is_volatile t) t (add_const t) /\ requalified (is_const t) true t (add_volatile t) /\
  requalified true true t (add_cv t).
Proof.
  intros t W. unfold requalified, add_const, add_volatile, add_cv. rewrite !const_qualify, !volatile_qualify, !qualify_qualify by assumption.
  pose proof (const_qualifiable t W). pose proof (volatile_qualifiable t W).
  destruct (qualifiable t), (is_const t), (is_volatile t); cbn; auto; try (specialize (H eq_refl); discriminate); try (specialize (H0 eq_refl); discriminate);
  repeat split.
Qed.
Print Assumptions C103_add.
Theorem C103_remove_cv : forall t, wf t = true -> requalified false false t (remove_cv t).
Proof.
  intros t W. unfold requalified, remove_cv. rewrite remove_cv_impl_without, const_without, volatile_without, qualify_without. auto.
Qed.
Print Assumptions C103_remove_cv.
(** The specification determines the type. *)
Theorem C103_spec_is_functional : forall c v t u u',
  wf t = true -> requalified c v t u -> requalified c v t u' -> u = u'.
Proof. exact requalified_unique. Qed.
Print Assumptions C103_spec_is_functional.
Example C103_cases :
  remove_cv (TArr (Some 3%N) (TPtr true true ty_const_int)) = TArr (Some 3%N) (TPtr false false ty_const_int) /\
  add_const (TPtr false true ty_int) = TPtr true true ty_int /\ add_const (TLRef ty_int) = TLRef ty_int /\
  wf (TArr (Some 3%N) (TPtr true true ty_const_int)) = true.
Proof. repeat split. Qed.

(** RemoveConst and RemoveVolatile: right when the other qualifier is absent ... *)
Theorem C103_remove_one_partial : forall t, wf t = true ->
  (is_volatile t = false -> requalified false (is_volatile t) t (remove_const t)) /\
  (is_const t = false -> requalified (is_const t) false t (remove_volatile t)).
Proof.
  intros t W. unfold requalified, remove_const, remove_volatile.
  rewrite !remove_cv_impl_without, !const_without, !volatile_without, !qualify_without, !qualify_qualify.
  split; intros ->; auto.
Qed.
Print Assumptions C103_remove_one_partial.
Example C103_remove_one_case : is_volatile ty_const_int = false /\ remove_const ty_const_int = ty_int.
Proof. split; reflexivity. Qed.
(** ... but each always removes both: RemoveConst<volatile int> is int. *)
Theorem C103_remove_one_refuted :
  (forall t, remove_const t = remove_cv t /\ remove_volatile t = remove_cv t) /\
  (wf ty_volatile_int = true /\ ~ requalified false true ty_volatile_int (remove_const ty_volatile_int)) /\
  (wf ty_const_int = true /\ ~ requalified true false ty_const_int (remove_volatile ty_const_int)).
Proof.
  split; [|split].
  - intro t. unfold remove_const, remove_volatile, remove_cv. now rewrite !remove_cv_impl_without, !without_qualify.
  - split; [reflexivity|]. intros (_ & H & _). discriminate H.
  - split; [reflexivity|]. intros (H & _). discriminate H.
Qed.
Print Assumptions C103_remove_one_refuted.

(** ** C104 references and pointers *)
Theorem C104_add_rvalue_reference : forall t, wf t = true -> std_add_rvalue_reference t (add_rvalue_reference t).
Proof.
  intros t W. unfold std_add_rvalue_reference, add_rvalue_reference, pointer_to, rvalue_ref_to.
  destruct t; cbn [is_ref]; auto; destruct (is_void _); auto.
Qed.
Print Assumptions C104_add_rvalue_reference.
Theorem C104_remove : forall t,
  (forall u, remove_reference (TLRef u) = u /\ remove_reference (TRRef u) = u) /\
  (is_ref t = false -> remove_reference t = t) /\
  (forall c v u, remove_pointer (TPtr c v u) = u) /\ (~ std_pointer t -> remove_pointer t = t).
Proof.
  intro t. repeat split; auto.
  - destruct t; cbn; auto; discriminate.
  - destruct t; cbn; auto. intro H. contradict H. unfold std_pointer. eauto.
Qed.
Print Assumptions C104_remove.
Example C104_remove_case :
  remove_pointer (TPtr true true (TPtr true false ty_int)) = TPtr true false ty_int /\
  add_rvalue_reference (TBase true false BVoid) = TBase true false BVoid /\
  add_rvalue_reference (TLRef ty_int) = TLRef ty_int /\ add_rvalue_reference ty_const_int = TRRef ty_const_int.
Proof. repeat split. Qed.

Theorem C104_add_lvalue_reference_partial : forall t, wf t = true ->
  (std_add_lvalue_reference t (add_lvalue_reference t) <-> ~ std_rvalue_reference t).
Proof.
  intros t W. unfold std_add_lvalue_reference, add_lvalue_reference, pointer_to, lvalue_ref_to, std_rvalue_reference.
  destruct t; cbn [is_ref]; try (split; [intros _ [u H]; discriminate|intros _; destruct (is_void _); reflexivity]).
  - split; [intros _ [u H]; discriminate|reflexivity].
  - split; [discriminate|]. intro H. contradict H. eauto.
Qed.
Print Assumptions C104_add_lvalue_reference_partial.
Theorem C104_add_pointer_partial : forall t, wf t = true ->
  (std_add_pointer t (add_pointer t) <-> is_ref t = false).
Proof.
  intros t W. unfold std_add_pointer, add_pointer, pointer_to.
  destruct t; cbn [is_ref remove_reference]; split; intro H; auto; try discriminate; exfalso.
  all: revert H; clear; intro H; inversion H.
Qed.
Print Assumptions C104_add_pointer_partial.
(** AddLValueReference<int&&> stays int&& (should be int&), AddPointer<int&> stays int& (should be int* ). *)
Theorem C104_references_refuted : forall u, wf (TRRef u) = true ->
  add_lvalue_reference (TRRef u) = TRRef u /\ ~ std_add_lvalue_reference (TRRef u) (TRRef u) /\
  add_pointer (TLRef u) = TLRef u /\ add_pointer (TRRef u) = TRRef u /\ ~ std_add_pointer (TLRef u) (TLRef u).
Proof. intros u _. repeat split; cbn; discriminate. Qed.
Print Assumptions C104_references_refuted.
Example C104_references_case : wf (TRRef ty_int) = true /\ add_pointer (TArr None ty_int) = TPtr false false (TArr None ty_int).
Proof. split; reflexivity. Qed.

(** ** C105 signedness *)
Theorem C105_make_signed_unsigned : forall b, standard_integer b \/ b = BChar ->
  (exists b', make_signed (TBase false false b) = Some (TBase false false b') /\ signed_version true b b' /\ same_rank b b') /\
  (exists b', make_unsigned (TBase false false b) = Some (TBase false false b') /\ signed_version false b b' /\ same_rank b b').
Proof.
  intros b H. cbn in H.
  repeat match goal with H : _ \/ _ |- _ => destruct H end; subst; try contradiction;
    (split; eexists; (split; [reflexivity|split; [split; [cbn; tauto|eexists; eexists; split; reflexivity]|cbn; tauto]])).
Qed.
Print Assumptions C105_make_signed_unsigned.
Example C105_make_case : standard_integer BLong /\ make_unsigned (TBase false false BLong) = Some (TBase false false BULong).
Proof. split; [cbn; tauto|reflexivity]. Qed.
(** Exactly the standard integer types and char have a result: wchar_t, char16_t, qualified types have none. *)
Theorem C105_make_domain : forall t,
  (make_signed t <> None <-> exists b, t = TBase false false b /\ (standard_integer b \/ b = BChar)) /\
  (make_unsigned t <> None <-> exists b, t = TBase false false b /\ (standard_integer b \/ b = BChar)).
Proof.
  intro t; split; (split;
    [intro H; destruct t as [[] [] b| | | | |]; cbn in H; try contradiction; exists b; split; [reflexivity|];
     destruct b; cbn in *; try contradiction; tauto
    |intros (b & -> & H); cbn in H; intuition (subst; discriminate)]).
Qed.
Print Assumptions C105_make_domain.
Theorem C105_is_signed : forall c v b, number_of b <> None ->
  exists s, IsSigned (TBase c v b) = Some s /\ IsUnsigned (TBase c v b) = Some (negb s) /\ (s = true <-> has_negative b).
Proof.
  intros c v b H. destruct b; cbn in H; try contradiction;
    (match goal with |- context [IsSigned ?t] => let x := eval vm_compute in (IsSigned t) in
       match x with Some ?s => exists s end end;
     split; [vm_compute; reflexivity|split; [vm_compute; reflexivity|]];
     split; intro K; try discriminate; try (eexists; (left + right); reflexivity);
     destruct K as [n [K|K]]; discriminate K).
Qed.
Print Assumptions C105_is_signed.
Example C105_is_signed_case :
  number_of BWChar <> None /\ IsSigned (TBase true false BWChar) = Some true /\ IsSigned (TBase false false BBool) = Some false /\
  IsSigned (TBase false false BDouble) = Some true.
Proof. repeat split; vm_compute; congruence. Qed.

(** ** C106 numbers reported by queries *)
(** std::rank: how often [] has to be taken off; std::extent: the bound of the outermost array, 0 if there is none *)
Inductive has_rank : ty -> N -> Prop :=
| hr_array n t r : has_rank t r -> has_rank (TArr n t) (r + 1)
| hr_other t : (forall n u, t <> TArr n u) -> has_rank t 0.
Inductive has_extent : ty -> N -> Prop :=
| he_bound n t : has_extent (TArr (Some n) t) n
| he_other t : (forall n u, t <> TArr (Some n) u) -> has_extent t 0.
Theorem C106_std : forall t n, (std_rank t = n <-> has_rank t n) /\ (std_extent t = n <-> has_extent t n).
Proof.
  intros t n. split; split.
  - intros <-. induction t; try (apply hr_other; congruence). cbn [std_rank]. rewrite <- N.add_1_r. now apply hr_array.
  - induction 1 as [m t r H IH|t H]; [cbn [std_rank]; lia|]. destruct t; try reflexivity. exfalso. eapply H. reflexivity.
  - intros <-. destruct t as [| | | |[m|] t|]; try (apply he_other; congruence). apply he_bound.
  - destruct 1 as [m t|t H]; [reflexivity|]. destruct t as [| | | |[m|] t|]; try reflexivity. exfalso. eapply H. reflexivity.
Qed.
Print Assumptions C106_std.
Theorem C106_rank_partial : forall t, Rank t = std_rank t <-> (std_rank t <= 1)%N.
Proof. intro t. unfold Rank, through_bool. destruct (N.eqb_spec (std_rank t) 0); lia. Qed.
Print Assumptions C106_rank_partial.
Theorem C106_extent_partial : forall t, Extent t = std_extent t <-> (std_extent t <= 1)%N.
Proof. intro t. unfold Extent, through_bool. destruct (N.eqb_spec (std_extent t) 0); lia. Qed.
Print Assumptions C106_extent_partial.
Theorem C106_alignment_partial : forall alignment t, (1 <= alignment t)%N ->
  AlignmentOf alignment t = 1%N /\ (AlignmentOf alignment t = alignment t <-> alignment t = 1%N).
Proof. intros a t H. unfold AlignmentOf, through_bool. destruct (N.eqb_spec (a t) 0); lia. Qed.
Print Assumptions C106_alignment_partial.
(** int[3][3] has rank 2 and extent 3; both queries say 1. *)
Theorem C106_numbers_refuted :
  exists t, wf t = true /\ std_rank t = 2%N /\ Rank t = 1%N /\ std_extent t = 3%N /\ Extent t = 1%N.
Proof. exists (TArr (Some 3%N) (TArr (Some 3%N) ty_int)). repeat split. Qed.
Print Assumptions C106_numbers_refuted.
Example C106_case : Rank ty_int = 0%N /\ Rank (TArr (Some 3%N) ty_int) = 1%N /\ Extent (TArr (Some 1%N) ty_int) = 1%N /\ AlignmentOf (fun _ => 8%N) ty_int = 1%N.
Proof. repeat split. Qed.

(** ** C107 operator detection *)
Theorem C107_operators_partial : forall (T : Type) (valid : op -> T -> T -> bool) o t,
  o <> BitOr -> HasOperator valid o t = valid o t t.
Proof. intros T valid o t H. destruct o; reflexivity || contradiction. Qed.
Print Assumptions C107_operators_partial.
Example C107_case : HasOperator (fun o (_ _ : unit) => match o with Add => true | _ => false end) Add tt = true.
Proof. reflexivity. Qed.
(** HasBitwiseOrOperatorType tests for operator&: a type with only one of the two operators is reported wrongly. *)
Theorem C107_bitwise_or_refuted :
  (forall (T : Type) (valid : op -> T -> T -> bool) t, HasOperator valid BitOr t = valid BitAnd t t) /\
  (exists (valid : op -> unit -> unit -> bool), valid BitOr tt tt = true /\ HasOperator valid BitOr tt = false) /\
  (exists (valid : op -> unit -> unit -> bool), valid BitOr tt tt = false /\ HasOperator valid BitOr tt = true).
Proof.
  split; [reflexivity|split].
  - exists (fun o _ _ => match o with BitOr => true | _ => false end). auto.
  - exists (fun o _ _ => match o with BitAnd => true | _ => false end). auto.
Qed.
Print Assumptions C107_bitwise_or_refuted.
(** HasSubscriptOperatorType indexes the type by itself: a vector-like type (true) that is indexed by a
    number (false) is not recognised. *)
Theorem C107_subscript_refuted :
  exists (valid : op -> bool -> bool -> bool), valid Subscript true false = true /\ HasOperator valid Subscript true = false.
Proof. exists (fun o a b => match o with Subscript => a && negb b | _ => false end). auto. Qed.
Print Assumptions C107_subscript_refuted.
