(** Property C142: expressions over BigFloat, whole numbers; the derived comparison operators. *)
From Coq Require Import List NArith ZArith Bool Lia.
From Verif Require Import DecProofs Outcome CharModel StrModel BigInt BigFloat SpecInt SpecFloat BigFloatStates BigFloatFacts BigFloatOps BigFloatClaims BigFloatProps FloatExpr.
Import ListNotations.
Local Open Scope Z_scope.

(** What an expression over whole numbers means; / drops the fraction; None: refused. *)
Definition fmeans_op (o : foperator) (x y : Z) : option Z :=
  match o with
  | FAdd => Some (x + y) | FSub => Some (x - y) | FMul => Some (x * y)
  | FDiv => if y =? 0 then None else Some (Z.quot x y)
  end.
Inductive fmeans : fexpr -> option Z -> Prop :=
| fm_text t z : int_numeral t z -> fmeans (FText t) (Some z)
| fm_bin o a b x y : fmeans a (Some x) -> fmeans b (Some y) -> fmeans (FBin o a b) (fmeans_op o x y)
| fm_left o a b : fmeans a None -> fmeans (FBin o a b) None
| fm_right o a b x : fmeans a (Some x) -> fmeans b None -> fmeans (FBin o a b) None.
(** The operands on which the operators are right. *)
Definition ffine (o : foperator) (x y : Z) : Prop :=
  match o with FAdd | FSub => 0 <= x /\ 0 <= y | FMul => x = 0 \/ y = 0 | FDiv => True end.
Fixpoint ftame (e : fexpr) : Prop :=
  match e with
  | FText _ => True
  | FBin o a b => ftame a /\ ftame b /\ forall x y, fmeans a (Some x) -> fmeans b (Some y) -> ffine o x y
  end.

Lemma op_fine fuel o a b x y : bf_built a -> bf_built b -> fshows a x 0 -> fshows b y 0 -> ffine o x y ->
  match fmeans_op o x y with
  | Some z => exists r, run_foperator fuel o a b = Ok r /\ bf_built r /\ fshows r z 0
  | None => run_foperator fuel o a b = Throw EInvalidArgument
  end.
Proof.
  intros A B Sa Sb F. destruct o; cbn [fmeans_op run_foperator ffine] in *.
  - destruct (proj1 (add_whole_shows a b x y A B Sa Sb (proj1 F) (proj2 F) fuel)) as (r & E & S).
    exists r. split; [exact E|]. split; [exact (bf_built_add _ _ _ _ A B E)|exact S].
  - destruct (proj2 (add_whole_shows a b x y A B Sa Sb (proj1 F) (proj2 F) fuel)) as (r & E & S).
    exists r. split; [exact E|]. split; [exact (bf_built_sub _ _ _ _ A B E)|exact S].
  - destruct (C54_whole_refuted a b x y A B Sa Sb) as (r & E & S). exists r. split; [exact E|]. split; [exact (bf_built_mul _ _ _ A B E)|].
    replace (x * y) with (100 * x * y) by (destruct F as [->| ->]; ring). exact S.
  - destruct (Z.eqb_spec y 0) as [->|N]; [now apply C55_by_zero|].
    destruct (div_whole_shows a b x y A B Sa Sb N) as (r & E & S). exists r. split; [exact E|]. split; [exact (bf_built_div _ _ _ A B E)|exact S].
Qed.
Lemma numeral_ascii t z : int_numeral t z -> Forall (fun b => 1 <= b < 128)%N t.
Proof.
  assert (D : forall ds, Forall ascii_digit ds -> Forall (fun b => 1 <= b < 128)%N ds).
  { intros ds. apply Forall_impl. unfold ascii_digit. lia. }
  inversion 1; subst; auto; constructor; auto; lia.
Qed.
Lemma frun_means fuel e r : fmeans e r -> ftame e ->
  match r with
  | Some z => exists f, frun fuel e = Ok f /\ bf_built f /\ fshows f z 0
  | None => frun fuel e = Throw EInvalidArgument
  end.
Proof.
  induction 1 as [t z H|o a b x y Ma IHa Mb IHb|o a b Ma IHa|o a b x Ma IHa Mb IHb]; cbn [ftame frun]; intros T.
  - destruct (reads_whole t z H) as (f & E & S). exists f. split; [exact E|]. split; [|exact S].
    exact (bf_built_text t f (numeral_ascii t z H) E).
  - destruct T as (Ta & Tb & F). destruct (IHa Ta) as (va & Ea & Ba & Sa). destruct (IHb Tb) as (vb & Eb & Bb & Sb).
    rewrite Ea, Eb. cbn [bind]. exact (op_fine fuel o va vb x y Ba Bb Sa Sb (F x y Ma Mb)).
  - now rewrite (IHa (proj1 T)).
  - destruct T as (Ta & Tb & _). destruct (IHa Ta) as (va & -> & _). cbn [bind]. now rewrite (IHb Tb).
Qed.

(** C142.  Such an expression shows its value, or throws invalid_argument. *)
Theorem C142_value_partial : forall fuel e, ftame e ->
  (forall z, fmeans e (Some z) -> exists f, frun fuel e = Ok f /\ fshows f z 0) /\
  (fmeans e None -> frun fuel e = Throw EInvalidArgument).
Proof.
  intros fuel e T. split.
  - intros z M. destruct (frun_means fuel e _ M T) as (f & E & _ & S). eauto.
  - intros M. exact (frun_means fuel e _ M T).
Qed.
Print Assumptions C142_value_partial.
(** Two of them compare as their values do if these are not negative. *)
Theorem C142_compare_partial : forall fuel e f x y, ftame e -> ftame f -> fmeans e (Some x) -> fmeans f (Some y) -> 0 <= x -> 0 <= y ->
  exists a b, frun fuel e = Ok a /\ frun fuel f = Ok b /\
    bf_lt a b = (x <? y) /\ bf_gt a b = (y <? x) /\ bf_le a b = (x <=? y) /\ bf_ge a b = (y <=? x) /\
    bf_equal a b = (x =? y) /\ bf_ne a b = negb (x =? y).
Proof.
  intros fuel e f x y Te Tf Me Mf X Y.
  destruct (frun_means fuel e _ Me Te) as (a & Ea & Ba & Sa). destruct (frun_means fuel f _ Mf Tf) as (b & Eb & Bb & Sb).
  exists a, b. split; [exact Ea|]. split; [exact Eb|].
  assert (N : num_digits 0 0) by (left; auto).
  destruct (C56_order_partial a b x 0 0%nat y 0 0%nat Ba Bb Sa Sb X Y (Z.le_refl 0) (Z.le_refl 0) N N (or_introl eq_refl)) as (L & G & E).
  cbn [Z.of_nat] in L, G, E. rewrite Z.pow_0_r, !Z.mul_1_r, !Z.add_0_r in L, G, E.
  unfold bf_le, bf_ge, bf_ne. rewrite L, G, E. repeat split.
  - destruct (Z.ltb_spec x y), (Z.eqb_spec x y), (Z.leb_spec x y); cbn; try reflexivity; lia.
  - destruct (Z.ltb_spec y x), (Z.eqb_spec x y), (Z.leb_spec y x); cbn; try reflexivity; lia.
Qed.
Print Assumptions C142_compare_partial.
(** On all BigFloats: the derived operators are the complements. *)
Theorem C142_operators : forall a b, bf_built a -> bf_built b ->
  bf_le a b = negb (bf_gt a b) /\ bf_ge a b = negb (bf_lt a b) /\ bf_ne a b = negb (bf_equal a b) /\
  (bf_ne a b = true <-> bf_to_string a <> bf_to_string b) /\ bf_ge a b = bf_le b a.
Proof.
  intros a b A B. destruct C56_strict_total_order as (I & T & C & G).
  assert (X : bf_equal a b = true -> bf_lt a b = false /\ bf_lt b a = false).
  { intros E. pose proof (I a A) as Ia. apply bf_built_fl in A as (x & p & ->). apply bf_built_fl in B as (y & q & ->).
    rewrite equal_fl in E. apply andb_prop in E as (E1 & E2). apply Z.eqb_eq in E1, E2. subst. auto. }
  assert (Y : bf_lt a b = true -> bf_lt b a = false).
  { intros L. destruct (bf_lt b a) eqn:M; [|reflexivity]. pose proof (T a b a A B A L M). rewrite I in H by assumption. discriminate. }
  assert (S : bf_equal b a = bf_equal a b).
  { clear X Y. apply bf_built_fl in A as (x & p & ->). apply bf_built_fl in B as (y & q & ->). rewrite !equal_fl.
    now rewrite (Z.eqb_sym y x), (Z.eqb_sym q p). }
  pose proof (C a b A B) as D. pose proof (G a b A B) as Ga.
  assert (Q : bf_equal a b = true <-> bf_to_string a = bf_to_string b).
  { destruct (bf_built_fl a A) as (x & p & Ea). destruct (bf_built_fl b B) as (y & q & Eb).
    apply (C56_equal_partial a b x p y q A B); [rewrite Ea|rewrite Eb]; apply fl_shows. }
  unfold bf_le, bf_ge, bf_ne. rewrite S, Ga. rewrite <- Q.
  destruct (bf_equal a b) eqn:E; [destruct X as (-> & ->); [reflexivity|]; cbn; intuition discriminate|].
  destruct (bf_lt a b) eqn:L; [rewrite Y by reflexivity; cbn; intuition discriminate|].
  destruct D as [D|[D|D]]; try discriminate. rewrite D. cbn. intuition discriminate.
Qed.
Print Assumptions C142_operators.
(** Every product of numbers other than zero is wrong. *)
Theorem C142_multiply_refuted : forall fuel e f x y, ftame e -> ftame f -> fmeans e (Some x) -> fmeans f (Some y) -> x <> 0 -> y <> 0 ->
  fmeans (FBin FMul e f) (Some (x * y)) /\ exists r, frun fuel (FBin FMul e f) = Ok r /\ fshows r (100 * x * y) 0 /\ 100 * x * y <> x * y.
Proof.
  intros fuel e f x y Te Tf Me Mf X Y. split; [exact (fm_bin FMul e f x y Me Mf)|].
  destruct (frun_means fuel e _ Me Te) as (a & Ea & Ba & Sa). destruct (frun_means fuel f _ Mf Tf) as (b & Eb & Bb & Sb).
  destruct (C54_whole_refuted a b x y Ba Bb Sa Sb) as (r & E & S). exists r. cbn [frun run_foperator]. rewrite Ea, Eb. cbn [bind].
  split; [exact E|]. split; [exact S|]. nia.
Qed.
Print Assumptions C142_multiply_refuted.
(** (17 + 25) / (5 - 2) is 14; 7 / (2 - 2) is refused; 3 <= 3 *)
Definition t_17 := FText [49; 55]%N. Definition t_25 := FText [50; 53]%N. Definition t_5 := FText [53]%N. Definition t_2 := FText [50]%N.
Example C142_ex :
  (r <- frun 0 (FBin FDiv (FBin FAdd t_17 t_25) (FBin FSub t_5 t_2)) ;; bf_to_string r) = Ok (ascii_chars [49; 52]%N) /\
  frun 0 (FBin FDiv t_5 (FBin FSub t_2 t_2)) = Throw EInvalidArgument /\
  (a <- frun 0 t_5 ;; b <- frun 0 (FBin FSub t_25 (FBin FAdd t_17 t_2)) ;; Ok (bf_le a b, bf_ge a b, bf_ne a b)) = Ok (true, false, true) /\
  ftame (FBin FDiv (FBin FAdd t_17 t_25) (FBin FSub t_5 t_2)) /\
  fmeans (FBin FDiv (FBin FAdd t_17 t_25) (FBin FSub t_5 t_2)) (Some 14).
Proof.
  assert (T : forall ds z, Forall ascii_digit ds -> ds <> [] -> digits_value ds = z -> fmeans (FText ds) (Some z))
    by (intros ds z F N <-; constructor; now constructor).
  assert (M17 : fmeans t_17 (Some 17)) by (apply T; [repeat constructor; discriminate|discriminate|reflexivity]).
  assert (M25 : fmeans t_25 (Some 25)) by (apply T; [repeat constructor; discriminate|discriminate|reflexivity]).
  assert (M5 : fmeans t_5 (Some 5)) by (apply T; [repeat constructor; discriminate|discriminate|reflexivity]).
  assert (M2 : fmeans t_2 (Some 2)) by (apply T; [repeat constructor; discriminate|discriminate|reflexivity]).
  assert (U : forall t z w, fmeans (FText t) (Some z) -> fmeans (FText t) (Some w) -> z = w).
  { intros t z w A B. inversion A; subst. inversion B; subst. eapply int_numeral_fun; eauto. }
  split; [vm_compute; reflexivity|]. split; [vm_compute; reflexivity|]. split; [vm_compute; reflexivity|]. split.
  - cbn [ftame ffine]. repeat match goal with |- _ /\ _ => split end; try exact Logic.I; intros x y X Y; try exact Logic.I.
    + rewrite (U _ _ _ X M17), (U _ _ _ Y M25). lia.
    + rewrite (U _ _ _ X M5), (U _ _ _ Y M2). lia.
  - apply (fm_bin FDiv _ _ 42 3); [now apply (fm_bin FAdd _ _ 17 25)|now apply (fm_bin FSub _ _ 5 2)].
Qed.
