(** Final theorems about the assertion macros: C112-C115. *)
From Coq Require Import String List NArith ZArith Bool Lia.
From Verif Require Import Outcome CharModel StrModel TestRegistry Dec JsonData Asserts.
Import ListNotations.
Local Open Scope list_scope.

(** The relation a macro names, on integers. *)
Definition holds (r : relation) (a b : Z) : Prop :=
  match r with REq => a = b | RNe => a <> b | RLt => a < b | RLe => a <= b | RGt => a > b | RGe => a >= b end%Z.
(** The six operators of an integer type. *)
Definition int_ops (r : relation) (a b : Z) : bool :=
  match r with
  | REq => Z.eqb a b | RNe => negb (Z.eqb a b) | RLt => Z.ltb a b | RLe => Z.leb a b | RGt => Z.gtb a b | RGe => Z.geb a b
  end.
Lemma int_ops_holds r a b : int_ops r a b = true <-> holds r a b.
Proof. destruct r; cbn; rewrite ?negb_true_iff, ?Z.eqb_eq, ?Z.eqb_neq, ?Z.ltb_lt, ?Z.leb_le, ?Z.gtb_gt, ?Z.geb_le; lia. Qed.

(** ** C112 an assertion passes exactly when its relation holds *)
(** For any operands that have values, whatever else they do, and either order of evaluation: the macro
    returns iff the relation holds of the values - then each operand was evaluated once. *)
Theorem C112_passes_iff : forall (W : Type) (e1 e2 : @expr W Z) r src1 src2 show o1 o2 w a b w1,
  both o1 e1 e2 w = (Value (a, b), w1) ->
  let m := assert_rel int_ops show show o1 o2 r src1 src2 e1 e2 in
  (holds r a b -> m w = (Returns, w1)) /\
  (~ holds r a b -> fst (m w) <> Returns).
Proof.
  intros W e1 e2 r src1 src2 show o1 o2 w a b w1 E m. unfold m, assert_rel. rewrite E.
  destruct (int_ops r a b) eqn:O; cbn [negb].
  - split; [reflexivity|]. intros H. apply int_ops_holds in O. contradiction.
  - split; [intro H; apply int_ops_holds in H; congruence|]. intros _.
    destruct (both o2 e1 e2 w1) as [[[a' b']|[]] w2]; cbn; discriminate.
Qed.
Print Assumptions C112_passes_iff.
(** How a relation is written, and the relation that holds instead. *)
Definition symbol (r : relation) : list N :=
  match r with
  | REq => lit "==" | RNe => lit "!=" | RLt => lit "<" | RLe => lit "<=" | RGt => lit ">" | RGe => lit ">="
  end.
Definition opposite (r : relation) : relation :=
  match r with REq => RNe | RNe => REq | RLt => RGe | RLe => RGt | RGt => RLe | RGe => RLt end.
(** Operands without effects: a failing assertion throws std::runtime_error, and its message shows the
    asserted relation of the two expressions and the opposite relation, which does hold, of their values. *)
Theorem C112_failure_message : forall (W : Type) (w : W) a b r src1 src2 show o1 o2, ~ holds r a b ->
  holds (opposite r) a b /\
  assert_rel int_ops show show o1 o2 r src1 src2 (constant a) (constant b) w =
  (ThrowsStd (lit "Assertion failed: " ++ src1 ++ lit " " ++ symbol r ++ lit " " ++ src2 ++
              lit " (" ++ show a ++ lit " " ++ symbol (opposite r) ++ lit " " ++ show b ++ lit ")" ++ [0%N]), w).
Proof.
  intros W w a b r src1 src2 show o1 o2 H. split; [destruct r; cbn in *; lia|]. unfold assert_rel, both, constant.
  assert (O : int_ops r a b = false). { destruct (int_ops r a b) eqn:O; [|reflexivity]. apply int_ops_holds in O. contradiction. }
  assert (S1 : forall l, rel_text r ++ l = lit " " ++ symbol r ++ lit " " ++ l) by (intros l; destruct r; reflexivity).
  assert (S2 : forall l, opposite_text r ++ l = lit " " ++ symbol (opposite r) ++ lit " " ++ l) by (intros l; destruct r; reflexivity).
  destruct o1, o2; rewrite O; cbn [negb]; unfold runtime_error; now rewrite <- !app_assoc, S1, S2.
Qed.
Print Assumptions C112_failure_message.
Example C112_case : let m := assert_rel (W := unit) int_ops dec_of_Z dec_of_Z true true RLt (lit "x") (lit "3") in
  m (constant 2%Z) (constant 3%Z) tt = (Returns, tt) /\ ~ holds RLt 5 3 /\
  m (constant 5%Z) (constant 3%Z) tt = (ThrowsStd (lit "Assertion failed: x < 3 (5 >= 3)" ++ [0%N]), tt).
Proof. repeat split. cbn. lia. Qed.

(** ** C113 operands are evaluated once *)
(** A passing assertion, ASSERT_TRUE and ASSERT_FALSE evaluate their operands once: the world afterwards is the
    one their evaluation left. *)
Theorem C113_passing_partial : forall (W A B : Type) (ops : relation -> A -> B -> bool) s1 s2 o1 o2 r src1 src2 (e1 : @expr W A) (e2 : @expr W B) w w',
  assert_rel ops s1 s2 o1 o2 r src1 src2 e1 e2 w = (Returns, w') ->
  exists a b, both o1 e1 e2 w = (Value (a, b), w') /\ ops r a b = true.
Proof.
  intros W A B ops s1 s2 o1 o2 r src1 src2 e1 e2 w w' H. unfold assert_rel in H.
  destruct (both o1 e1 e2 w) as [[[a b]|x] w1] eqn:E.
  - destruct (ops r a b) eqn:O; cbn [negb] in H.
    + inversion H; subst. eauto.
    + destruct (both o2 e1 e2 w1) as [[[a' b']|[]] w2] eqn:E2; inversion H.
  - destruct x; inversion H.
Qed.
Print Assumptions C113_passing_partial.
(** The operands are evaluated one after the other, in either order, each once and in the world that the other left;
    an operand that throws ends the evaluation. *)
Inductive in_turn {W A B} (e1 : @expr W A) (e2 : @expr W B) (w : W) : eval (A * B) -> W -> Prop :=
| it_both a b w1 w2 : e1 w = (Value a, w1) -> e2 w1 = (Value b, w2) -> in_turn e1 e2 w (Value (a, b)) w2
| it_first x w1 : e1 w = (Raises x, w1) -> in_turn e1 e2 w (Raises x) w1
| it_second a x w1 w2 : e1 w = (Value a, w1) -> e2 w1 = (Raises x, w2) -> in_turn e1 e2 w (Raises x) w2.
Definition swapped {A B} (r : eval (A * B)) : eval (B * A) := match r with Value (a, b) => Value (b, a) | Raises x => Raises x end.
Theorem C113_operands : forall (W A B : Type) (e1 : @expr W A) (e2 : @expr W B) w,
  in_turn e1 e2 w (fst (both true e1 e2 w)) (snd (both true e1 e2 w)) /\
  in_turn e2 e1 w (swapped (fst (both false e1 e2 w))) (snd (both false e1 e2 w)).
Proof.
  intros W A B e1 e2 w. unfold both. split.
  - destruct (e1 w) as [[a|x] w1] eqn:E1; [|now constructor]. destruct (e2 w1) as [[b|x] w2] eqn:E2; econstructor; eassumption.
  - destruct (e2 w) as [[b|x] w1] eqn:E2; [|now constructor]. destruct (e1 w1) as [[a|x] w2] eqn:E1; econstructor; eassumption.
Qed.
Print Assumptions C113_operands.
Example C113_operands_ex : let e1 : expr nat := fun w => (Value w, S w) in let e2 : expr nat := fun w => (Value (2 * w)%nat, (2 * w)%nat) in
  both true e1 e2 3%nat = (Value (3, 8)%nat, 8%nat) /\ both false e1 e2 3%nat = (Value (6, 6)%nat, 7%nat).
Proof. split; reflexivity. Qed.
Theorem C113_condition_once : forall (W : Type) src (e : @expr W bool) w,
  snd (assert_true src e w) = snd (e w) /\ snd (assert_false src e w) = snd (e w) /\
  (forall c, fst (e w) = Value c ->
     (fst (assert_true src e w) = Returns <-> c = true) /\ (fst (assert_false src e w) = Returns <-> c = false)).
Proof.
  intros W src e w. unfold assert_true, assert_false. destruct (e w) as [[c|x] w1]; cbn.
  - destruct c; cbn; repeat split; intros; try discriminate; congruence.
  - repeat split; discriminate.
Qed.
Print Assumptions C113_condition_once.
Example C113_case : snd (assert_true (W := nat) [] (fun n => (Value (Nat.eqb n 0), S n)) 0) = 1 /\
  snd (assert_rel (W := nat) int_ops dec_of_Z dec_of_Z true true REq [] [] (fun n => (Value (Z.of_nat n), S n)) (constant 0%Z) 0) = 1.
Proof. split; reflexivity. Qed.
(** A failing comparison evaluates them twice, and the message shows the second values: with a counter
    that gives 1, 2, ..., ASSERT_EQ(next(), 2) fails with "(2 != 2)". *)
Theorem C113_failing_refuted :
  let next : @expr Z Z := fun n => (Value (n + 1)%Z, (n + 1)%Z) in
  assert_rel int_ops dec_of_Z dec_of_Z true true REq (lit "next()") (lit "2") next (constant 2%Z) 0%Z =
  (ThrowsStd (lit "Assertion failed: next() == 2 (2 != 2)" ++ [0%N]), 2%Z).
Proof. reflexivity. Qed.
Print Assumptions C113_failing_refuted.

(** ** C114 assertions behave like one statement *)
(** Used where no else follows, ASSERT_TRUE is a statement of its own. *)
Theorem C114_without_else_partial : forall (W : Type) (c e : @expr W bool) src w,
  if_statement c (if_statement (negated e) (throw_statement (runtime_error (lit "Assertion failed: " ++ src))) None) None w =
  if_statement c (assert_true src e) None w.
Proof.
  intros W c e src w. unfold if_statement, negated, assert_true, throw_statement.
  destruct (c w) as [[[]|x] w1]; try reflexivity. destruct (e w1) as [[[]|y] w2]; reflexivity.
Qed.
Print Assumptions C114_without_else_partial.
(** "if (c) ASSERT_TRUE(e); else s": when c does not hold nothing happens, and s runs after a passed
    assertion. *)
Theorem C114_else_refuted : forall (W : Type) (s : @statement W) src w,
  (forall e, if_assert_true_else (constant false) src e s w = (Returns, w)) /\
  (forall e w1, e w = (Value true, w1) -> if_assert_true_else (constant true) src e s w = s w1) /\
  (forall e, if_statement (constant false) (assert_true src e) (Some s) w = s w).
Proof.
  intros W s src w. repeat split.
  intros e w1 H. unfold if_assert_true_else, if_statement, negated, constant. now rewrite H.
Qed.
Print Assumptions C114_else_refuted.
Example C114_case : let s : @statement nat := fun n => (Returns, n + 7) in
  if_assert_true_else (constant false) [] (constant true) s 0 = (Returns, 0) /\
  if_statement (constant false) (assert_true [] (constant true)) (Some s) 0 = (Returns, 7).
Proof. split; reflexivity. Qed.

(** ** C115 every way of failing is reported to the runner *)
Theorem C115_fail_and_pass : forall (W : Type) (w : W),
  pass w = (Returns, w) /\ fail w = (ThrowsStd (lit "Assertion failed: false" ++ [0%N]), w).
Proof. split; reflexivity. Qed.
Print Assumptions C115_fail_and_pass.
(** ASSERT_STREQ passes exactly for equal strings (or two null pointers) ... *)
Theorem C115_streq_passes_iff : forall e a, assert_streq e a = StrPass <-> e = a.
Proof.
  intros [e|] [a|]; cbn; try (split; (discriminate || reflexivity)).
  destruct (list_eq_dec N.eq_dec e a) as [->|H]; split; try reflexivity; try discriminate. intros [= ->]. contradiction.
Qed.
Print Assumptions C115_streq_passes_iff.
(** ... but a failing one throws nothing: it ends the whole process. *)
(** What is printed before: a text in quotation marks, a null pointer as nullptr *)
Definition in_quotes (x : option (list N)) : list N := match x with None => lit "nullptr" | Some t => 34%N :: t ++ [34%N] end.
Theorem C115_streq_reported_refuted : forall e a, e <> a ->
  assert_streq e a = StrAbort (lit "Assertion failed: Expected " ++ in_quotes e ++ lit ", but got " ++ in_quotes a ++ [10%N]).
Proof.
  intros [e|] [a|] H; cbn [assert_streq in_quotes].
  - destruct (list_eq_dec N.eq_dec e a) as [->|N]; [now elim H|]. f_equal.
    change (lit "Assertion failed: Expected """) with (lit "Assertion failed: Expected " ++ [34%N]).
    change (lit """, but got """) with (34%N :: lit ", but got " ++ [34%N]). change (lit """") with [34%N].
    rewrite <- !app_assoc. cbn [app]. rewrite <- ?app_assoc. reflexivity.
  - f_equal. change (lit "Assertion failed: Expected """) with (lit "Assertion failed: Expected " ++ [34%N]).
    change (lit """, but got nullptr") with (34%N :: lit ", but got " ++ lit "nullptr").
    rewrite <- !app_assoc. cbn [app]. rewrite <- ?app_assoc. reflexivity.
  - f_equal. change (lit "Assertion failed: Expected nullptr, but got """) with (lit "Assertion failed: Expected " ++ lit "nullptr" ++ lit ", but got " ++ [34%N]).
    change (lit """") with [34%N]. rewrite <- !app_assoc. cbn [app]. rewrite <- ?app_assoc. reflexivity.
  - now elim H.
Qed.
Print Assumptions C115_streq_reported_refuted.
Example C115_streq_case : Some (lit "a") <> Some (lit "b") /\
  assert_streq (Some (lit "a")) (Some (lit "b")) = StrAbort (lit "Assertion failed: Expected ""a"", but got ""b""" ++ [10%N]).
Proof. split; [discriminate|reflexivity]. Qed.
(** FAIL_MESSAGE() << text fails the test with file, line and the text ... *)
Theorem C115_fail_message_partial : forall file line p,
  fail_message_statement file line [p] =
  ThrowsStd (lit "FAILURE: Test failed at " ++ s_str file ++ lit ":" ++ dec_of_Z line ++ lit " - " ++ p ++ [0%N]).
Proof.
  intros. unfold fail_message_statement, fm_chain, fm_shift, fm_fail, runtime_error. cbn [fm_file fm_line fm_message app].
  now rewrite <- !app_assoc.
Qed.
Print Assumptions C115_fail_message_partial.
Example C115_fail_message_case : fail_message_statement [[97%N]] 12 [lit "oops"] = ThrowsStd (lit "FAILURE: Test failed at a:12 - oops" ++ [0%N]).
Proof. reflexivity. Qed.
(** ... but everything after the first piece is lost, and without a piece the test does not fail. *)
Theorem C115_fail_message_refuted : forall file line,
  fail_message_statement file line [] = Returns /\
  (forall p ps, fail_message_statement file line (p :: ps) = fail_message_statement file line [p]).
Proof. intros file line. split; [reflexivity|]. intros p ps. unfold fail_message_statement. cbn. reflexivity. Qed.
Print Assumptions C115_fail_message_refuted.
