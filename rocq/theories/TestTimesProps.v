(** Properties C128, C129: the log and the times of the test runner; the names that the test macros define.  As in
    TestRegistryProps.v everything holds for every type of test functions [F], every world [W] and every [run]. *)
From Coq Require Import List NArith ZArith Bool Lia.
From Verif Require Import Outcome CharModel CharProofs StrModel StrProofs StdMap TestRegistry SpecUtf8 SpecStr SpecTest
  TestRegistryProofs TestRegistryProps TestTimes SpecInt BigIntProofs.
Import ListNotations.
Local Open Scope list_scope.
Local Arguments string_of_cstr : simpl never.

(** What the log says about one test that was called and ended in this way *)
Inductive test_log {F} : test_case F * behaviour -> list event -> Prop :=
| tl_ok t : test_log (t, Returns) [LogTestStart (suite_name t) (test_name t); LogTestOk (suite_name t) (test_name t)]
| tl_std t what m r : text m -> what = concat m ++ 0%N :: r ->
    test_log (t, ThrowsStd what) [LogTestStart (suite_name t) (test_name t); LogTestFailure (suite_name t) (test_name t) m]
| tl_other t :
    test_log (t, ThrowsOther) [LogTestStart (suite_name t) (test_name t);
      LogTestFailure (suite_name t) (test_name t) (map (fun b => [b]) [85; 110; 107; 110; 111; 119; 110; 32; 101; 114; 114; 111; 114]%N)].
Definition suite_log {F} (g : Str * list (test_case F * behaviour)) (l : list event) : Prop :=
  exists ls, Forall2 test_log (snd g) ls /\
    l = LogSuiteStart (fst g) (length (snd g)) :: concat ls ++ [LogSuiteEnd (fst g) (length (snd g))].

Section Log.
Context {F W : Type} (run : F -> W -> behaviour * W).
Notation tc := (test_case F).
Hypothesis bytes : forall f w b w' what, run f w = (b, w') -> b = ThrowsStd what -> Forall is_byte what.

Lemma run_test_log t (s : @rstate F W) t' s' : run_test run t s = (t', s', Ok tt) ->
  exists b l, trace s' = trace s ++ [(t, b)] /\ log s' = log s ++ l /\ test_log (t, b) l.
Proof.
  unfold run_test. cbn [emit world]. destruct (run (func t) (world s)) as [b w] eqn:R. destruct b as [|what|].
  - cbn [passed]. intros [= <- <-]. exists Returns. eexists. cbn. split; [reflexivity|]. rewrite <- app_assoc. split; [reflexivity|]. constructor.
  - unfold handle. destruct (string_of_cstr what) as [m|e| |] eqn:M; try discriminate. cbn [passed]. intros [= <- <-].
    exists (ThrowsStd what). eexists. cbn. split; [reflexivity|]. rewrite <- app_assoc. split; [reflexivity|].
    assert (B : Forall is_byte what) by (eapply bytes; [exact R|reflexivity]).
    destruct (string_of_cstr_ok what m B M) as (T & r & E). now apply tl_std with r.
  - unfold handle. replace (string_of_cstr unknown_error) with (Ok (map (fun b => [b]) [85; 110; 107; 110; 111; 119; 110; 32; 101; 114; 114; 111; 114]%N)) by reflexivity.
    cbn [passed]. intros [= <- <-]. exists ThrowsOther. eexists. cbn. split; [reflexivity|]. rewrite <- app_assoc. split; [reflexivity|]. constructor.
Qed.
Lemma run_tests_log ts : forall (s : @rstate F W) ts' s', run_tests run ts s = (ts', s', Ok tt) ->
  exists tr ls, length ts' = length ts /\ map fst tr = ts /\ trace s' = trace s ++ tr /\ log s' = log s ++ concat ls /\ Forall2 test_log tr ls.
Proof.
  induction ts as [|t ts IH]; intros s ts' s'; cbn [run_tests].
  - intros [= <- <-]. exists [], []. cbn. rewrite !app_nil_r. auto.
  - destruct (run_test run t s) as [[t1 s1] o] eqn:E. destruct o as [[]|e| |]; try discriminate.
    destruct (run_tests run ts s1) as [[r' s2] o2] eqn:E2. intros [= <- <- ->].
    destruct (run_test_log _ _ _ _ E) as (b & l & T & L & H). destruct (IH _ _ _ E2) as (tr & ls & N & M & T2 & L2 & H2).
    exists ((t, b) :: tr), (l :: ls). cbn. rewrite N, M, T2, L2, T, L, <- !app_assoc. auto 6.
Qed.
Lemma run_suites_log m : forall (s : @rstate F W) m' s', run_suites run m s = (m', s', Ok tt) ->
  exists gs ls, length m' = length m /\ map (fun g => (fst g, map fst (snd g))) gs = m /\ trace s' = trace s ++ flat_map snd gs /\
    log s' = log s ++ concat ls /\ Forall2 suite_log gs ls.
Proof.
  induction m as [|[k ts] m IH]; intros s m' s'; cbn [run_suites].
  - intros [= <- <-]. exists [], []. cbn. rewrite !app_nil_r. auto.
  - destruct (run_tests run ts _) as [[ts' s1] o] eqn:E. destruct o as [[]|e| |]; try discriminate.
    destruct (run_suites run m _) as [[r' s2] o2] eqn:E2. intros [= <- <- ->].
    destruct (run_tests_log _ _ _ _ E) as (tr & ls & N & M & T & L & H). destruct (IH _ _ _ E2) as (gs & ks & N2 & M2 & T2 & L2 & H2).
    cbn [emit trace log] in *.
    assert (Len : length tr = length ts) by (rewrite <- M, map_length; reflexivity).
    exists ((k, tr) :: gs), ((LogSuiteStart k (length tr) :: concat ls ++ [LogSuiteEnd k (length tr)]) :: ks). cbn.
    rewrite N2, M2, M, T2, T, L2, L, N, Len. split; [reflexivity|]. split; [reflexivity|]. split; [now rewrite app_assoc|].
    split; [now rewrite <- !app_assoc|]. constructor; [|exact H2]. exists ls. split; [exact H|]. cbn. now rewrite Len.
Qed.

(** The calls grouped by suite, with the log of each suite *)
Lemma run_all_log r w z : result (run_all run r w) = Ok z ->
  exists gs ls rest, map (fun g => (fst g, map fst (snd g))) gs = tests r /\ called (run_all run r w) = flat_map snd gs /\
    Forall2 suite_log gs ls /\
    printed (run_all run r w) = LogStart (total r) (length (tests r)) :: concat ls ++ LogEnd (total r) (length (tests r)) :: rest /\
    rest = summary (tests (after_run (run_all run r w))) (passed_ (after_run (run_all run r w))) (failed_ (after_run (run_all run r w))).
Proof.
  unfold run_all. destruct (run_suites run (tests r) _) as [[m s1] o] eqn:E. destruct o as [[]|e| |]; try discriminate.
  intros _. destruct (run_suites_log _ _ _ _ E) as (gs & ls & N & M & T & L & H). cbn [emit trace log] in *.
  exists gs, ls. eexists. split; [exact M|]. cbn. rewrite T, L, N. split; [reflexivity|]. split; [exact H|]. split; [|reflexivity].
  cbn. now rewrite <- app_assoc.
Qed.
End Log.

(** C128.  Whenever RunAll returns, its log lists suite by suite every call and how it ended, with the message of the
    failure; exceptions carry arbitrary bytes. *)
Theorem C128_log : forall (F W : Type) (run : F -> W -> behaviour * W) r w z,
  (forall f w b w' what, run f w = (b, w') -> b = ThrowsStd what -> Forall is_byte what) ->
  result (run_all run r w) = Ok z ->
  exists gs ls rest, map (fun g => (fst g, map fst (snd g))) gs = tests r /\ called (run_all run r w) = flat_map snd gs /\
    Forall2 suite_log gs ls /\
    printed (run_all run r w) = LogStart (total r) (length (tests r)) :: concat ls ++ LogEnd (total r) (length (tests r)) :: rest /\
    rest = summary (tests (after_run (run_all run r w))) (passed_ (after_run (run_all run r w))) (failed_ (after_run (run_all run r w))).
Proof. intros F W run r w z B. now apply run_all_log. Qed.
Print Assumptions C128_log.

(** The lines of a log that show a time *)
Definition ok_lines (l : list (event * option Z)) : list (Str * Str * option Z) :=
  flat_map (fun x => match fst x with LogTestOk s t => [(s, t, snd x)] | _ => [] end) l.
Definition fail_lines (l : list (event * option Z)) : list (Str * Str * option Z) :=
  flat_map (fun x => match fst x with LogTestFailure s t _ => [(s, t, snd x)] | _ => [] end) l.
Definition suite_lines (l : list (event * option Z)) : list (Str * option Z) :=
  flat_map (fun x => match fst x with LogSuiteEnd s _ => [(s, snd x)] | _ => [] end) l.
Definition end_lines (l : list (event * option Z)) : list (option Z) :=
  flat_map (fun x => match fst x with LogEnd _ _ => [snd x] | _ => [] end) l.

(** The [k]-th call lies between readings 2k+1 and 2k+2 of the clock, reading 0 being taken at the start. *)
Definition own_time (clock : nat -> Z) (k : nat) : Z := Z.quot (clock (2 * k + 2)%nat - clock (2 * k + 1)%nat) 1000000.
Fixpoint sum_times (clock : nat -> Z) (k n : nat) : Z :=
  match n with O => 0%Z | S n' => (own_time clock k + sum_times clock (S k) n')%Z end.
(** Name and time of every passed test; of every failed test with the time [shown]; of every suite *)
Fixpoint passed_times {F} (clock : nat -> Z) (k : nat) (l : list (test_case F * behaviour)) : list (Str * Str * option Z) :=
  match l with
  | [] => []
  | (t, b) :: r => (match b with Returns => [(suite_name t, test_name t, Some (own_time clock k))] | _ => [] end) ++ passed_times clock (S k) r
  end.
Fixpoint failed_times {F} (shown : nat -> Z) (k : nat) (l : list (test_case F * behaviour)) : list (Str * Str * option Z) :=
  match l with
  | [] => []
  | (t, b) :: r => (match b with Returns => [] | _ => [(suite_name t, test_name t, Some (shown k))] end) ++ failed_times shown (S k) r
  end.
Fixpoint suite_times {F} (clock : nat -> Z) (k : nat) (m : list (Str * list (test_case F))) : list (Str * option Z) :=
  match m with
  | [] => []
  | (name, ts) :: r => (name, Some (sum_times clock k (length ts))) :: suite_times clock (k + length ts) r
  end.
(** The time of the call before this one; of the last call of an earlier run for the first *)
Definition time_before (clock : nat -> Z) (earlier : Z) (k : nat) : Z := match k with O => earlier | S k' => own_time clock k' end.

Section Times.
Context {F : Type}.
Variable clock : nat -> Z.
Variable d0 : Z.

Lemma passed_times_app k a b : @passed_times F clock k (a ++ b) = passed_times clock k a ++ passed_times clock (k + length a) b.
Proof.
  revert k; induction a as [|[t x] a IH]; intros k; cbn; [now rewrite Nat.add_0_r|]. rewrite IH, app_assoc. do 2 f_equal. lia.
Qed.
Lemma failed_times_app f k a b : @failed_times F f k (a ++ b) = failed_times f k a ++ failed_times f (k + length a) b.
Proof.
  revert k; induction a as [|[t x] a IH]; intros k; cbn; [now rewrite Nat.add_0_r|]. rewrite IH, app_assoc. do 2 f_equal. lia.
Qed.

Definition ready (s : times) (k : nat) : Prop := reads s = (2 * k + 1)%nat /\ local_diff s = time_before clock d0 k.

Lemma tests_timed tr ls : Forall2 (@test_log F) tr ls -> forall s k rest, ready s k ->
  exists x s', timed clock s (concat ls ++ rest) = x ++ timed clock s' rest /\ ready s' (k + length tr) /\
    start_global s' = start_global s /\ suite_total s' = (suite_total s + sum_times clock k (length tr))%Z /\
    ok_lines x = passed_times clock k tr /\ fail_lines x = failed_times (time_before clock d0) k tr /\
    suite_lines x = [] /\ end_lines x = [].
Proof.
  induction 1 as [|[t b] l tr ls H _ IH]; intros s k rest [Hr Hd].
  - exists [], s. cbn. rewrite Nat.add_0_r. repeat split; auto. lia.
  - assert (Own : to_ms (clock (S (reads s)) - clock (reads s)) = own_time clock k).
    { unfold own_time, to_ms. rewrite Hr. do 3 f_equal; f_equal; lia. }
    set (s1 := Times (S (S (reads s))) (start_global s) (clock (reads s)) (own_time clock k) (suite_total s + own_time clock k)%Z).
    destruct (IH s1 (S k) rest) as (x & s' & T & R' & G & St & O & Fl & Su & En).
    { split; [unfold s1; cbn; rewrite Hr; lia|reflexivity]. }
    assert (Ot : match b with Returns => exists e, l = [LogTestStart (suite_name t) (test_name t); e] /\ e = LogTestOk (suite_name t) (test_name t)
                 | _ => exists m, l = [LogTestStart (suite_name t) (test_name t); LogTestFailure (suite_name t) (test_name t) m] end).
    { inversion H; subst; eauto. }
    destruct b as [|what|].
    + destruct Ot as (e & -> & ->). eexists (_ :: _ :: x), s'. split.
      { cbn [concat app timed]. unfold stop. cbn [reads start_local local_diff suite_total start_global]. rewrite Own. fold s1. rewrite T. reflexivity. }
      cbn [ok_lines fail_lines suite_lines end_lines flat_map fst snd app local_diff passed_times failed_times length].
      fold (ok_lines x). fold (fail_lines x). fold (suite_lines x). fold (end_lines x). rewrite O, Fl, Su, En, G, St.
      replace (k + S (length tr))%nat with (S k + length tr)%nat by lia. split; [exact R'|]. cbn [s1 start_global suite_total].
      repeat split. cbn [sum_times]. lia.
    + destruct Ot as (m & ->). eexists (_ :: _ :: x), s'. split.
      { cbn [concat app timed]. unfold stop. cbn [reads start_local local_diff suite_total start_global]. rewrite Own. fold s1. rewrite T. reflexivity. }
      cbn [ok_lines fail_lines suite_lines end_lines flat_map fst snd app local_diff passed_times failed_times length].
      fold (ok_lines x). fold (fail_lines x). fold (suite_lines x). fold (end_lines x). rewrite O, Fl, Su, En, G, St, Hd.
      replace (k + S (length tr))%nat with (S k + length tr)%nat by lia. split; [exact R'|]. cbn [s1 start_global suite_total].
      repeat split. cbn [sum_times]. lia.
    + destruct Ot as (m & ->). eexists (_ :: _ :: x), s'. split.
      { cbn [concat app timed]. unfold stop. cbn [reads start_local local_diff suite_total start_global]. rewrite Own. fold s1. rewrite T. reflexivity. }
      cbn [ok_lines fail_lines suite_lines end_lines flat_map fst snd app local_diff passed_times failed_times length].
      fold (ok_lines x). fold (fail_lines x). fold (suite_lines x). fold (end_lines x). rewrite O, Fl, Su, En, G, St, Hd.
      replace (k + S (length tr))%nat with (S k + length tr)%nat by lia. split; [exact R'|]. cbn [s1 start_global suite_total].
      repeat split. cbn [sum_times]. lia.
Qed.

Lemma lines_app a b : ok_lines (a ++ b) = ok_lines a ++ ok_lines b /\ fail_lines (a ++ b) = fail_lines a ++ fail_lines b /\
  suite_lines (a ++ b) = suite_lines a ++ suite_lines b /\ end_lines (a ++ b) = end_lines a ++ end_lines b.
Proof. unfold ok_lines, fail_lines, suite_lines, end_lines. now rewrite !flat_map_app. Qed.

Lemma suites_timed gs ls : Forall2 (@suite_log F) gs ls -> forall s k rest, ready s k ->
  exists x s', timed clock s (concat ls ++ rest) = x ++ timed clock s' rest /\ ready s' (k + length (flat_map snd gs)) /\
    start_global s' = start_global s /\
    ok_lines x = passed_times clock k (flat_map snd gs) /\ fail_lines x = failed_times (time_before clock d0) k (flat_map snd gs) /\
    suite_lines x = suite_times clock k (map (fun g => (fst g, map fst (snd g))) gs) /\ end_lines x = [].
Proof.
  induction 1 as [|[name tr] l gs ls H _ IH]; intros s k rest R.
  - exists [], s. cbn. rewrite Nat.add_0_r. repeat split; auto; apply R.
  - destruct H as (us & H & ->). cbn [fst snd] in *.
    set (s0 := Times (reads s) (start_global s) (start_local s) (local_diff s) 0).
    destruct (tests_timed tr us H s0 k (LogSuiteEnd name (length tr) :: concat ls ++ rest)) as (x & s1 & T & R1 & G & St & O & Fl & Su & En); [exact R|].
    destruct (IH s1 (k + length tr)%nat rest R1) as (y & s2 & T2 & R2 & G2 & O2 & Fl2 & Su2 & En2).
    eexists (_ :: x ++ _ :: y), s2. split.
    { cbn [concat app timed]. fold s0. rewrite <- !app_assoc. cbn [app]. rewrite T. cbn [timed]. rewrite T2. reflexivity. }
    cbn [flat_map fst snd map suite_times]. rewrite app_length, passed_times_app, failed_times_app, map_length.
    split; [now rewrite Nat.add_assoc|]. split; [now rewrite G2, G|].
    assert (C : forall (e : event * option Z) z, e :: z = [e] ++ z) by reflexivity. rewrite (C (LogSuiteStart name (length tr), None)), (C (LogSuiteEnd name (length tr), _) y).
    repeat match goal with |- context [?f (?a ++ ?b)] => match f with
      | ok_lines => rewrite (proj1 (lines_app a b))
      | fail_lines => rewrite (proj1 (proj2 (lines_app a b)))
      | suite_lines => rewrite (proj1 (proj2 (proj2 (lines_app a b))))
      | end_lines => rewrite (proj2 (proj2 (proj2 (lines_app a b)))) end end.
    rewrite O, Fl, Su, En, O2, Fl2, Su2, En2, St. unfold s0. cbn. repeat split.
Qed.
End Times.

(** The times: a passed test shows its own duration, a suite the sum over its tests and the last line the whole run,
    all in milliseconds, rounded down per test. *)
Theorem C128_times_partial : forall (F W : Type) (run : F -> W -> behaviour * W) r w z clock earlier,
  (forall f w b w' what, run f w = (b, w') -> b = ThrowsStd what -> Forall is_byte what) ->
  result (run_all run r w) = Ok z ->
  let l := timed clock (Times 0 0 0 earlier 0) (printed (run_all run r w)) in
  let c := called (run_all run r w) in
  ok_lines l = passed_times clock 0 c /\ suite_lines l = suite_times clock 0 (tests r) /\
  end_lines l = [Some (Z.quot (clock (2 * length c + 1)%nat - clock 0%nat) 1000000)] /\
  fail_lines l = failed_times (time_before clock earlier) 0 c.
Proof.
  intros F W run r w z clock d0 B Z. cbv zeta. destruct (run_all_log run B r w z Z) as (gs & ls & rest & M & C & H & P & Rs).
  rewrite P, C. cbn [timed].
  set (s0 := Times _ _ _ _ _).
  destruct (suites_timed clock d0 gs ls H s0 0%nat (LogEnd (total r) (length (tests r)) :: rest)) as (x & s1 & T & [R1 _] & G & O & Fl & Su & En); [split; reflexivity|].
  rewrite T. cbn [timed].
  assert (Q : forall s, ok_lines (timed clock s rest) = [] /\ suite_lines (timed clock s rest) = [] /\ end_lines (timed clock s rest) = [] /\ fail_lines (timed clock s rest) = []).
  { rewrite Rs. unfold summary. set (p := passed_ _). set (f := failed_ _). set (mm := tests _). clear.
    assert (K : forall l, Forall (fun e => match e with LogPassed _ | LogFailed _ | LogFailedTest _ _ | LogFailedCount _ => True | _ => False end) l ->
      forall s, ok_lines (timed clock s l) = [] /\ suite_lines (timed clock s l) = [] /\ end_lines (timed clock s l) = [] /\ fail_lines (timed clock s l) = []).
    { induction 1 as [|e l He _ IH]; intros s; [now cbn|]. destruct e; try contradiction; cbn [timed ok_lines suite_lines end_lines fail_lines flat_map fst app]; apply IH. }
    apply K. apply Forall_app; split.
    - destruct (0 <? p)%N; repeat constructor.
    - apply Forall_app. split; [|repeat constructor]. destruct (0 <? f)%N; [|constructor]. constructor; [exact I|].
      apply Forall_flat_map. rewrite Forall_forall. intros [k ts] _. apply Forall_flat_map. rewrite Forall_forall. intros t _. destruct (passed t); repeat constructor. }
  destruct (Q (Times (S (reads s1)) (start_global s1) (start_local s1) (local_diff s1) (suite_total s1))) as (Q1 & Q2 & Q3 & Q4).
  repeat match goal with |- context [?f (?a :: ?b)] => match f with
    | ok_lines => change (ok_lines (a :: b)) with (ok_lines ([a] ++ b))
    | fail_lines => change (fail_lines (a :: b)) with (fail_lines ([a] ++ b))
    | suite_lines => change (suite_lines (a :: b)) with (suite_lines ([a] ++ b))
    | end_lines => change (end_lines (a :: b)) with (end_lines ([a] ++ b)) end end.
  unfold ok_lines, fail_lines, suite_lines, end_lines in *. rewrite !flat_map_app, O, Fl, Su, En. cbn [flat_map fst snd app].
  rewrite Q1, Q2, Q3, Q4, M, !app_nil_r. repeat split. cbn. unfold to_ms. rewrite G, R1. reflexivity.
Qed.
Print Assumptions C128_times_partial.
(** A failed test does not show its own duration but that of the test before it: here 0 ms after 5 ms. *)
Theorem C128_failed_time_refuted : exists (F W : Type) (run : F -> W -> behaviour * W) regs w clock,
  let res := run_all run (register regs) w in
  result res = Ok 1%Z /\
  fail_lines (timed clock (Times 0 0 0 0 0) (printed res)) = [(A, A, Some 0%Z)] /\
  failed_times (own_time clock) 0 (called res) = [(A, A, Some 5%Z)].
Proof.
  exists nat, nat, demo, [(A, A, 1%nat)], 0%nat, (fun n => Z.of_nat n * 5000000)%Z. split; [|split]; vm_compute; reflexivity.
Qed.
Print Assumptions C128_failed_time_refuted.
(** A passes in 1.9 ms, then one fails in 3 ms and one passes in 0.5 ms *)
Definition C128_clock (n : nat) : Z := nth n [0; 10; 1900010; 1900020; 4900020; 4900030; 5400030; 5400040]%Z 0%Z.
Example C128_ex : let r := register [(B, A, 2%nat); (A, B, 0%nat); (B, B, 0%nat)] in
  let res := run_all demo r 0%nat in let l := timed C128_clock (Times 0 0 0 0 0) (printed res) in
  result res = Ok 1%Z /\ ok_lines l = [(A, B, Some 1%Z); (B, B, Some 0%Z)] /\ fail_lines l = [(B, A, Some 1%Z)] /\
  suite_lines l = [(A, Some 1%Z); (B, Some 3%Z)] /\ end_lines l = [Some 5%Z].
Proof. vm_compute. repeat split. Qed.

(** ** Names *)

(** C129.  Tests can be defined side by side whenever their names have no underscore, no two TESTs agree in both names,
    no two TEST_Fs agree in the second name, and no TEST is called Fixture. *)
Definition plain_name (n : list N) : Prop := ~ In underscore n.
Definition macro_key (m : test_macro) : list N * list N := match m with TEST s t => (s, t) | TEST_F _ t => ([], t) end.
Definition plain_macro (m : test_macro) : Prop :=
  match m with
  | TEST s t => plain_name s /\ plain_name t /\ s <> [] /\ t <> [70; 105; 120; 116; 117; 114; 101]%N
  | TEST_F _ t => plain_name t
  end.

Lemma cut_at_underscore a b c d : plain_name a -> plain_name c -> a ++ underscore :: b = c ++ underscore :: d -> a = c /\ b = d.
Proof.
  revert c; induction a as [|x a IH]; intros [|y c] Ha Hc E; cbn in E.
  - now injection E.
  - injection E as <- _. exfalso. apply Hc. now left.
  - injection E as -> _. exfalso. apply Ha. now left.
  - injection E as -> E. destruct (IH c) as [-> ->]; auto; intros I; [apply Ha|apply Hc]; now right.
Qed.
Lemma NoDup_flat_map {X Y} (f : X -> list Y) l : NoDup l -> (forall x, In x l -> NoDup (f x)) ->
  (forall x y z, In x l -> In y l -> In z (f x) -> In z (f y) -> x = y) -> NoDup (flat_map f l).
Proof.
  induction 1 as [|x l N D IH]; intros H1 H2; cbn; [constructor|].
  assert (K : NoDup (flat_map f l)). { apply IH; [intros; apply H1; now right|]. intros a b z Ia Ib. apply H2; now right. }
  assert (H0 : NoDup (f x)) by (apply H1; now left).
  assert (Dj : forall z, In z (f x) -> ~ In z (flat_map f l)).
  { intros z I J. apply in_flat_map in J as (y & Iy & J). assert (x = y) by (apply (H2 x y z); auto; [now left|now right]). subst. contradiction. }
  revert H0 Dj. generalize (f x). induction l0 as [|a m IHm]; cbn; auto. intros M Dj. inversion_clear M as [|? ? M1 M2].
  constructor; [|apply IHm; auto]. rewrite in_app_iff. intros [I|I]; [contradiction|]. apply (Dj a); auto.
Qed.
Lemma key_unique ms a b : NoDup (map macro_key ms) -> In a ms -> In b ms -> macro_key a = macro_key b -> a = b.
Proof.
  induction ms as [|m ms IH]; cbn; [tauto|]. intros N. inversion_clear N as [|? ? N1 N2]. intros [->|Ia] [->|Ib] E; auto.
  - exfalso. apply N1. rewrite E. now apply in_map.
  - exfalso. apply N1. rewrite <- E. now apply in_map.
Qed.
Lemma NoDup_of_map {X Y} (f : X -> Y) l : NoDup (map f l) -> NoDup l.
Proof. induction l as [|x l IH]; cbn; intros N; [constructor|]. inversion_clear N as [|? ? N1 N2]. constructor; auto. intros I. apply N1. now apply in_map. Qed.

Lemma no_tail t : t ++ registrar <> tl registrar /\ t ++ registrar <> tl registrar_instance /\
  t ++ registrar_instance <> tl registrar /\ t ++ registrar_instance <> tl registrar_instance.
Proof.
  repeat split; intros E; try (apply (f_equal (@length N)) in E; rewrite app_length in E; cbn in E; lia).
  apply (f_equal (fun l => last l 0%N)) in E. change registrar with (removelast registrar ++ [114%N]) in E.
  rewrite app_assoc, last_last in E. discriminate E.
Qed.

Theorem C129_side_by_side_partial : forall ms, Forall plain_macro ms -> NoDup (map macro_key ms) -> compiles ms.
Proof.
  intros ms P N. rewrite Forall_forall in P. pose proof (NoDup_of_map _ _ N) as N0.
  assert (R : registrar = underscore :: [82; 101; 103; 105; 115; 116; 114; 97; 114]%N) by reflexivity.
  assert (RI : registrar_instance = underscore :: [82; 101; 103; 105; 115; 116; 114; 97; 114; 95; 73; 110; 115; 116; 97; 110; 99; 101]%N) by reflexivity.
  assert (Fx : fixture_suffix = underscore :: [70; 105; 120; 116; 117; 114; 101]%N) by reflexivity.
  split; apply NoDup_flat_map; auto.
  - intros [s t|f t] _; cbn; repeat constructor; auto.
  - intros a b z Ia Ib Za Zb. apply (key_unique ms); auto. apply P in Ia, Ib.
    destruct a as [s t|f t], b as [s' t'|f' t']; cbn in Ia, Ib, Za, Zb |- *; destruct Za as [<-|[]], Zb as [E|[]]; rewrite ?Fx in E.
    + apply cut_at_underscore in E as [-> ->]; tauto.
    + apply cut_at_underscore in E as [-> <-]; [|tauto|tauto]. tauto.
    + apply cut_at_underscore in E as [-> ->]; [|tauto|tauto]. tauto.
    + apply cut_at_underscore in E as [-> _]; tauto.
  - intros [s t|f t] _; cbn; (constructor; [|constructor; [intros []|constructor]]); intros [E|[]].
    + apply app_inv_head in E. injection E as E. apply app_inv_head in E. discriminate E.
    + apply app_inv_head in E. discriminate E.
  - intros a b z Ia Ib Za Zb. apply (key_unique ms); auto. apply P in Ia, Ib.
    assert (X : forall n, plain_name n -> In underscore (n ++ registrar) /\ In underscore (n ++ registrar_instance)) by (intros n _; split; apply in_app_iff; right; now left).
    destruct a as [s t|f t], b as [s' t'|f' t']; cbn in Ia, Ib, Za, Zb |- *;
      destruct Za as [<-|[<-|[]]], Zb as [E|[E|[]]]; rewrite ?R, ?RI in E.
    all: try (destruct Ia as (I1 & I2 & I3 & I4)); try (destruct Ib as (J1 & J2 & J3 & J4)).
    all: try (apply cut_at_underscore in E as [E1 E2]; [|assumption|assumption]).
    all: try (symmetry in E2).
    all: try (rewrite E1; reflexivity).
    all: try (apply cut_at_underscore in E2 as [E2 E3]; [|assumption|assumption]).
    all: try (subst; reflexivity).
    all: try discriminate.
    all: exfalso; first [exact (proj1 (no_tail _) E2) | exact (proj1 (proj2 (no_tail _)) E2) | exact (proj1 (proj2 (proj2 (no_tail _))) E2) | exact (proj2 (proj2 (proj2 (no_tail _))) E2)
      | symmetry in E2; first [exact (proj1 (no_tail _) E2) | exact (proj1 (proj2 (no_tail _)) E2) | exact (proj1 (proj2 (proj2 (no_tail _))) E2) | exact (proj2 (proj2 (proj2 (no_tail _))) E2)]].
Qed.
Print Assumptions C129_side_by_side_partial.
(** Two fixtures cannot have tests of the same name; nor can all suites with underscores stand side by side. *)
Theorem C129_same_name_refuted : forall f g t, ~ compiles [TEST_F f t; TEST_F g t].
Proof. intros f g t [N _]. cbn in N. inversion_clear N as [|? ? H _]. apply H. now left. Qed.
Print Assumptions C129_same_name_refuted.
Theorem C129_underscore_refuted : forall a b c, ~ compiles [TEST (a ++ underscore :: b) c; TEST a (b ++ underscore :: c)] /\
  ~ compiles [TEST a b; TEST_F c (a ++ underscore :: b)].
Proof.
  intros a b c. split; intros [N M].
  - cbn in N. inversion_clear N as [|? ? H _]. apply H. left. rewrite <- app_assoc. reflexivity.
  - cbn in M. inversion_clear M as [|? ? H _]. apply H. right. left. rewrite <- app_assoc. reflexivity.
Qed.
Print Assumptions C129_underscore_refuted.
(** TEST(S, a), TEST(S, b), TEST(T, a), TEST_F(F, a), TEST_F(G, S) *)
Example C129_ex : Forall plain_macro [TEST [83] [97]; TEST [83] [98]; TEST [84] [97]; TEST_F [70] [97]; TEST_F [71] [83]]%N /\
  compiles [TEST [83] [97]; TEST [83] [98]; TEST [84] [97]; TEST_F [70] [97]; TEST_F [71] [83]]%N.
Proof.
  assert (P : Forall plain_macro [TEST [83] [97]; TEST [83] [98]; TEST [84] [97]; TEST_F [70] [97]; TEST_F [71] [83]]%N).
  { repeat constructor; cbn; try discriminate; intros [H|[]]; discriminate H. }
  split; [exact P|]. apply C129_side_by_side_partial; [exact P|]. repeat constructor; cbn; intuition discriminate.
Qed.

(** And they are registered in their order, under the names that are written in the macros, first the suite or fixture. *)
Definition written (m : test_macro) : list N * list N := match m with TEST s t => (s, t) | TEST_F s t => (s, t) end.
Definition ascii_name (n : list N) : Prop := Forall (fun b => 1 <= b < 128)%N n.
Theorem C129_registered : forall (F : Type) (ms : list (test_macro * F)),
  Forall (fun m => ascii_name (fst (written (fst m))) /\ ascii_name (snd (written (fst m)))) ms ->
  exists regs, registrations ms = Ok regs /\
    Forall2 (fun m r => let '(s, t, f) := r in concat s = fst (written (fst m)) /\ concat t = snd (written (fst m)) /\
                        Forall (fun c => length c = 1) s /\ Forall (fun c => length c = 1) t /\ f = snd m) ms regs.
Proof.
  assert (L : forall n, concat (ascii_chars n) = n /\ Forall (fun c => length c = 1) (ascii_chars n)).
  { intros n. unfold ascii_chars. induction n as [|b n [IH1 IH2]]; cbn; [split; [reflexivity|constructor]|].
    rewrite IH1. split; [reflexivity|]. constructor; [reflexivity|exact IH2]. }
  intros F ms H. induction H as [|[m f] ms [A B] H IH]; [exists []; split; [reflexivity|constructor]|].
  destruct IH as (regs & E & R). exists ((ascii_chars (fst (written m)), ascii_chars (snd (written m)), f) :: regs). split.
  - cbn [registrations]. rewrite E. unfold registration.
    destruct m as [s t|s t]; cbn [registers written fst snd] in *; rewrite !string_of_std_ascii by assumption; reflexivity.
  - constructor; [|exact R]. cbn [fst snd]. destruct (L (fst (written m))), (L (snd (written m))). auto.
Qed.
Print Assumptions C129_registered.
Example C129_registered_ex :
  registrations [(TEST [83; 49] [97], 0); (TEST_F [70] [98; 95], 1)]%N = Ok [([[83]; [49]], [[97]], 0); ([[70]], [[98]; [95]], 1)]%N.
Proof. vm_compute. reflexivity. Qed.
