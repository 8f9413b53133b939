(** Proofs about the test runner. *)
From Coq Require Import List NArith ZArith Bool Permutation Sorted Lia.
From Verif Require Import Outcome CharModel CharProofs StrModel StrProofs StdMap StdMapProofs TestRegistry
  SpecUtf8 SpecStr SpecTest.
Import ListNotations.
Local Open Scope N_scope.

Local Arguments string_of_cstr : simpl never.
Local Arguments N.add : simpl never.
Local Arguments chars_eq_dec : simpl never.

Section Proofs.
  Context {F W : Type} (run : F -> W -> behaviour * W).
  Notation tc := (test_case F).

  Definition ident (t : tc) : registration F := (suite_name t, test_name t, func t).
  Definition returned (b : behaviour) : bool := match b with Returns => true | _ => false end.
  (** A failure whose message could be converted (ThrowsOther has a fixed message). *)
  Definition reported (b : behaviour) : bool :=
    match b with
    | Returns => false
    | ThrowsOther => true
    | ThrowsStd w => is_ok (string_of_cstr w)
    end.
  Definition count (p : behaviour -> bool) (tr : list (tc * behaviour)) : N :=
    N.of_nat (length (filter (fun x => p (snd x)) tr)).
  Lemma count_app p a b : count p (a ++ b) = count p a + count p b.
  Proof. unfold count. rewrite filter_app, app_length. lia. Qed.

  Definition is_failed_test (e : event) : list (Str * Str) :=
    match e with LogFailedTest s t => [(s, t)] | _ => [] end.
  Definition quiet (l : list event) : Prop := flat_map is_failed_test l = [].
  Lemma quiet_app a b : quiet a -> quiet b -> quiet (a ++ b).
  Proof. unfold quiet. intros A B. now rewrite flat_map_app, A, B. Qed.

  Definition marked (x : tc * behaviour) : tc :=
    TestCase (suite_name (fst x)) (test_name (fst x)) (func (fst x)) (returned (snd x)).
  Definition fine (b : behaviour) : bool := returned b || reported b.

  (** How a loop ended: everything ran, or the last call threw an unprintable message. *)
  Inductive ended (o : outcome unit) (rest : list tc) (tr : list (tc * behaviour)) : Prop :=
  | ended_ok : o = Ok tt -> rest = [] -> forallb (fun x => fine (snd x)) tr = true -> ended o rest tr
  | ended_bad tr0 t w : is_ok (string_of_cstr w) = false -> tr = tr0 ++ [(t, ThrowsStd w)] ->
      o = (match string_of_cstr w with Ok _ => Ok tt | Throw e => Throw e | UB => UB | NoFuel => NoFuel end) ->
      forallb (fun x => fine (snd x)) tr0 = true -> ended o rest tr.

  (** [steps ts ts' s s' o]: the loop went over [ts], left [ts'] in its place. *)
  Record steps (ts ts' : list tc) (s s' : @rstate F W) (o : outcome unit) (tr : list (tc * behaviour)) (rest : list tc) : Prop := {
    st_trace : trace s' = trace s ++ tr;
    st_split : ts = map fst tr ++ rest;
    st_end : ended o rest tr;
    st_left : ts' = map marked tr ++ rest;
    st_passed : n_passed s' = n_passed s + count returned tr;
    st_failed : n_failed s' = n_failed s + count reported tr;
    st_log : exists l, log s' = log s ++ l /\ quiet l }.

  Lemma run_test_spec t (s : @rstate F W) : let '(t', s', o) := run_test run t s in
    exists b, steps [t] [t'] s s' o [(t, b)] [].
  Proof.
    unfold run_test. cbn [emit world]. destruct (run (func t) (world s)) as [b w] eqn:R.
    assert (U : string_of_cstr unknown_error = Ok (map (fun b => [b]) (removelast unknown_error))) by reflexivity.
    destruct b as [|what|]; cbn [passed].
    - exists Returns. constructor; cbn; try reflexivity; [now constructor| |].
      + unfold count. cbn. lia.
      + exists [LogTestStart (suite_name t) (test_name t); LogTestOk (suite_name t) (test_name t)].
        rewrite <- app_assoc. split; reflexivity.
    - unfold handle. cbn [emit n_passed n_failed world log trace suite_name test_name func].
      destruct (string_of_cstr what) as [m|e| |] eqn:M; exists (ThrowsStd what); constructor; cbn; try reflexivity.
      + apply ended_ok; [reflexivity|reflexivity|]. cbn. unfold fine. cbn. now rewrite M.
      + unfold count. cbn. lia.
      + unfold count. cbn. rewrite M. cbn. lia.
      + eexists. rewrite <- app_assoc. split; [reflexivity|]. reflexivity.
      + apply (ended_bad _ _ _ [] t what); [now rewrite M|reflexivity|now rewrite M|reflexivity].
      + unfold count. cbn. lia.
      + unfold count. cbn. rewrite M. cbn. lia.
      + eexists. split; [reflexivity|]. reflexivity.
      + apply (ended_bad _ _ _ [] t what); [now rewrite M|reflexivity|now rewrite M|reflexivity].
      + unfold count. cbn. lia.
      + unfold count. cbn. rewrite M. cbn. lia.
      + eexists. split; [reflexivity|]. reflexivity.
      + apply (ended_bad _ _ _ [] t what); [now rewrite M|reflexivity|now rewrite M|reflexivity].
      + unfold count. cbn. lia.
      + unfold count. cbn. rewrite M. cbn. lia.
      + eexists. split; [reflexivity|]. reflexivity.
    - unfold handle. rewrite U. cbn [emit n_passed n_failed world log trace suite_name test_name func].
      exists ThrowsOther. constructor; cbn [n_passed n_failed world log trace passed]; try reflexivity.
      + now apply ended_ok.
      + unfold count. cbn. lia.
      + eexists. rewrite <- app_assoc. split; [reflexivity|]. reflexivity.
  Qed.

  Lemma steps_nil (s : @rstate F W) : steps [] [] s s (Ok tt) [] [].
  Proof.
    constructor; cbn; try reflexivity; try (now rewrite app_nil_r); [now apply ended_ok| | |]; unfold count; cbn; try lia.
    exists []. rewrite app_nil_r. split; reflexivity.
  Qed.

  Lemma steps_app a a' b b' s s1 s2 o tr1 tr2 rest :
    steps a a' s s1 (Ok tt) tr1 [] -> steps b b' s1 s2 o tr2 rest ->
    steps (a ++ b) (a' ++ b') s s2 o (tr1 ++ tr2) rest.
  Proof.
    intros [T1 S1 E1 L1 P1 F1 (l1 & G1 & Q1)] [T2 S2 E2 L2 P2 F2 (l2 & G2 & Q2)].
    assert (A : forallb (fun x => fine (snd x)) tr1 = true).
    { destruct E1 as [_ _ E1|tr0 t w B EQ O E1]; [exact E1|]. destruct (string_of_cstr w); discriminate. }
    constructor.
    - now rewrite T2, T1, app_assoc.
    - rewrite S1, S2, map_app, app_nil_r. now rewrite app_assoc.
    - destruct E2 as [O R E2|tr0 t w B EQ O E2].
      + apply ended_ok; [assumption|assumption|]. now rewrite forallb_app, A, E2.
      + apply (ended_bad _ _ _ (tr1 ++ tr0) t w); [assumption|now rewrite EQ, app_assoc|assumption|].
        now rewrite forallb_app, A, E2.
    - rewrite L1, L2, map_app, app_nil_r. now rewrite app_assoc.
    - rewrite P2, P1, count_app. lia.
    - rewrite F2, F1, count_app. lia.
    - exists (l1 ++ l2). rewrite G2, G1, app_assoc. split; [reflexivity|now apply quiet_app].
  Qed.

  (** Only the unprintable-message end has leftovers. *)
  Lemma steps_ok_rest a a' s s' tr rest : steps a a' s s' (Ok tt) tr rest -> rest = [].
  Proof. intros [_ _ [_ R _|tr0 t w B _ O _] _ _ _ _]; [exact R|]. destruct (string_of_cstr w); discriminate. Qed.

  Lemma steps_more a a' b s s' o tr rest : o <> Ok tt -> steps a a' s s' o tr rest ->
    steps (a ++ b) (a' ++ b) s s' o tr (rest ++ b).
  Proof.
    intros N [T S E L P Fl G]. constructor; try assumption.
    - now rewrite S, app_assoc.
    - destruct E as [O _ _|tr0 t w B EQ O E]; [contradiction|]. now apply (ended_bad _ _ _ tr0 t w).
    - now rewrite L, app_assoc.
  Qed.

  Lemma steps_emit_l a a' s s' o tr rest e : quiet [e] ->
    steps a a' (emit s e) s' o tr rest -> steps a a' s s' o tr rest.
  Proof.
    intros Q [T S E L P Fl (l & G & QL)]. constructor; try assumption.
    exists (e :: l). cbn in G. rewrite <- app_assoc in G. split; [exact G|]. now apply (quiet_app [e] l).
  Qed.
  Lemma steps_emit_r a a' s s' o tr rest e : quiet [e] ->
    steps a a' s s' o tr rest -> steps a a' s (emit s' e) o tr rest.
  Proof.
    intros Q [T S E L P Fl (l & G & QL)]. constructor; try assumption.
    exists (l ++ [e]). cbn. rewrite G, <- app_assoc. split; [reflexivity|]. now apply quiet_app.
  Qed.

  Lemma run_tests_spec ts : forall s, let '(ts', s', o) := run_tests run ts s in
    exists tr rest, steps ts ts' s s' o tr rest.
  Proof.
    induction ts as [|t r IH]; intros s; cbn [run_tests]; [exists [], []; apply steps_nil|].
    pose proof (run_test_spec t s) as H. destruct (run_test run t s) as [[t' s1] o]. destruct H as (b & H).
    destruct o as [[]|e| |].
    - specialize (IH s1). destruct (run_tests run r s1) as [[r' s2] o2]. destruct IH as (tr & rest & IH).
      exists ([(t, b)] ++ tr), rest. apply (steps_app [t] [t'] r r' _ _ _ _ _ _ _ H IH).
    - exists [(t, b)], r. apply (steps_more [t] [t'] r) in H; [exact H|discriminate].
    - exists [(t, b)], r. apply (steps_more [t] [t'] r) in H; [exact H|discriminate].
    - exists [(t, b)], r. apply (steps_more [t] [t'] r) in H; [exact H|discriminate].
  Qed.

  Definition flatten (m : std_map Str (list tc)) : list tc := flat_map snd m.
  Definition same_shape (m m' : std_map Str (list tc)) : Prop :=
    Forall2 (fun e e' => fst e = fst e' /\ map ident (snd e) = map ident (snd e')) m m'.
  Lemma same_shape_refl m : same_shape m m.
  Proof. induction m; constructor; auto. Qed.

  Lemma steps_shape a a' s s' o tr rest : steps a a' s s' o tr rest -> map ident a = map ident a'.
  Proof.
    intros [_ -> _ -> _ _ _]. rewrite !map_app, !map_map. f_equal. 
  Qed.

  Lemma run_suites_spec m : forall s, let '(m', s', o) := run_suites run m s in
    exists tr rest, steps (flatten m) (flatten m') s s' o tr rest /\ same_shape m m'.
  Proof.
    induction m as [|[k ts] r IH]; intros s; cbn [run_suites];
      [exists [], []; split; [apply steps_nil|constructor]|].
    pose proof (run_tests_spec ts (emit s (LogSuiteStart k (length ts)))) as H.
    destruct (run_tests run ts _) as [[ts' s1] o]. destruct H as (tr & rest & H).
    apply steps_emit_l in H; [|reflexivity]. pose proof (steps_shape _ _ _ _ _ _ _ H) as SH.
    assert (B : o <> Ok tt -> exists tr0 rest0, steps (flatten ((k, ts) :: r)) (flatten ((k, ts') :: r)) s s1 o tr0 rest0 /\
                same_shape ((k, ts) :: r) ((k, ts') :: r)).
    { intros N. exists tr, (rest ++ flatten r). split; [|constructor; [split; [reflexivity|exact SH]|apply same_shape_refl]].
      apply (steps_more ts ts' (flatten r) s s1 o tr rest N H). }
    destruct o as [[]|e| |]; try (apply B; discriminate).
    pose proof (steps_ok_rest _ _ _ _ _ _ H) as ->.
    specialize (IH (emit s1 (LogSuiteEnd k (length ts')))). destruct (run_suites run r _) as [[r' s2] o2].
    destruct IH as (tr2 & rest2 & IH & SH2). exists (tr ++ tr2), rest2. split; [|constructor; [split; [reflexivity|exact SH]|exact SH2]].
    apply (steps_app ts ts' (flatten r) (flatten r') s (emit s1 (LogSuiteEnd k (length ts'))) s2 o2 tr tr2 rest2); [|exact IH].
    apply steps_emit_r; [reflexivity|exact H].
  Qed.

  (** The whole of RunAll. *)
  Record ran (r : registry F) (w : W) (rest : list tc) : Prop := {
    rn_split : flatten (tests r) = map fst (called (run_all run r w)) ++ rest;
    rn_end : ended (omap (fun _ => tt) (result (run_all run r w))) rest (called (run_all run r w));
    rn_left : flatten (tests (after_run (run_all run r w))) = map marked (called (run_all run r w)) ++ rest;
    rn_shape : same_shape (tests r) (tests (after_run (run_all run r w)));
    rn_total : total (after_run (run_all run r w)) = total r;
    rn_passed : passed_ (after_run (run_all run r w)) = passed_ r + count returned (called (run_all run r w));
    rn_failed : failed_ (after_run (run_all run r w)) = failed_ r + count reported (called (run_all run r w));
    rn_result : forall z, result (run_all run r w) = Ok z -> z = (if failed_ (after_run (run_all run r w)) =? 0 then 0%Z else 1%Z);
    rn_log : forall z, result (run_all run r w) = Ok z ->
      exists l, quiet l /\ printed (run_all run r w) = l ++ summary (tests (after_run (run_all run r w))) (passed_ (after_run (run_all run r w))) (failed_ (after_run (run_all run r w))) }.

  Lemma run_all_spec r w : exists rest, ran r w rest.
  Proof.
    pose proof (run_suites_spec (tests r) (RState (passed_ r) (failed_ r) w [LogStart (total r) (length (tests r))] [])) as H.
    assert (E : run_all run r w = run_all run r w) by reflexivity. unfold run_all in E at 2.
    destruct (run_suites run (tests r) _) as [[m s1] o]. destruct H as (tr & rest & [T S En L P Fl (l & G & Q)] & SH).
    exists rest. cbn in T, P, Fl, G.
    destruct o as [[]|e| |]; constructor; rewrite E; cbn; try assumption; try reflexivity; try (now rewrite T); try (now rewrite T in *);
      try discriminate.
    - intros z Z. injection Z as <-. rewrite Fl. destruct (failed_ r + count reported tr =? 0); reflexivity.
    - intros z _. exists ((LogStart (total r) (length (tests r)) :: l) ++ [LogEnd (total r) (length m)]). 
      split; [|now rewrite G].
      apply quiet_app; [|reflexivity]. exact Q.
  Qed.

  (** Registration. *)
  Definition entries_ok (m : std_map Str (list tc)) : Prop :=
    Forall (fun e => Forall (fun t => suite_name t = fst e) (snd e)) m.
  Definition suite_tests (s : Str) (m : std_map Str (list tc)) : list (registration F) :=
    map ident (match map_find s_ltb s m with Some ts => ts | None => [] end).
  Record wf (regs : list (registration F)) (r : registry F) : Prop := {
    wf_sorted : sorted s_ltb (tests r);
    wf_entries : entries_ok (tests r);
    wf_perm : Permutation (map ident (flatten (tests r))) regs;
    wf_suite : forall s, suite_tests s (tests r) = of_suite s regs;
    wf_total : total r = N.of_nat (length regs) }.

  Lemma s_total : strict_total s_ltb.
  Proof. exact s_order_total. Qed.

  Lemma of_suite_app s (a b : list (registration F)) : of_suite s (a ++ b) = of_suite s a ++ of_suite s b.
  Proof. apply filter_app. Qed.

  Lemma add_test_wf regs r s t f : wf regs r -> wf (regs ++ [(s, t, f)]) (add_test r s t f).
  Proof.
    intros [S E P U T]. constructor; cbn [add_test tests total].
    - apply update_sorted; [exact s_total|exact S].
    - clear - E. unfold entries_ok in *. induction (tests r) as [|[k ts] m IH]; cbn.
      + repeat constructor.
      + inversion E as [|? ? E1 E2]; subst. specialize (IH E2).
        destruct (s_ltb s k) eqn:L1; [constructor; [repeat constructor|exact E]|].
        destruct (s_ltb k s) eqn:L2; constructor; try assumption.
        pose proof (eq_of s_ltb s_total _ _ L1 L2) as ->. cbn in *. apply Forall_app. split; [assumption|repeat constructor].
    - transitivity ((s, t, f) :: regs); [|apply Permutation_cons_append].
      transitivity ((s, t, f) :: map ident (flatten (tests r))); [|now constructor]. clear.
      induction (tests r) as [|[k ts] m IH]; cbn; [apply Permutation_refl|].
      destruct (s_ltb s k) eqn:L1; [apply Permutation_refl|].
      destruct (s_ltb k s) eqn:L2; cbn; rewrite !map_app.
      + transitivity (map ident ts ++ (s, t, f) :: map ident (flatten m)); [now apply Permutation_app_head|].
        symmetry. apply Permutation_middle.
      + cbn. rewrite <- app_assoc. cbn. symmetry. apply Permutation_middle.
    - intros s'. rewrite of_suite_app, <- U. unfold suite_tests. rewrite find_update by (exact s_total || exact S).
      cbn. unfold suite_of. cbn. destruct (chars_eq_dec s s') as [<-|N].
      + rewrite (proj1 s_total s). cbn [orb]. rewrite map_app. reflexivity.
      + rewrite app_nil_r. destruct (s_ltb s s' || s_ltb s' s) eqn:L; [reflexivity|]. exfalso. apply N.
        apply orb_false_iff in L as [L1 L2]. now apply (eq_of s_ltb s_total).
    - rewrite T, app_length. cbn. lia.
  Qed.

  Lemma shape_keys m m' : same_shape m m' -> map fst m = map fst m'.
  Proof. induction 1 as [|e e' m m' [A B] H IH]; cbn; [reflexivity|]. now rewrite A, IH. Qed.
  Lemma shape_idents m m' : same_shape m m' -> map ident (flatten m) = map ident (flatten m').
  Proof. unfold flatten. induction 1 as [|e e' m m' [A B] H IH]; cbn; [reflexivity|]. now rewrite !map_app, B, IH. Qed.
  Lemma shape_entries m m' : same_shape m m' -> entries_ok m -> entries_ok m'.
  Proof.
    induction 1 as [|e e' m m' [A B] H IH]; intros E; [constructor|]. inversion E as [|? ? E1 E2]; subst.
    constructor; [|now apply IH]. rewrite <- A. clear - B E1. revert B E1. generalize (fst e) (snd e').
    induction (snd e) as [|t ts IH]; intros k l B E1; destruct l as [|t' l]; try discriminate; [constructor|].
    cbn in B. injection B as B1 B2 B3 B4. inversion E1; subst. constructor; [congruence|]. now apply IH.
  Qed.
  Lemma shape_find s m m' : same_shape m m' -> suite_tests s m = suite_tests s m'.
  Proof.
    unfold suite_tests. induction 1 as [|[k ts] [k' ts'] m m' [A B] H IH]; cbn; [reflexivity|]. cbn in A, B. subst k'.
    destruct (s_ltb s k); [reflexivity|]. destruct (s_ltb k s); assumption.
  Qed.

  Lemma run_wf regs r w : wf regs r -> wf regs (after_run (run_all run r w)).
  Proof.
    intros [S E P U T]. destruct (run_all_spec r w) as (rest & R). pose proof (rn_shape _ _ _ R) as SH. constructor.
    - unfold sorted. now rewrite <- (shape_keys _ _ SH).
    - exact (shape_entries _ _ SH E).
    - now rewrite <- (shape_idents _ _ SH).
    - intros s. now rewrite <- (shape_find s _ _ SH).
    - now rewrite (rn_total _ _ _ R).
  Qed.

  Lemma of_suite_other s k (ts : list tc) : Forall (fun t => suite_name t = k) ts -> k <> s -> of_suite s (map ident ts) = [].
  Proof.
    intros H N. induction H as [|t ts E H IH]; [reflexivity|]. unfold of_suite in *. cbn. unfold suite_of. cbn.
    destruct (chars_eq_dec (suite_name t) s); [congruence|]. exact IH.
  Qed.
  Lemma of_suite_same s (ts : list tc) : Forall (fun t => suite_name t = s) ts -> of_suite s (map ident ts) = map ident ts.
  Proof.
    intros H. induction H as [|t ts E H IH]; [reflexivity|]. unfold of_suite in *. cbn. unfold suite_of. cbn.
    destruct (chars_eq_dec (suite_name t) s); [|congruence]. f_equal. exact IH.
  Qed.

  Lemma of_suite_flatten s m : sorted s_ltb m -> entries_ok m -> of_suite s (map ident (flatten m)) = suite_tests s m.
  Proof.
    unfold sorted, suite_tests. induction m as [|[k ts] m IH]; intros S E; [reflexivity|].
    cbn [map fst] in S. apply StronglySorted_inv in S as [S A]. inversion E as [|? ? E1 E2]; subst. cbn in E1.
    change (flatten ((k, ts) :: m)) with (ts ++ flatten m). rewrite map_app, of_suite_app. cbn [map_find].
    specialize (IH S E2).
    destruct (s_ltb s k) eqn:L1; [|destruct (s_ltb k s) eqn:L2].
    - rewrite (of_suite_other s k) by (assumption || (intros ->; rewrite (proj1 s_total) in L1; discriminate)).
      cbn. rewrite IH. replace (map_find s_ltb s m) with (@None (list tc)); [reflexivity|].
      symmetry. apply find_below. rewrite Forall_forall in A |- *. intros x I. specialize (A x I).
      destruct s_total as (_ & TR & _). unfold klt in *. eapply TR; eassumption.
    - rewrite (of_suite_other s k) by (assumption || (intros ->; rewrite (proj1 s_total) in L2; discriminate)). exact IH.
    - pose proof (eq_of s_ltb s_total _ _ L1 L2) as <-. rewrite of_suite_same by assumption.
      rewrite IH. replace (map_find s_ltb s m) with (@None (list tc)); [now rewrite app_nil_r|].
      symmetry. now apply find_below.
  Qed.

  Lemma flatten_sorted m : sorted s_ltb m -> entries_ok m ->
    StronglySorted (fun a b => ~ name_lt (suite_of b) (suite_of a)) (map ident (flatten m)).
  Proof.
    unfold sorted. induction m as [|[k ts] m IH]; intros S E; [constructor|].
    cbn [map fst] in S. apply StronglySorted_inv in S as [S A]. inversion E as [|? ? E1 E2]; subst. cbn in E1.
    change (flatten ((k, ts) :: m)) with (ts ++ flatten m). rewrite map_app.
    specialize (IH S E2).
    assert (IR : forall s, ~ name_lt s s).
    { intros s H. apply s_ltb_iff in H. rewrite (proj1 s_total) in H. discriminate. }
    assert (B : Forall (fun x : registration F => klt s_ltb k (suite_of x)) (map ident (flatten m))).
    { clear - A E2. induction m as [|[k' ts'] m IH]; [constructor|]. cbn in A. inversion A as [|? ? A1 A2]; subst.
      inversion E2 as [|? ? E1 E3]; subst. cbn. rewrite map_app. apply Forall_app. split; [|now apply IH].
      rewrite Forall_map. eapply Forall_impl; [|exact E1]. intros t H. unfold suite_of. cbn in *. now rewrite H. }
    induction E1 as [|t ts Et E1 IH1]; [exact IH|]. cbn. constructor; [exact (IH1 ltac:(now constructor))|].
    apply Forall_app. split.
    - rewrite Forall_map. eapply Forall_impl; [|exact E1]. intros t' H. unfold suite_of. cbn in *. rewrite H, Et. apply IR.
    - eapply Forall_impl; [|exact B]. intros x H L. unfold suite_of, klt in *. cbn in L. rewrite Et in L.
      apply s_ltb_iff in L. rewrite (asym s_ltb s_total _ _ H) in L. discriminate.
  Qed.

  Lemma wf_in_order regs r : wf regs r -> in_order (map ident (flatten (tests r))) regs.
  Proof.
    intros [S E P U T]. split; [exact P|]. split; [now apply flatten_sorted|].
    intros s. rewrite <- U. now apply of_suite_flatten.
  Qed.

  (** States of the registry in a program that registers tests and runs them, in any order.
      [regs]: registrations so far; [past]: all calls of test functions so far.  The world may
      change between the calls; a program that had undefined behaviour is not continued. *)
  Inductive reachable : registry F -> list (registration F) -> list (tc * behaviour) -> Prop :=
  | reach_start : reachable registry0 [] []
  | reach_add r regs past s t f : reachable r regs past -> reachable (add_test r s t f) (regs ++ [(s, t, f)]) past
  | reach_run r regs past w : reachable r regs past -> result (run_all run r w) <> UB ->
      reachable (after_run (run_all run r w)) regs (past ++ called (run_all run r w)).

  Lemma reachable_wf r regs past : reachable r regs past ->
    wf regs r /\ passed_ r = count returned past /\ failed_ r = count reported past.
  Proof.
    induction 1 as [|r regs past s t f H (IH & P & Fl)|r regs past w H (IH & P & Fl) N].
    - split; [|split; reflexivity]. constructor; cbn; try reflexivity; constructor.
    - split; [now apply add_test_wf|]. split; assumption.
    - split; [now apply run_wf|]. destruct (run_all_spec r w) as (rest & R).
      rewrite (rn_passed _ _ _ R), (rn_failed _ _ _ R), P, Fl, !count_app. split; reflexivity.
  Qed.

  (** [register] is the special case of registrations only. *)
  Lemma register_reachable regs : reachable (register regs) regs [].
  Proof.
    unfold register. rewrite <- (app_nil_l regs) at 2.
    assert (G : forall l r pre, reachable r pre [] -> reachable (fold_left (fun r '(s, t, f) => add_test r s t f) l r) (pre ++ l) []).
    { induction l as [|[[s t] f] l IH]; intros r pre H; cbn; [now rewrite app_nil_r|].
      specialize (IH (add_test r s t f) (pre ++ [(s, t, f)])). rewrite <- app_assoc in IH. apply IH. now apply reach_add. }
    apply G. constructor.
  Qed.

  Definition printable (b : behaviour) : Prop := forall w, b = ThrowsStd w -> printable_message w.
  Lemma printable_fine b : printable b -> fine b = true.
  Proof.
    unfold fine. destruct b as [|w|]; cbn; try reflexivity. intros H. destruct (H w eq_refl) as (u & r & Tx & ->).
    now rewrite string_of_cstr_text.
  Qed.

  Definition call_ids (l : list (tc * behaviour)) : list (registration F) := map (fun x => ident (fst x)) l.
  Definition failures (l : list (tc * behaviour)) : list (Str * Str) :=
    flat_map (fun x => match snd x with Returns => [] | _ => [(suite_name (fst x), test_name (fst x))] end) l.

  (** Without unprintable messages the loop reaches the end. *)
  Lemma completes r w : Forall (fun x => printable (snd x)) (called (run_all run r w)) ->
    (exists z, result (run_all run r w) = Ok z) /\ map fst (called (run_all run r w)) = flatten (tests r).
  Proof.
    intros Pr. destruct (run_all_spec r w) as (rest & R). destruct (rn_end _ _ _ R) as [O -> Fi|tr0 t wh B EQ O Fi].
    - split; [|symmetry; rewrite (rn_split _ _ _ R); apply app_nil_r].
      destruct (result (run_all run r w)) as [z|e| |]; try discriminate. now exists z.
    - exfalso. rewrite EQ in Pr. apply Forall_app in Pr as [_ Pr]. inversion Pr as [|? ? P1 _]; subst.
      apply printable_fine in P1. unfold fine in P1. cbn in P1, B. rewrite B in P1. discriminate.
  Qed.

  Lemma ok_completes r w z : result (run_all run r w) = Ok z ->
    map fst (called (run_all run r w)) = flatten (tests r) /\
    forallb (fun x => fine (snd x)) (called (run_all run r w)) = true.
  Proof.
    intros Z. destruct (run_all_spec r w) as (rest & R). destruct (rn_end _ _ _ R) as [O -> Fi|tr0 t wh B EQ O Fi].
    - split; [|exact Fi]. symmetry. rewrite (rn_split _ _ _ R). apply app_nil_r.
    - exfalso. rewrite Z in O. cbn in O. destruct (string_of_cstr wh); discriminate.
  Qed.

  Lemma count_zero p l : count p l = 0 <-> Forall (fun x => p (snd x) = false) l.
  Proof.
    unfold count. induction l as [|x l IH]; cbn; [split; [constructor|reflexivity]|].
    destruct (p (snd x)) eqn:E; cbn.
    - split; [lia|]. intros H. inversion H. congruence.
    - rewrite IH. split; [now constructor|]. intros H. now inversion H.
  Qed.

  Lemma fine_returned l : forallb (fun x : tc * behaviour => fine (snd x)) l = true ->
    (count reported l = 0 <-> Forall (fun x => snd x = Returns) l).
  Proof.
    intros Fi. rewrite count_zero. rewrite forallb_forall in Fi. split; intros H; rewrite Forall_forall in *; intros x I.
    - specialize (Fi x I). specialize (H x I). unfold fine in Fi. rewrite H in Fi. destruct (snd x); cbn in *; congruence.
    - now rewrite (H x I).
  Qed.

  Lemma count_split l : forallb (fun x : tc * behaviour => fine (snd x)) l = true ->
    count returned l + count reported l = N.of_nat (length l).
  Proof.
    induction l as [|x l IH]; intros H; [reflexivity|]. cbn in H. apply andb_true_iff in H as [A H]. specialize (IH H).
    unfold count in *. cbn. unfold fine in A. destruct (snd x) as [|w|]; cbn in *; try lia. rewrite A. cbn. lia.
  Qed.

  (** C84, C88: the exit code. *)
  Lemma exit_code r regs past w z : reachable r regs past -> result (run_all run r w) = Ok z ->
    (z = 0%Z \/ z = 1%Z) /\
    (z = 0%Z <-> Forall (fun x => reported (snd x) = false) past /\ Forall (fun x => snd x = Returns) (called (run_all run r w))).
  Proof.
    intros H Z. destruct (reachable_wf _ _ _ H) as (WF & P & Fl). destruct (run_all_spec r w) as (rest & R).
    destruct (ok_completes r w z Z) as [_ Fi]. pose proof (rn_result _ _ _ R z Z) as E.
    rewrite (rn_failed _ _ _ R), Fl in E. rewrite <- count_zero, <- (fine_returned _ Fi).
    destruct (N.eqb_spec (count reported past + count reported (called (run_all run r w))) 0); subst z; split; try tauto; split; intros; lia.
  Qed.

  Lemma exit_code_fresh regs w : let res := run_all run (register regs) w in
    (result res = Ok 0%Z <-> length (called res) = length regs /\ Forall (fun x => snd x = Returns) (called res)) /\
    (Forall (fun x => printable (snd x)) (called res) ->
       result res = Ok (if forallb (fun x => returned (snd x)) (called res) then 0%Z else 1%Z)).
  Proof.
    intros res. pose proof (register_reachable regs) as H. destruct (reachable_wf _ _ _ H) as (WF & P & Fl).
    assert (LF : length (flatten (tests (register regs))) = length regs).
    { rewrite <- (map_length ident). apply Permutation_length. exact (wf_perm _ _ WF). }
    split.
    - split.
      + intros Z. destruct (exit_code _ _ _ w _ H Z) as [_ [E _]]. destruct (E eq_refl) as [_ E1]. split; [|exact E1].
        destruct (ok_completes _ _ _ Z) as [M _]. now rewrite <- LF, <- M, map_length.
      + intros [L E1].
        destruct (completes (register regs) w) as [[z Z] _].
        { eapply Forall_impl; [|exact E1]. intros x Hx wh Hw. congruence. }
        destruct (exit_code _ _ _ w _ H Z) as [_ [_ E]]. fold res in Z. rewrite Z. f_equal. apply E. split; [constructor|exact E1].
    - intros Pr. destruct (completes (register regs) w Pr) as [[z Z] _]. fold res in Z.
      destruct (exit_code _ _ _ w _ H Z) as [C E]. fold res in E. rewrite Z. f_equal.
      destruct (forallb _ (called res)) eqn:A.
      + apply E. split; [constructor|]. rewrite forallb_forall in A. apply Forall_forall. intros x I. specialize (A x I).
        destruct (snd x); cbn in A; congruence.
      + destruct C as [C|C]; [|exact C]. exfalso. apply E in C as [_ C]. rewrite Forall_forall in C.
        assert (forallb (fun x => returned (snd x)) (called res) = true); [|congruence].
        apply forallb_forall. intros x I. now rewrite (C x I).
  Qed.

  (** C85 *)
  Lemma runs_in_order r regs past w : reachable r regs past ->
    let res := run_all run r w in
    Forall (fun x => printable (snd x)) (called res) ->
    in_order (call_ids (called res)) regs /\
    passed_ (after_run res) - passed_ r + (failed_ (after_run res) - failed_ r) = N.of_nat (length regs).
  Proof.
    intros H res Pr. destruct (reachable_wf _ _ _ H) as (WF & P & Fl). destruct (completes r w Pr) as [[z Z] M].
    assert (I : call_ids (called res) = map ident (flatten (tests r))).
    { unfold call_ids. rewrite <- M, map_map. reflexivity. }
    split; [rewrite I; now apply wf_in_order|].
    destruct (run_all_spec r w) as (rest & R). destruct (ok_completes r w z Z) as [_ Fi].
    pose proof (count_split _ Fi) as C. pose proof (rn_passed _ _ _ R) as P2. pose proof (rn_failed _ _ _ R) as F2.
    fold res in P2, F2, C. 
    assert (L : length (called res) = length regs).
    { unfold res. rewrite <- (map_length fst), M, <- (map_length ident). apply Permutation_length, (wf_perm _ _ WF). }
    rewrite P2, F2, <- L. lia.
  Qed.

  (** Without the assumption: what was called is a prefix of that order. *)
  Lemma prefix_in_order r regs past w : reachable r regs past ->
    exists rest, in_order (call_ids (called (run_all run r w)) ++ rest) regs.
  Proof.
    intros H. destruct (reachable_wf _ _ _ H) as (WF & _). destruct (run_all_spec r w) as (rest & R).
    exists (map ident rest). apply wf_in_order in WF. rewrite (rn_split _ _ _ R), map_app, map_map in WF. exact WF.
  Qed.

  (** C87, exactly: the run stops early only at a message that cannot be converted. *)
  Lemma stops_only_at_unprintable r regs past w : reachable r regs past ->
    let res := run_all run r w in
    ~ in_order (call_ids (called res)) regs \/ (forall z, result res <> Ok z) ->
    exists before t what, called res = before ++ [(t, ThrowsStd what)] /\ ~ printable_message what /\
      Forall (fun x => fine (snd x) = true) before.
  Proof.
    intros H res Bad. destruct (reachable_wf _ _ _ H) as (WF & _). destruct (run_all_spec r w) as (rest & R).
    destruct (rn_end _ _ _ R) as [O -> Fi|tr0 t wh B EQ O Fi].
    - exfalso. destruct Bad as [Bad|Bad].
      + apply Bad. apply wf_in_order in WF. rewrite (rn_split _ _ _ R), app_nil_r, map_map in WF. exact WF.
      + fold res in O. destruct (result res) as [z| | |]; try discriminate. now apply (Bad z).
    - exists tr0, t, wh. split; [exact EQ|]. split; [|now apply Forall_forall; rewrite forallb_forall in Fi].
      intros (u & r' & Tx & ->). rewrite string_of_cstr_text in B by assumption. discriminate.
  Qed.

  (** C86 *)
  Lemma quiet_flat l : quiet l -> flat_map is_failed_test l = [].
  Proof. auto. Qed.

  Lemma summary_names m p f :
    flat_map is_failed_test (summary m p f) =
    if 0 <? f then flat_map (fun t : tc => if passed t then [] else [(suite_name t, test_name t)]) (flatten m) else [].
  Proof.
    unfold summary. rewrite !flat_map_app. cbn. rewrite app_nil_r.
    replace (flat_map is_failed_test (if 0 <? p then [LogPassed p] else [])) with (@nil (Str * Str)) by now destruct (0 <? p).
    cbn. destruct (0 <? f); cbn; [|reflexivity].
    induction m as [|[k ts] m IH]; cbn; [reflexivity|]. rewrite !flat_map_app, IH. f_equal.
    induction ts as [|t ts IHt]; cbn; [reflexivity|]. rewrite flat_map_app, IHt. now destruct (passed t).
  Qed.

  Lemma summary_lists_failures r w z : result (run_all run r w) = Ok z ->
    flat_map is_failed_test (printed (run_all run r w)) = failures (called (run_all run r w)).
  Proof.
    intros Z. destruct (run_all_spec r w) as (rest & R). destruct (rn_log _ _ _ R z Z) as (l & Q & ->).
    rewrite flat_map_app, (quiet_flat l Q), summary_names. cbn [app].
    destruct (rn_end _ _ _ R) as [O -> Fi|tr0 t wh B EQ O Fi];
      [|exfalso; rewrite Z in O; cbn in O; destruct (string_of_cstr wh); discriminate].
    rewrite (rn_left _ _ _ R), app_nil_r, (rn_failed _ _ _ R).
    assert (E : flat_map (fun t : tc => if passed t then [] else [(suite_name t, test_name t)]) (map marked (called (run_all run r w)))
                = failures (called (run_all run r w))).
    { unfold failures. induction (called (run_all run r w)) as [|[t b] l' IH]; cbn; [reflexivity|].
      cbn in Fi. apply andb_true_iff in Fi as [_ Fi]. 
      assert (G : flat_map (fun t : tc => if passed t then [] else [(suite_name t, test_name t)]) (map marked l') =
        flat_map (fun x => match snd x with Returns => [] | _ => [(suite_name (fst x), test_name (fst x))] end) l').
      { clear. induction l' as [|[t b] l' IH]; cbn; [reflexivity|]. rewrite IH. now destruct b. }
      rewrite G. now destruct b. }
    rewrite E. destruct (0 <? _) eqn:L; [reflexivity|]. apply N.ltb_ge in L.
    assert (C : count reported (called (run_all run r w)) = 0) by lia.
    apply (fine_returned _ Fi) in C. unfold failures. clear - C.
    induction C as [|x l' Hx C IH]; cbn; [reflexivity|]. now rewrite Hx, <- IH.
  Qed.
  Lemma count_failures l : forallb (fun x : tc * behaviour => fine (snd x)) l = true ->
    count reported l = N.of_nat (length (failures l)).
  Proof.
    unfold count, failures. induction l as [|[t b] l IH]; cbn; [reflexivity|]. intros H. apply andb_true_iff in H as [Hb H].
    unfold fine in Hb. specialize (IH H). destruct b as [|what|]; cbn in *; [exact IH|rewrite Hb; cbn; lia|lia].
  Qed.
  Lemma summary_counts r w z : result (run_all run r w) = Ok z ->
    let p := passed_ r + count returned (called (run_all run r w)) in
    let f := failed_ r + N.of_nat (length (failures (called (run_all run r w)))) in
    exists l names, printed (run_all run r w) = l ++
      (if 0 <? p then [LogPassed p] else []) ++ (if 0 <? f then LogFailed f :: names else []) ++ [LogFailedCount f].
  Proof.
    intros Z p f. destruct (run_all_spec r w) as (rest & R). destruct (rn_log _ _ _ R z Z) as (l & _ & E).
    destruct (rn_end _ _ _ R) as [O -> Fi|tr0 t wh B EQ O Fi];
      [|exfalso; rewrite Z in O; cbn in O; destruct (string_of_cstr wh); discriminate].
    rewrite (rn_passed _ _ _ R), (rn_failed _ _ _ R), (count_failures _ Fi) in E. unfold summary in E.
    eexists _, _. exact E.
  Qed.
End Proofs.
