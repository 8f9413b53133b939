(** Model of __Testing/Types/TestRegistry.h and TestCase.h.
    Simplifications: durations are left to TestTimes.v; the output is a list of events instead of
    characters; a test function is an abstract [F] whose call takes the state of the world
    [W] to a new one and returns or throws; tests that never return, have undefined behaviour
    themselves, or register further tests while running are not modelled. *)
From Coq Require Import List NArith ZArith Bool.
From Verif Require Import Outcome CharModel StrModel StdMap.
Import ListNotations.
Local Open Scope N_scope.

(** How a call of a test function ends: normally, with a std::exception (whose what() points
    to [what]), or with something else. *)
Inductive behaviour := Returns | ThrowsStd (what : list N) | ThrowsOther.

(** Lines 116-182, the log (times left out). *)
Inductive event :=
| LogStart (total : N) (suites : nat)                 (* 116-120 *)
| LogSuiteStart (suite : Str) (count : nat)           (* 122-125 *)
| LogTestStart (suite test : Str)                     (* 127-130 *)
| LogTestOk (suite test : Str)                        (* 132-139 *)
| LogTestFailure (suite test message : Str)           (* 141-146 *)
| LogSuiteEnd (suite : Str) (count : nat)             (* 148-152 *)
| LogEnd (total : N) (suites : nat)                   (* 154-159 *)
| LogPassed (n : N)                                   (* 163-166 *)
| LogFailed (n : N)                                   (* 169 *)
| LogFailedTest (suite test : Str)                    (* 176 *)
| LogFailedCount (n : N).                             (* 181 *)

Section Registry.
  Context {F W : Type} (run : F -> W -> behaviour * W).

  (** TestCase.h 29-45 *)
  Record test_case := TestCase { suite_name : Str; test_name : Str; func : F; passed : bool }.

  (** TestRegistry.h 185-195 *)
  Record registry := Registry {
    tests : std_map Str (list test_case);
    total : N; passed_ : N; failed_ : N; skipped_ : N }.
  Definition registry0 : registry := Registry [] 0 0 0 0.

  (** AddTest, lines 47-51 *)
  Definition add_test (r : registry) (suite test : Str) (f : F) : registry :=
    Registry (map_update s_ltb suite [] (fun ts => ts ++ [TestCase suite test f false]) (tests r))
             (total r + 1) (passed_ r) (failed_ r) (skipped_ r).

  (** Everything RunAll changes besides the test cases: counters, world, log; [trace] records
      which function was called and how the call ended. *)
  Record rstate := RState {
    n_passed : N; n_failed : N; world : W; log : list event; trace : list (test_case * behaviour) }.
  Definition emit (s : rstate) (e : event) : rstate :=
    RState (n_passed s) (n_failed s) (world s) (log s ++ [e]) (trace s).

  (** Lines 76-87: a handler.  The message is converted to a String (parameter type of
      LogTestFailure, line 141) before anything is printed; the conversion may throw, and an
      exception thrown in a handler is not caught by its sibling [catch (...)]. *)
  Definition handle (t : test_case) (what : list N) (s : rstate) : test_case * rstate * outcome unit :=
    let t' := TestCase (suite_name t) (test_name t) (func t) false in
    match string_of_cstr what with
    | Ok m => let s1 := emit s (LogTestFailure (suite_name t) (test_name t) m) in
              (t', RState (n_passed s1) (n_failed s1 + 1) (world s1) (log s1) (trace s1), Ok tt)
    | Throw e => (t', s, Throw e)
    | UB => (t', s, UB)
    | NoFuel => (t', s, NoFuel)
    end.

  (** "Unknown error", line 85 *)
  Definition unknown_error : list N := [85; 110; 107; 110; 111; 119; 110; 32; 101; 114; 114; 111; 114; 0].

  (** Lines 67-93: one test. *)
  Definition run_test (t : test_case) (s : rstate) : test_case * rstate * outcome unit :=
    let s := emit s (LogTestStart (suite_name t) (test_name t)) in
    let (b, w) := run (func t) (world s) in
    let s := RState (n_passed s) (n_failed s) w (log s) (trace s ++ [(t, b)]) in
    let '(t', s', o) :=
      match b with
      | Returns => (TestCase (suite_name t) (test_name t) (func t) true,
                    RState (n_passed s + 1) (n_failed s) (world s) (log s) (trace s), Ok tt)
      | ThrowsStd what => handle t what s
      | ThrowsOther => handle t unknown_error s
      end in
    match o with
    | Ok _ => (t', if passed t' then emit s' (LogTestOk (suite_name t') (test_name t')) else s', Ok tt)
    | _ => (t', s', o)
    end.

  (** Lines 65-94: the tests of one suite.  An exception ends the loop. *)
  Fixpoint run_tests (ts : list test_case) (s : rstate) : list test_case * rstate * outcome unit :=
    match ts with
    | [] => ([], s, Ok tt)
    | t :: r =>
        let '(t', s1, o) := run_test t s in
        match o with
        | Ok _ => let '(r', s2, o2) := run_tests r s1 in (t' :: r', s2, o2)
        | _ => (t' :: r, s1, o)
        end
    end.

  (** Lines 59-97: all suites, in the order of the map. *)
  Fixpoint run_suites (m : std_map Str (list test_case)) (s : rstate)
      : std_map Str (list test_case) * rstate * outcome unit :=
    match m with
    | [] => ([], s, Ok tt)
    | (k, ts) :: r =>
        let s := emit s (LogSuiteStart k (length ts)) in
        let '(ts', s1, o) := run_tests ts s in
        match o with
        | Ok _ =>
            let s1 := emit s1 (LogSuiteEnd k (length ts')) in
            let '(r', s2, o2) := run_suites r s1 in ((k, ts') :: r', s2, o2)
        | _ => ((k, ts') :: r, s1, o)
        end
    end.

  (** LogSummary, lines 161-182 *)
  Definition summary (m : std_map Str (list test_case)) (p f : N) : list event :=
    (if 0 <? p then [LogPassed p] else []) ++
    (if 0 <? f then
       LogFailed f ::
       flat_map (fun '(_, ts) => flat_map (fun t =>
         if passed t then [] else [LogFailedTest (suite_name t) (test_name t)]) ts) m
     else []) ++
    [LogFailedCount f].

  (** What RunAll does: its return value or exception, the registry and the world it leaves,
      what it printed, and which tests it called. *)
  Record run_result := RunResult {
    result : outcome Z; after_run : registry; world_after : W; printed : list event;
    called : list (test_case * behaviour) }.

  (** RunAll, lines 53-109 *)
  Definition run_all (r : registry) (w : W) : run_result :=
    let s := RState (passed_ r) (failed_ r) w [LogStart (total r) (length (tests r))] [] in
    let '(m, s1, o) := run_suites (tests r) s in
    match o with
    | Ok _ =>
        let s1 := emit s1 (LogEnd (total r) (length m)) in
        let skipped := wrap64 (Z.of_N (total r) - Z.of_N (n_passed s1) - Z.of_N (n_failed s1))%Z in
        RunResult (Ok (if negb (n_failed s1 =? 0) then 1%Z else 0%Z))
                  (Registry m (total r) (n_passed s1) (n_failed s1) skipped)
                  (world s1) (log s1 ++ summary m (n_passed s1) (n_failed s1)) (trace s1)
    | Throw e => RunResult (Throw e) (Registry m (total r) (n_passed s1) (n_failed s1) (skipped_ r)) (world s1) (log s1) (trace s1)
    | UB => RunResult UB (Registry m (total r) (n_passed s1) (n_failed s1) (skipped_ r)) (world s1) (log s1) (trace s1)
    | NoFuel => RunResult NoFuel (Registry m (total r) (n_passed s1) (n_failed s1) (skipped_ r)) (world s1) (log s1) (trace s1)
    end.

  (** A program: registrations (suite, test, function) in this order, before RunAll. *)
  Definition register (regs : list (Str * Str * F)) : registry :=
    fold_left (fun r '(s, t, f) => add_test r s t f) regs registry0.
End Registry.
Arguments test_case F : clear implicits.
Arguments registry F : clear implicits.
