(** Properties C84-C88: the test runner.  Everything holds for every type of test functions [F],
    every world [W] and every way [run] in which the functions behave. *)
From Coq Require Import List NArith ZArith Bool Permutation Sorted Lia.
From Verif Require Import Outcome CharModel StrModel StdMap TestRegistry SpecUtf8 SpecStr SpecTest TestRegistryProofs.
Import ListNotations.
Local Open Scope N_scope.

(** Test functions for the examples: 0 returns, 1 throws a std::exception "no", 2 throws an int,
    3 throws a std::exception whose message is not UTF-8, 4 throws on its first call only. *)
Definition demo (f : nat) (w : nat) : behaviour * nat :=
  match f with
  | 0%nat => (Returns, w)
  | 1%nat => (ThrowsStd [110; 111; 0], w)
  | 2%nat => (ThrowsOther, w)
  | 3%nat => (ThrowsStd [0xFF; 0], w)
  | _ => (match w with O => ThrowsOther | _ => Returns end, S w)
  end.
Definition A : Str := [[65]].
Definition B : Str := [[66]].

(** C84.  RunAll on a fresh registry returns 0 exactly when every registered test was called and
    returned; it returns 1 whenever a test failed, provided the messages are printable. *)
Theorem C84_exit_code_partial : forall (F W : Type) (run : F -> W -> behaviour * W) regs w,
  let res := run_all run (register regs) w in
  (result res = Ok 0%Z <-> length (called res) = length regs /\ Forall (fun x => snd x = Returns) (called res)) /\
  (Forall (fun x => printable (snd x)) (called res) ->
     result res = Ok (if forallb (fun x => returned (snd x)) (called res) then 0%Z else 1%Z)).
Proof. exact @exit_code_fresh. Qed.
Print Assumptions C84_exit_code_partial.
(** Missing: an unprintable message makes RunAll throw (C87). *)
Theorem C84_no_exit_code_refuted : exists F W (run : F -> W -> behaviour * W) regs w,
  result (run_all run (register regs) w) = Throw ERuntimeError.
Proof. exists nat, nat, demo, [(A, A, 3%nat)], 0%nat. reflexivity. Qed.
Print Assumptions C84_no_exit_code_refuted.
Example C84_ex :
  result (run_all demo (register [(B, A, 0%nat); (A, B, 0%nat)]) 0%nat) = Ok 0%Z /\
  result (run_all demo (register [(B, A, 0%nat); (A, B, 1%nat); (B, B, 2%nat)]) 0%nat) = Ok 1%Z /\
  Forall (fun x => printable (snd x)) (called (run_all demo (register [(B, A, 0%nat); (A, B, 1%nat); (B, B, 2%nat)]) 0%nat)).
Proof.
  split; [reflexivity|]. split; [reflexivity|].
  set (l := called _). vm_compute in l. subst l. repeat constructor; cbn; try (intros w H; discriminate H).
  intros w H. injection H as <-. exists [[110]; [111]], []. split; [|reflexivity].
  repeat constructor; cbn; try discriminate; unfold is_byte; lia.
Qed.

(** C85.  In every reachable state (tests registered and run in any order before), RunAll calls
    every registered test exactly once, suites in name order, tests of a suite in registration
    order, and counts each one as passed or failed. *)
Theorem C85_runs_all_in_order_partial : forall (F W : Type) (run : F -> W -> behaviour * W) r regs past w,
  reachable run r regs past -> let res := run_all run r w in
  Forall (fun x => printable (snd x)) (called res) ->
  in_order (call_ids (called res)) regs /\
  passed_ (after_run res) - passed_ r + (failed_ (after_run res) - failed_ r) = N.of_nat (length regs).
Proof. exact @runs_in_order. Qed.
Print Assumptions C85_runs_all_in_order_partial.
(** Without the assumption on messages: a prefix of that order. *)
Theorem C85_prefix_in_order_partial : forall (F W : Type) (run : F -> W -> behaviour * W) r regs past w,
  reachable run r regs past -> exists rest, in_order (call_ids (called (run_all run r w)) ++ rest) regs.
Proof. exact @prefix_in_order. Qed.
Print Assumptions C85_prefix_in_order_partial.
Example C85_ex : let regs := [(B, A, 0%nat); (A, B, 1%nat); (B, B, 2%nat); (A, A, 0%nat)] in
  reachable demo (register regs) regs [] /\
  call_ids (called (run_all demo (register regs) 0%nat)) = [(A, B, 1%nat); (A, A, 0%nat); (B, A, 0%nat); (B, B, 2%nat)].
Proof. split; [apply register_reachable|reflexivity]. Qed.

(** C86.  Whenever RunAll returns, its summary names exactly the failed tests of this run, in
    the order in which they ran. *)
Theorem C86_summary_lists_failures : forall (F W : Type) (run : F -> W -> behaviour * W) r w z,
  result (run_all run r w) = Ok z ->
  flat_map is_failed_test (printed (run_all run r w)) = failures (called (run_all run r w)).
Proof. exact @summary_lists_failures. Qed.
Print Assumptions C86_summary_lists_failures.
(** The summary ends with the numbers: of passed tests (if any) and, twice, of failed ones - of this run, added to what
    the registry counted in earlier runs (C88). *)
Theorem C86_counts : forall (F W : Type) (run : F -> W -> behaviour * W) r w z,
  result (run_all run r w) = Ok z ->
  let c := called (run_all run r w) in
  let p := passed_ r + N.of_nat (length c - length (failures c)) in
  let f := failed_ r + N.of_nat (length (failures c)) in
  exists l names, printed (run_all run r w) = l ++
    (if 0 <? p then [LogPassed p] else []) ++ (if 0 <? f then LogFailed f :: names else []) ++ [LogFailedCount f].
Proof.
  intros F W run r w z Z c p f. pose proof (summary_counts run r w z Z) as H. cbv zeta in H. fold c in H.
  assert (E : count returned c = N.of_nat (length c - length (failures c))).
  { clear. unfold count, failures. 
    assert (G : (length (filter (fun x : test_case F * behaviour => returned (snd x)) c) + length (flat_map (fun x : test_case F * behaviour => match snd x with Returns => [] | _ => [(suite_name (fst x), test_name (fst x))] end) c) = length c)%nat).
    { induction c as [|[t b] l IH]; cbn; [reflexivity|]. destruct b; cbn; lia. }
    lia. }
  rewrite E in H. exact H.
Qed.
Print Assumptions C86_counts.
Example C86_ex : let r := register [(B, A, 0%nat); (A, B, 1%nat); (B, B, 2%nat); (A, A, 0%nat)] in
  result (run_all demo r 0%nat) = Ok 1%Z /\
  flat_map is_failed_test (printed (run_all demo r 0%nat)) = [(A, B); (B, B)] /\
  exists l names, printed (run_all demo r 0%nat) = l ++ [LogPassed 2] ++ (LogFailed 2 :: names) ++ [LogFailedCount 2].
Proof.
  split; [vm_compute; reflexivity|]. split; [vm_compute; reflexivity|].
  set (e := printed _). exists (firstn (length e - 5) e), [LogFailedTest A B; LogFailedTest B B]. vm_compute. reflexivity.
Qed.

(** C87.  The run stops early, or does not return, only when a test throws a std::exception whose
    message is not a printable text; everything before it was reported. *)
Theorem C87_stops_only_at_unprintable_partial : forall (F W : Type) (run : F -> W -> behaviour * W) r regs past w,
  reachable run r regs past -> let res := run_all run r w in
  ~ in_order (call_ids (called res)) regs \/ (forall z, result res <> Ok z) ->
  exists before t what, called res = before ++ [(t, ThrowsStd what)] /\ ~ printable_message what /\
    Forall (fun x => fine (snd x) = true) before.
Proof. exact @stops_only_at_unprintable. Qed.
Print Assumptions C87_stops_only_at_unprintable_partial.
(** A test that throws a message with an invalid byte ends the run: the second test is not called. *)
Theorem C87_stops_refuted : exists F W (run : F -> W -> behaviour * W) regs w,
  length regs = 2%nat /\ length (called (run_all run (register regs) w)) = 1%nat /\
  result (run_all run (register regs) w) = Throw ERuntimeError.
Proof. exists nat, nat, demo, [(A, A, 3%nat); (B, B, 0%nat)], 0%nat. repeat split. Qed.
Print Assumptions C87_stops_refuted.
(** A message that ends inside a character makes the conversion read past its end. *)
Theorem C87_undefined_refuted : exists F W (run : F -> W -> behaviour * W) regs w,
  result (run_all run (register regs) w) = UB.
Proof. exists unit, unit, (fun _ _ => (ThrowsStd [0xE2; 0], tt)), [(A, A, tt)], tt. reflexivity. Qed.
Print Assumptions C87_undefined_refuted.

(** C88.  The exit code of any run is 0 exactly when this run had no failure and no earlier run
    reported one: right only as long as no earlier run reported a failure. *)
Theorem C88_exit_code_history_partial : forall (F W : Type) (run : F -> W -> behaviour * W) r regs past w z,
  reachable run r regs past -> result (run_all run r w) = Ok z ->
  (z = 0%Z \/ z = 1%Z) /\
  (z = 0%Z <-> Forall (fun x => reported (snd x) = false) past /\ Forall (fun x => snd x = Returns) (called (run_all run r w))).
Proof. exact @exit_code. Qed.
Print Assumptions C88_exit_code_history_partial.
(** All tests of the second run pass, it names no failed test, but it returns 1. *)
Theorem C88_second_run_refuted : exists F W (run : F -> W -> behaviour * W) regs w,
  let first := run_all run (register regs) w in
  let second := run_all run (after_run first) (world_after first) in
  Forall (fun x => snd x = Returns) (called second) /\ length (called second) = length regs /\
  result second = Ok 1%Z.
Proof. exists nat, nat, demo, [(A, A, 4%nat)], 0%nat. vm_compute. repeat split. now repeat constructor. Qed.
Print Assumptions C88_second_run_refuted.
