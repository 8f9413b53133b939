(** Model of the times that RunAll prints (__Testing/Types/TestRegistry.h 57, 63, 69, 88-91, 99-101, 132-159, 192-194)
    and of the names that the macros TEST and TEST_F define (__Testing/Macro/Test.h 22-37, TestFixture.h 22-40).
    Simplification: the steady clock is the sequence of its readings in nanoseconds. *)
From Coq Require Import List NArith ZArith Bool.
From Verif Require Import Outcome CharModel StrModel TestRegistry.
Import ListNotations.
Local Open Scope Z_scope.

(** duration_cast<milliseconds>: truncation, lines 90, 101 *)
Definition to_ms (ns : Z) : Z := Z.quot ns 1000000.

(** Lines 188-194 and the local suite_total_time of line 63; [reads]: how often the clock was read *)
Record times := Times { reads : nat; start_global : Z; start_local : Z; local_diff : Z; suite_total : Z }.

(** The log again, with the time each line shows, if any.  [clock n] is the n-th reading. *)
Section Timed.
Variable clock : nat -> Z.
(** 88-92: the clock is read again after the test function, and the difference kept and added *)
Definition stop (s : times) : times :=
  let d := to_ms (clock (reads s) - start_local s) in
  Times (S (reads s)) (start_global s) (start_local s) d (suite_total s + d).
Fixpoint timed (s : times) (l : list event) : list (event * option Z) :=
  match l with
  | [] => []
  | e :: r =>
      match e with
      | LogStart _ _ =>                                     (* 55, then 57 *)
          (e, None) :: timed (Times (S (reads s)) (clock (reads s)) (start_local s) (local_diff s) (suite_total s)) r
      | LogSuiteStart _ _ =>                                (* 61, then 63 *)
          (e, None) :: timed (Times (reads s) (start_global s) (start_local s) (local_diff s) 0) r
      | LogTestStart _ _ =>                                 (* 67, then 69 *)
          (e, None) :: timed (Times (S (reads s)) (start_global s) (clock (reads s)) (local_diff s) (suite_total s)) r
      | LogTestOk _ _ =>                                    (* 88-90, then 92 with localDiff_ *)
          let s := stop s in (e, Some (local_diff s)) :: timed s r
      | LogTestFailure _ _ _ =>                             (* 79 or 85 with localDiff_ (143), then 88-90 *)
          (e, Some (local_diff s)) :: timed (stop s) r
      | LogSuiteEnd _ _ => (e, Some (suite_total s)) :: timed s r          (* 96, 150 *)
      | LogEnd _ _ =>                                       (* 99-101, then 103 and 158 *)
          (e, Some (to_ms (clock (reads s) - start_global s))) ::
          timed (Times (S (reads s)) (start_global s) (start_local s) (local_diff s) (suite_total s)) r
      | _ => (e, None) :: timed s r
      end
  end.
End Timed.

(** ** Macros: identifiers are byte lists *)
Definition underscore : N := 95%N.
(** "_Registrar", "_Registrar_Instance", "_Fixture" *)
Definition registrar : list N := [95; 82; 101; 103; 105; 115; 116; 114; 97; 114]%N.
Definition registrar_instance : list N := [95; 82; 101; 103; 105; 115; 116; 114; 97; 114; 95; 73; 110; 115; 116; 97; 110; 99; 101]%N.
Definition fixture_suffix : list N := [95; 70; 105; 120; 116; 117; 114; 101]%N.

Inductive test_macro := TEST (suite test : list N) | TEST_F (fixture test : list N).
(** Test.h 24, 37: the function, in the scope of the macro; TestFixture.h 24-27: the derived class *)
Definition outer_names (m : test_macro) : list (list N) :=
  match m with TEST s t => [s ++ [underscore] ++ t] | TEST_F _ t => [t ++ fixture_suffix] end.
(** Test.h 27-35, TestFixture.h 30-38: the registrar class and its object, in an unnamed namespace *)
Definition inner_names (m : test_macro) : list (list N) :=
  match m with
  | TEST s t => [s ++ [underscore] ++ t ++ registrar; s ++ [underscore] ++ t ++ registrar_instance]
  | TEST_F _ t => [t ++ registrar; t ++ registrar_instance]
  end.
(** What the macro registers (Test.h 31-32, TestFixture.h 34-35): names of suite and test *)
Definition registers (m : test_macro) : list N * list N := match m with TEST s t => (s, t) | TEST_F f t => (f, t) end.
(** The call of AddTest of the macro: the two names become Strings (TestRegistry.h 47), the function is called [f] *)
Definition registration {F : Type} (m : test_macro) (f : F) : outcome (Str * Str * F) :=
  let '(s, t) := registers m in
  s' <- string_of_cstr (s ++ [0%N]) ;; t' <- string_of_cstr (t ++ [0%N]) ;; Ok (s', t', f).
Fixpoint registrations {F : Type} (ms : list (test_macro * F)) : outcome (list (Str * Str * F)) :=
  match ms with
  | [] => Ok []
  | (m, f) :: r => x <- registration m f ;; l <- registrations r ;; Ok (x :: l)
  end.
(** The tests of one translation unit compile only if no name is defined twice in a scope (the other declarations
    of the program are left out). *)
Definition compiles (ms : list test_macro) : Prop :=
  NoDup (flat_map outer_names ms) /\ NoDup (flat_map inner_names ms).
