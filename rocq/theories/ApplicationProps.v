(** Property C89: Application initialises once. *)
From Coq Require Import List NArith ZArith Bool Lia.
From Verif Require Import Outcome Application.
Import ListNotations.

(** Specification: [argv] holds at least the [strings] as C strings (memory after the
    terminator is arbitrary). *)
Definition holds_strings (argv : argv_t) (strings : list (list N)) : Prop :=
  exists rest tails, length tails = length strings /\ Forall (fun s => ~ In 0%N s) strings /\
    argv = map (fun '(s, t) => Some (s ++ 0%N :: t)) (combine strings tails) ++ rest.

(** What a well-formed first call records. *)
Inductive records : call -> list (list N) -> Prop :=
| rec_plain : records CInitialise []
| rec_none argc argv : (argc <= 0)%Z -> records (CInitialize argc argv) []
| rec_args strings argv : holds_strings argv strings ->
    records (CInitialize (Z.of_nat (length strings)) argv) strings.

Lemma c_string_spec s t : ~ In 0%N s -> c_string (s ++ 0%N :: t) = Ok s.
Proof.
  induction s as [|b r IH]; intros H; cbn; [reflexivity|].
  destruct (N.eqb_spec b 0) as [->|_]; [exfalso; apply H; now left|].
  rewrite IH; [reflexivity|]. intros I. apply H. now right.
Qed.

Lemma set_args_loop_spec strings : forall tails rest pre acc, length tails = length strings ->
  Forall (fun s => ~ In 0%N s) strings ->
  set_args_loop (length strings) (length pre)
    (pre ++ map (fun '(s, t) => Some (s ++ 0%N :: t)) (combine strings tails) ++ rest) acc = Ok (acc ++ strings).
Proof.
  induction strings as [|s r IH]; intros tails rest pre acc L F; [cbn; now rewrite app_nil_r|].
  destruct tails as [|t tails]; [discriminate L|]. injection L as L. inversion F as [|? ? Fs Fr]; subst.
  cbn [length set_args_loop combine map app]. unfold vec_get.
  rewrite nth_error_app2, Nat.sub_diag by lia. cbn [nth_error bind].
  rewrite c_string_spec by assumption. cbn [bind].
  specialize (IH tails rest (pre ++ [Some (s ++ 0%N :: t)]) (acc ++ [s]) L Fr).
  rewrite app_length, <- app_assoc in IH. cbn [length app] in IH. rewrite Nat.add_1_r in IH.
  rewrite IH, <- app_assoc. reflexivity.
Qed.

Lemma first_call c strings : records c strings -> do_call app0 c = Ok (App true strings).
Proof.
  intros R. destruct R as [|argc argv H|strings argv (rest & tails & L & F & ->)]; cbn; [reflexivity| |].
  - unfold initialize, set_args. cbn. destruct (Z.ltb_spec 0 argc); [lia|reflexivity].
  - unfold initialize, set_args. cbn [initialized app0].
    destruct (Z.ltb_spec 0 (Z.of_nat (length strings))) as [P|P].
    + rewrite Nat2Z.id. pose proof (set_args_loop_spec strings tails rest [] [] L F) as E.
      cbn [app length] in E. cbn [args app0 bind]. rewrite E. reflexivity.
    + destruct strings; [reflexivity|cbn in P; lia].
Qed.

Lemma later_calls cs : forall l, history (App true l) cs = Ok (map (fun _ => Throw ERuntimeError) cs, App true l).
Proof.
  induction cs as [|c r IH]; intros l; [reflexivity|]. cbn [history].
  replace (do_call (App true l) c) with (Throw (A := appl) ERuntimeError) by now destruct c.
  rewrite IH. reflexivity.
Qed.

Lemma one_initialisation c cs strings : records c strings ->
  exists a, history app0 (c :: cs) = Ok (Ok tt :: map (fun _ => Throw ERuntimeError) cs, a) /\
    get_args a = strings.
Proof.
  intros R. exists (App true strings). cbn [history]. rewrite (first_call c strings R).
  rewrite later_calls. split; reflexivity.
Qed.

(** No history at all lets two calls return, however badly formed the arguments. *)
Lemma at_most_one cs : forall os a, history app0 cs = Ok (os, a) ->
  match cs with [] => a = app0 | _ => os = Ok tt :: map (fun _ => Throw ERuntimeError) (tl cs) /\ initialized a = true end.
Proof.
  destruct cs as [|c r]; intros os a H; [injection H as <- <-; reflexivity|].
  cbn [history] in H.
  assert (forall a', do_call app0 c = Ok a' -> initialized a' = true) as I.
  { intros a' E. destruct c as [|n v]; [injection E as <-; reflexivity|].
    cbn in E. unfold initialize in E. cbn [initialized app0] in E.
    destruct (set_args app0 n v); try discriminate E. injection E as <-. reflexivity. }
  destruct (do_call app0 c) as [[i l]|e| |] eqn:E; try discriminate H.
  - specialize (I _ eq_refl). cbn in I. subst i. rewrite later_calls in H. injection H as <- <-. split; reflexivity.
  - destruct c as [|n v]; cbn in E; [discriminate E|]. unfold initialize in E. cbn [initialized app0] in E.
    destruct (set_args app0 n v) as [| e'| |] eqn:S; try discriminate E. exfalso. revert S.
    unfold set_args. destruct (0 <? n)%Z; [|discriminate].
    assert (forall k i acc, exists r', set_args_loop k i v acc = r' /\ match r' with Throw _ => False | _ => True end) as T.
    { assert (C : forall m, match c_string m with Throw _ => False | _ => True end).
      { induction m as [|b m IH]; [exact Logic.I|]. cbn. destruct (b =? 0)%N; [exact Logic.I|].
        destruct (c_string m); cbn; assumption || exact Logic.I. }
      induction k as [|k IH]; intros i acc; cbn; [eexists; split; [reflexivity|exact Logic.I]|].
      unfold vec_get. destruct (nth_error v i) as [[m|]|]; cbn; try (eexists; split; [reflexivity|exact Logic.I]).
      specialize (C m). destruct (c_string m); cbn; [apply IH|destruct C| |]; eexists; (split; [reflexivity|exact Logic.I]). }
    destruct (T (Z.to_nat n) 0%nat (args app0)) as (r' & -> & T'). destruct r'; cbn; try discriminate. destruct T'.
Qed.

(** C89 *)
Theorem C89_first_records_later_throw : forall c cs strings, records c strings ->
  exists a, history app0 (c :: cs) = Ok (Ok tt :: map (fun _ => Throw ERuntimeError) cs, a) /\
    get_args a = strings.
Proof. exact one_initialisation. Qed.
Print Assumptions C89_first_records_later_throw.
Theorem C89_at_most_one : forall cs os a, history app0 cs = Ok (os, a) ->
  match cs with [] => a = app0 | _ => os = Ok tt :: map (fun _ => Throw ERuntimeError) (tl cs) /\ initialized a = true end.
Proof. exact at_most_one. Qed.
Print Assumptions C89_at_most_one.
(** main(2, {"a", "bc", null}) then two more calls. *)
Example C89_ex :
  let argv := [Some [97; 0; 55]; Some [98; 99; 0]; None]%N in
  records (CInitialize 2 argv) [[97]; [98; 99]]%N /\
  history app0 [CInitialize 2 argv; CInitialise; CInitialize 1 argv] =
    Ok ([Ok tt; Throw ERuntimeError; Throw ERuntimeError], App true [[97]; [98; 99]]%N).
Proof.
  split; [|reflexivity]. apply (rec_args [[97]; [98; 99]]%N).
  exists [None], [[55]; []]%N. split; [reflexivity|]. split; [|reflexivity].
  repeat constructor; cbn; intuition discriminate.
Qed.
