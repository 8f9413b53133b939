(** Properties C72-C75: Expected. *)
From Coq Require Import List Arith Bool Permutation.
From Verif Require Import Outcome Expected ExpectedLife ExpectedProofs.
Import ListNotations.

(** C72: the accessors follow the state.  HasValue tells which of the two states it is; each
    accessor returns what is held or, in the other state, throws or uses the fallback. *)
Theorem C72_accessors : forall (T E U : Type) (x : expected T E) (conv : U -> outcome T) (u : U) (f : E -> outcome T),
  (forall v, x = Value v ->
     has_value x = true /\ has_error x = false /\ get x = Ok v /\ expect x = Ok v /\
     unwrap_or conv u x = Ok v /\ unwrap_or_else f x = Ok v /\
     get_error x = Throw ELogicError /\ expect_error x = Throw ERuntimeError) /\
  (forall e, x = Error e ->
     has_value x = false /\ has_error x = true /\ get_error x = Ok e /\ expect_error x = Ok e /\
     unwrap_or conv u x = conv u /\ unwrap_or_else f x = f e /\
     get x = Throw ELogicError /\ expect x = Throw ERuntimeError) /\
  (has_value x = true <-> exists v, get x = Ok v) /\
  (has_value x = false <-> exists e, get_error x = Ok e).
Proof.
  intros T E U x conv u f. split; [intros v ->; repeat split|]. split; [intros e ->; repeat split|].
  destruct x as [v|e]; cbn; split; split; try discriminate; eauto; now intros [? ?].
Qed.
Print Assumptions C72_accessors.
Example C72_ex : get (T := nat) (E := nat) (Error 3) = Throw ELogicError /\ get_error (T := nat) (Error 3) = Ok 3 /\
  unwrap_or (T := nat) (E := nat) (fun b : bool => Ok (if b then 1 else 0)) true (Error 3) = Ok 1.
Proof. repeat split. Qed.

(** C73: functor laws of Map, monad laws of AndThen and Then, for functions that may throw or be
    undefined. *)
Theorem C73_map_laws : forall (T U V E : Type) (x : expected T E) (f : T -> outcome U) (g : U -> outcome V),
  emap (fun v => Ok v) x = Ok x /\
  (y <- emap f x ;; emap g y) = emap (fun v => u <- f v ;; g u) x.
Proof.
  intros T U V E [v|e] f g; cbn; split; try reflexivity. now destruct (f v).
Qed.
Print Assumptions C73_map_laws.
Theorem C73_monad_laws : forall (T E : Type) (v : T) (x : expected T E) (f g : T -> outcome (expected T E)),
  and_then f (Value v) = f v /\
  and_then (fun v => Ok (Value v)) x = Ok x /\
  (y <- and_then f x ;; and_then g y) = and_then (fun v => y <- f v ;; and_then g y) x /\
  (forall h : T -> outcome T, and_then (fun v => u <- h v ;; Ok (Value u)) x = emap h x) /\
  then_ f x = and_then f x.
Proof. intros T E v [w|e] f g; repeat split. Qed.
Print Assumptions C73_monad_laws.
(** On an error Map, AndThen, Then and Fold give the error (Fold: the initial value) whatever the
    function is, even one whose call would be undefined: it is not called. *)
Theorem C73_errors_untouched : forall (T U E : Type) (e : E) (f : T -> outcome U) (g : T -> outcome (expected T E))
    (h : U -> T -> outcome U) (i : U),
  emap f (Error e) = Ok (Error e) /\ and_then g (Error e) = Ok (Error e) /\ then_ g (Error e) = Ok (Error e) /\
  fold i h (Error e) = Ok i.
Proof. repeat split. Qed.
Print Assumptions C73_errors_untouched.
(** OrElse, CatchError and MapError: the same laws with values and errors exchanged. *)
Definition swap {T E} (x : expected T E) : expected E T :=
  match x with Value v => Error v | Error e => Value e end.
Theorem C73_error_duals : forall (T E : Type) (x : expected T E) (f : E -> outcome (expected T E)) (g : E -> outcome E)
    (k : E -> outcome unit) (v : T),
  (y <- or_else f x ;; Ok (swap y)) = and_then (fun e => y <- f e ;; Ok (swap y)) (swap x) /\
  catch_error f x = or_else f x /\
  (y <- map_error g x ;; Ok (swap y)) = emap g (swap x) /\
  on_error k (Value v) = Ok (@Value T E v) /\ on_error k x = or_else (fun e => _ <- k e ;; Ok (Error e)) x /\
  or_else f (Value v) = Ok (Value v) /\ catch_error f (Value v) = Ok (Value v) /\ map_error g (@Value T E v) = Ok (Value v).
Proof.
  intros T E [w|e] f g k v; cbn; repeat split. now destruct (g e).
Qed.
Print Assumptions C73_error_duals.
(** Inspect, Fold and Customize pass what is held to the right function. *)
Theorem C73_eliminators : forall (T E R : Type) (v : T) (e : E) (f : T -> outcome R) (g : E -> outcome R) (i : R)
    (h : R -> T -> outcome R) (c : expected T E -> outcome R) (x : expected T E),
  inspect f g (Value v) = f v /\ inspect f g (Error e) = g e /\
  fold (E := E) i h (Value v) = h i v /\ customize c x = c x.
Proof. repeat split. Qed.
Print Assumptions C73_eliminators.
Example C73_ex :
  emap (fun n : nat => if n =? 0 then Throw ERuntimeError else Ok (n - 1)) (Value 3 : expected nat nat) = Ok (Value 2) /\
  emap (fun _ : nat => UB (A := nat)) (Error 7 : expected nat nat) = Ok (Error 7).
Proof. split; reflexivity. Qed.

(** C74: in every history (constructors may throw; what happens when assignment throws is C75)
    nothing is undefined, no object is destroyed twice, every object is either destroyed and no
    longer held, or held by exactly one variable; when all variables are gone all objects have
    been destroyed, each once. *)
Theorem C74_destroyed_exactly_once : forall h L, legal [] h L -> forallb (fun o => negb (bad_assignment o)) h = true ->
  exists s, eexec estate0 h = Ok s /\ NoDup (destroyed s) /\
    (forall i, i < made s -> (In i (destroyed s) /\ (forall x, ~ own s x i)) \/
       (~ In i (destroyed s) /\ exists x, In x L /\ own s x i /\ forall y, own s y i -> y = x)) /\
    (L = [] -> Permutation (destroyed s) (seq 0 (made s))).
Proof. exact lifetimes. Qed.
Print Assumptions C74_destroyed_exactly_once.
(** Value, error, copies, moves, value-to-error assignment, self-assignment, a throwing copy. *)
Definition history1 : list eop :=
  [ENew 0 true false; ENew 1 false false; ECopy 2 0 true; ECopy 2 0 false; EAssign 2 1 false; EAssign 2 2 true;
   EMoveAssign 1 0 false; EUse 2; EMove 3 1 false; EDestroy 3; EDestroy 2; EDestroy 1; EDestroy 0].
Example C74_ex : legal [] history1 [] /\ forallb (fun o => negb (bad_assignment o)) history1 = true /\
  omap (fun s => (made s, destroyed s)) (eexec estate0 history1) = Ok (6, [2; 1; 5; 3; 4; 0]).
Proof.
  split; [|split; vm_compute; reflexivity].
  apply legal_run_sound. vm_compute. reflexivity.
Qed.

(** C75, refuted: a copy that throws during assignment leaves the target without an object, but its
    destructor still destroys one. *)
Definition history2 : list eop := [ENew 0 true false; ENew 1 true false; EAssign 0 1 true; EDestroy 1; EDestroy 0].
Theorem C75_refuted : legal [] history2 [] /\ eexec estate0 history2 = UB.
Proof.
  split; [|vm_compute; reflexivity].
  apply legal_run_sound. vm_compute. reflexivity.
Qed.
Print Assumptions C75_refuted.
(** It is so for every history: a program that destroys all its variables is undefined exactly
    when an assignment between two different variables throws; throwing constructors and throwing
    self-assignments are safe. *)
Theorem C75_partial : forall h, legal [] h [] ->
  (eexec estate0 h = UB <-> existsb bad_assignment h = true) /\
  (existsb bad_assignment h = false -> exists s, eexec estate0 h = Ok s /\ Permutation (destroyed s) (seq 0 (made s))).
Proof. exact complete_history. Qed.
Print Assumptions C75_partial.
Example C75_partial_ex : legal [] history1 [] /\ existsb bad_assignment history1 = false /\ existsb bad_assignment history2 = true.
Proof. split; [apply C74_ex|]. split; reflexivity. Qed.
