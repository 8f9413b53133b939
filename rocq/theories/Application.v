(** Model of __Caitlyn/Application.h: the process-wide Application object.
    [application_] (line 120) points to one object for the whole program; its state is
    [args_] (and the constant strings of lines 80-82, not modelled), plus [initialized_] (121). *)
From Coq Require Import List NArith ZArith Bool.
From Verif Require Import Outcome.
Import ListNotations.

Record appl := App { initialized : bool; args : list (list N) }.

(** Program start: initialized_ is false and args_ empty. *)
Definition app0 : appl := App false [].

(** argv as the caller passes it: for each index the memory the pointer leads to, or None for
    a null pointer. *)
Definition argv_t := list (option (list N)).

(** std::strlen / std::strcpy (lines 94, 95) read up to the terminator; without one they read
    past the memory. *)
Fixpoint c_string (mem : list N) : outcome (list N) :=
  match mem with
  | [] => UB
  | b :: r => if (b =? 0)%N then Ok [] else s <- c_string r ;; Ok (b :: s)
  end.

(** Lines 92-97: [n] iterations starting at index [i]. *)
Fixpoint set_args_loop (n i : nat) (argv : argv_t) (acc : list (list N)) : outcome (list (list N)) :=
  match n with
  | O => Ok acc
  | S n' =>
      p <- vec_get argv i ;;
      match p with
      | None => UB
      | Some mem => s <- c_string mem ;; set_args_loop n' (S i) argv (acc ++ [s])
      end
  end.

(** SetArgs, lines 87-99 *)
Definition set_args (a : appl) (argc : Z) (argv : argv_t) : outcome appl :=
  if (0 <? argc)%Z
  then l <- set_args_loop (Z.to_nat argc) 0 argv (args a) ;; Ok (App (initialized a) l)
  else Ok a.

(** Initialise, lines 34-43 (the returned pointer is always [application_]). *)
Definition initialise (a : appl) : outcome appl :=
  if initialized a then Throw ERuntimeError else Ok (App true (args a)).

(** Initialize, lines 45-56 *)
Definition initialize (a : appl) (argc : Z) (argv : argv_t) : outcome appl :=
  if initialized a then Throw ERuntimeError
  else a' <- set_args a argc argv ;; Ok (App true (args a')).

(** GetArgs, lines 58-61 *)
Definition get_args (a : appl) : list (list N) := args a.

(** A call of either function. *)
Inductive call := CInitialise | CInitialize (argc : Z) (argv : argv_t).
Definition do_call (a : appl) (c : call) : outcome appl :=
  match c with CInitialise => initialise a | CInitialize n v => initialize a n v end.

(** A history: every call is made, a thrown exception is caught by the caller and leaves the
    state that the call left (a throwing call changes nothing).  The result lists, per call,
    whether it returned, and the final state; UB ends the history. *)
Fixpoint history (a : appl) (cs : list call) : outcome (list (outcome unit) * appl) :=
  match cs with
  | [] => Ok ([], a)
  | c :: r =>
      match do_call a c with
      | Ok a' => '(os, b) <- history a' r ;; Ok (Ok tt :: os, b)
      | Throw e => '(os, b) <- history a r ;; Ok (Throw e :: os, b)
      | UB => UB
      | NoFuel => NoFuel
      end
  end.
