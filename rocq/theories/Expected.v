(** Model of __Core/Error/Expected.h and Unexpected.h: values.
    The lifetime of the held objects is modelled separately in ExpectedLife.v.
    A function object passed by the caller is a function [A -> outcome B]: it may return, throw or
    be undefined.  Filter (250-258) and UnwrapOrDefault (220-229) name things that do not exist
    (result_t, unwrap_or) and cannot be instantiated: not modelled. *)
From Coq Require Import List.
From Verif Require Import Outcome.

(** Lines 355-369: data_ and hasValue_.  Unexpected<E> (Unexpected.h 25-40) just holds an E. *)
Inductive expected (T E : Type) := Value (v : T) | Error (e : E).
Arguments Value {T E} v.
Arguments Error {T E} e.

Section Expected.
  Context {T E : Type}.
  Implicit Type x : expected T E.

  (** Lines 125-138 *)
  Definition has_value x : bool := match x with Value _ => true | Error _ => false end.
  Definition has_error x : bool := negb (has_value x).
  (** Get, 140-147 *)
  Definition get x : outcome T := match x with Value v => Ok v | Error _ => Throw ELogicError end.
  (** GetError, 149-156 *)
  Definition get_error x : outcome E := match x with Error e => Ok e | Value _ => Throw ELogicError end.
  (** Map, 158-167 *)
  Definition emap {U} (f : T -> outcome U) x : outcome (expected U E) :=
    match x with Value v => u <- f v ;; Ok (Value u) | Error e => Ok (Error e) end.
  (** MapError, 169-178; line 177 converts the result back only when the error type is unchanged. *)
  Definition map_error (f : E -> outcome E) x : outcome (expected T E) :=
    match x with Error e => e' <- f e ;; Ok (Error e') | Value v => Ok (Value v) end.
  (** AndThen, 180-188 *)
  Definition and_then (f : T -> outcome (expected T E)) x : outcome (expected T E) :=
    match x with Value v => f v | Error e => Ok (Error e) end.
  (** OrElse, 190-198 *)
  Definition or_else (f : E -> outcome (expected T E)) x : outcome (expected T E) :=
    match x with Error e => f e | Value v => Ok (Value v) end.
  (** UnwrapOr, 200-208; [conv] converts the fallback of type U to T. *)
  Definition unwrap_or {U} (conv : U -> outcome T) (u : U) x : outcome T :=
    match x with Value v => Ok v | Error _ => conv u end.
  (** UnwrapOrElse, 210-218 (result type of the function taken to be T) *)
  Definition unwrap_or_else (f : E -> outcome T) x : outcome T :=
    match x with Value v => Ok v | Error e => f e end.
  (** Expect, 231-238 *)
  Definition expect x : outcome T := match x with Value v => Ok v | Error _ => Throw ERuntimeError end.
  (** ExpectError, 240-248 *)
  Definition expect_error x : outcome E := match x with Error e => Ok e | Value _ => Throw ERuntimeError end.
  (** Fold, 260-268 *)
  Definition fold {U} (init : U) (f : U -> T -> outcome U) x : outcome U :=
    match x with Value v => f init v | Error _ => Ok init end.
  (** Then, 270-278 *)
  Definition then_ (f : T -> outcome (expected T E)) x : outcome (expected T E) :=
    match x with Value v => f v | Error e => Ok (Error e) end.
  (** CatchError, 280-288 *)
  Definition catch_error (f : E -> outcome (expected T E)) x : outcome (expected T E) :=
    match x with Error e => f e | Value v => Ok (Value v) end.
  (** OnError, 290-298 *)
  Definition on_error (f : E -> outcome unit) x : outcome (expected T E) :=
    match x with Error e => _ <- f e ;; Ok x | Value _ => Ok x end.
  (** Customize, 300-304 *)
  Definition customize {R} (f : expected T E -> outcome R) x : outcome R := f x.
  (** Inspect, 306-315 *)
  Definition inspect {R} (f : T -> outcome R) (g : E -> outcome R) x : outcome R :=
    match x with Value v => f v | Error e => g e end.
End Expected.
