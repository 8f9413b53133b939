(** Model of __Core/Traits.h (26-43): MakeMovable and the two overloads of Forward, at compile time.
    Simplification: the types are those of CxxTypes.v, with no conversions between different types (inheritance, user-defined,
    arrays of unknown bound), only qualifiers are added. *)
From Coq Require Import List NArith Bool.
From Verif Require Import CxxTypes Traits.
Import ListNotations.

(** Not a piece of /repo: expressions have a type that is no reference and are lvalues or rvalues *)
Record expr := Expr { e_type : ty; e_lvalue : bool }.
(** T& and T&& as a program writes them: references collapse ([dcl.ref]/6) *)
Definition lref (t : ty) : ty := match t with TLRef u | TRRef u => TLRef u | _ => TLRef t end.
Definition rref (t : ty) : ty := match t with TLRef u => TLRef u | TRRef u => TRRef u | _ => TRRef t end.
(** binding a reference to an expression ([dcl.init.ref]): the same type with the same or more qualifiers; an lvalue reference
    takes an rvalue only if it is const and not volatile; an rvalue reference takes an lvalue only of a function *)
Definition more_qualified (t u : ty) : bool :=
  ty_eqb (without true true t) (without true true u) && implb (is_const u) (is_const t) && implb (is_volatile u) (is_volatile t).
Definition binds (r : ty) (e : expr) : bool :=
  match r with
  | TLRef t => more_qualified t (e_type e) && (e_lvalue e || (is_const t && negb (is_volatile t)))
  | TRRef t => more_qualified t (e_type e) && (negb (e_lvalue e) || is_fun t)
  | _ => false
  end.
(** static_cast<T&&>(value) of an lvalue named value ([expr.static.cast]): functions stay lvalues *)
Definition cast (r : ty) : option expr :=
  match r with
  | TLRef t => Some (Expr t true)
  | TRRef t => Some (Expr t (is_fun t))
  | _ => None
  end.

(** Traits.h 26-30: the parameter T& is deduced from an lvalue, or from an rvalue that is const *)
Definition MakeMovable (e : expr) : option expr :=
  let t := e_type e in
  if binds (lref t) e then cast (rref t) else None.
(** Traits.h 32-36 and 38-43: the overloads of Forward<T>; the second is better for an rvalue, for functions the first;
    line 41 rejects it for an lvalue reference *)
Definition Forward (t : ty) (e : expr) : option expr :=
  let u := remove_reference t in
  let first := binds (lref u) e in
  let second := binds (rref u) e in
  if second && negb (first && e_lvalue e)
  then (if IsLValueReference t then None else cast (rref t))
  else if first then cast (rref t) else None.
