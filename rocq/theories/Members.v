(** Model of __Core/Traits/Constraints/String.h (26-90: HasToString, HasStr, HasCStr, ConvertibleToString), of the choice of
    Formatter::ToString in __Core/String/String.h (711-758) and of the three templates of File::Write, WriteLine and
    Append (File.h 196-228, 260-292, 326-360), at compile time.
    Simplifications: a class is given by the overloads of its member functions, those of its bases included; data members
    with the same names, member templates and overloads with a reference qualifier beside others without one are left
    out; results of the members convert to String; arguments that are not classes are those of an arithmetic type. *)
From Coq Require Import List NArith Bool String.
From Verif Require Import CxxTypes Traits.
Import ListNotations.

(** A member function: its qualifiers, the parameters that have no default, access and "= delete" *)
Inductive ref_qualifier := NoRef | LRef | RRef.
Record method := Method { m_const : bool; m_volatile : bool; m_ref : ref_qualifier; m_required : nat; m_public : bool; m_deleted : bool }.
Record class := Class { overloads : string -> list method; to_String : bool (* converts to String implicitly *); is_String : bool }.
(** An expression of class type: lvalue or xvalue, const, volatile *)
Record object := Object { o_lvalue : bool; o_const : bool; o_volatile : bool }.

(** Not a piece of /repo: the choice of the function in x.f() ([over.match.funcs], [over.ics.rank]) *)
Definition implies (a b : bool) : bool := negb a || b.
Definition viable (o : object) (m : method) : bool :=
  Nat.eqb (m_required m) 0 && implies (o_const o) (m_const m) && implies (o_volatile o) (m_volatile m) &&
  match m_ref m with
  | NoRef => true
  | LRef => o_lvalue o || (m_const m && negb (m_volatile m))
  | RRef => negb (o_lvalue o)
  end.
(** an rvalue is rather bound to an rvalue reference; then fewer qualifiers are better *)
Definition rank_ref (m : method) : bool := match m_ref m with RRef => true | _ => false end.
Definition fewer (m n : method) : bool :=
  implies (m_const m) (m_const n) && implies (m_volatile m) (m_volatile n) && negb (implies (m_const n) (m_const m) && implies (m_volatile n) (m_volatile m)).
Definition better (m n : method) : bool :=
  if Bool.eqb (rank_ref m) (rank_ref n) then fewer m n else rank_ref m.
(** the candidate better than all others *)
Fixpoint best_of (before after : list method) : option method :=
  match after with
  | [] => None
  | m :: r => if forallb (better m) (before ++ r) then Some m else best_of (before ++ [m]) r
  end.
Definition chosen (o : object) (ms : list method) : option method := best_of [] (filter (viable o) ms).
(** x.f() compiles *)
Definition calls (o : object) (ms : list method) : bool :=
  match chosen o ms with Some m => m_public m && negb (m_deleted m) | None => false end.

(** A class type, possibly qualified, possibly a reference *)
Inductive category := Plain | LValueRef | RValueRef.
Record ctype := CType { cls : class; ct_const : bool; ct_volatile : bool; ct_ref : category }.
(** std::declval<T>(): an xvalue, or an lvalue for T& *)
Definition declval (t : ctype) : object :=
  Object (match ct_ref t with LValueRef => true | _ => false end) (ct_const t) (ct_volatile t).
(** String.h (Constraints) 26-64: the specialisation is chosen when the call in its second argument compiles *)
Definition has_member (t : ctype) (f : string) : bool := calls (declval t) (overloads (cls t) f).
(** Constraints/String.h 68-90 *)
Definition HasToString (t : ctype) : bool := has_member t "to_string".
Definition HasStr (t : ctype) : bool := has_member t "str".
Definition HasCStr (t : ctype) : bool := has_member t "c_str".
Definition ConvertibleToString (t : ctype) : bool := has_member t "ToString".

(** What the call does *)
Inductive body := ByString | ByNumber | ByBoolean | ByMember (f : string).
Inductive selection :=
| Chosen (b : body)
| Ambiguous          (* more than one, none better *)
| NoneFits           (* no function can be called *)
| BodyFails.         (* the chosen function does not compile *)

(** Overload resolution for one argument: a template's parameter const T& fits exactly; the non-template
    ToString(const String&) wins for a String and otherwise needs a conversion, which is worse. *)
Definition pick (string : bool) (templates : list body) (converts : bool) : selection :=
  if string then Chosen ByString
  else match templates with
       | [b] => Chosen b
       | _ :: _ => Ambiguous
       | [] => if converts then Chosen ByString else NoneFits
       end.
(** String.h 742-757, File.h 196-228, 260-292, 326-360: the templates for classes; T is deduced without const *)
Definition class_templates (c : class) : list body :=
  (if HasToString (CType c false false Plain) then [ByMember "to_string"] else []) ++
  (if HasStr (CType c false false Plain) then [ByMember "str"] else []) ++
  (if ConvertibleToString (CType c false false Plain) then [ByMember "ToString"] else []).
(** the body calls the member on value, a const T& *)
Definition compile (c : class) (s : selection) : selection :=
  match s with
  | Chosen (ByMember f) => if calls (Object true true false) (overloads c f) then s else BodyFails
  | _ => s
  end.
(** ToString, Write, WriteLine and Append of a value of class type *)
Definition take_class (c : class) : selection := compile c (pick (is_String c) (class_templates c) (to_String c)).
(** String.h 717-739: ToString of a value of a fundamental type *)
Definition take_number (b : base) : selection :=
  let t := TBase false false b in
  pick false
    ((if IsInteger t then [ByNumber] else []) ++ (if IsFloating t then [ByNumber] else []) ++
     (if IsCharacter t then [ByNumber] else []) ++ (if IsBoolean t then [ByBoolean] else [])) false.

(** ** The classes of the library *)
Definition const_method := Method true false NoRef 0 true false.
Definition with_members (l : list string) (conv str : bool) : class :=
  Class (fun f => if existsb (String.eqb f) l then [const_method] else []) conv str.
(** Char.h 114-122; String.h 473-478; StringBuilder.h 86-89; BigInteger.h 373-376; BigFloat.h 337-340; JsonData.h 342-347;
    Json.h 179-182 (whose parameters have defaults); no constructor of String takes a Char alone *)
Definition class_Char := with_members ["str"; "c_str"]%string false false.
Definition class_String := with_members ["str"]%string true true.
Definition class_StringBuilder := with_members ["str"]%string false false.
Definition class_BigInteger := with_members ["ToString"]%string false false.
Definition class_BigFloat := with_members ["ToString"]%string false false.
Definition class_JsonData := with_members ["ToString"]%string false false.
Definition class_JsonDocument := with_members ["ToString"]%string false false.
