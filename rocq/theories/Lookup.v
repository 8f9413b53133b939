(** Which operator functions an expression a @ b can use: the lookup of C++ ([over.match.oper], [basic.lookup.unqual],
    [basic.lookup.argdep], [temp.dep.candidate]) on the operators the library declares.
    Simplifications: no conversions of the operands (only functions for exactly these types count), no using-declarations,
    using-directives, friends and declarations inside blocks, no base classes (a string stream counts as a stream);
    references and const are left out. *)
From Coq Require Import String List Bool.
Import ListNotations.
Local Open Scope list_scope.

(** A namespace: its name and those around it, innermost first; the global one is []. *)
Definition ns := list string.
(** Types: fundamental ones (and pointers to them), and classes with their namespace and template arguments *)
Inductive ctype :=
| Basic (name : string)
| Class (space : ns) (name : string) (args : list ctype).
(** The namespaces associated with a type: that of the class and those of its template arguments *)
Fixpoint associated (t : ctype) : list ns :=
  match t with
  | Basic _ => []
  | Class sp _ args => sp :: flat_map associated args
  end.

(** What an operator function takes: two given types, or twice a class made from the same template with one argument *)
Inductive operands :=
| Types (l r : ctype)
| Twice (space : ns) (name : string).
Definition ns_eqb (a b : ns) : bool := if list_eq_dec string_dec a b then true else false.
Fixpoint ctype_eqb (a b : ctype) {struct a} : bool :=
  match a, b with
  | Basic x, Basic y => (x =? y)%string
  | Class s x l, Class s' y l' =>
      ns_eqb s s' && (x =? y)%string &&
      (fix go l l' := match l, l' with [], [] => true | a :: l, b :: l' => ctype_eqb a b && go l l' | _, _ => false end) l l'
  | _, _ => false
  end.
Definition takes (o : operands) (l r : ctype) : bool :=
  match o with
  | Types a b => ctype_eqb a l && ctype_eqb b r
  | Twice s n => match l with Class s' n' [_] => ns_eqb s s' && (n =? n')%string && ctype_eqb l r | _ => false end
  end.
(** Where it is declared *)
Inductive place := Member | Space (sp : ns).
Record decl := { d_op : string; d_takes : operands; d_place : place }.
Definition in_space (op : string) (sp : ns) (d : decl) : bool :=
  (d_op d =? op)%string && match d_place d with Space s => ns_eqb s sp | Member => false end.
Definition is_member (op : string) (d : decl) : bool :=
  (d_op d =? op)%string && match d_place d with Member => true | Space _ => false end.

(** Where an expression is written: the namespace; the declarations before it; those before the point of instantiation, if it
    is in a template (otherwise the same). *)
Record site := { s_space : ns; s_before : list decl; s_all : list decl }.
(** Unqualified lookup: the innermost namespace that has operators of this name, and no other *)
Fixpoint unqualified (ds : list decl) (op : string) (sp : ns) : list decl :=
  match filter (in_space op sp) ds with
  | [] => match sp with [] => [] | _ :: up => unqualified ds op up end
  | l => l
  end.
(** Lookup by the types of the operands *)
Definition by_operands (ds : list decl) (op : string) (l r : ctype) : list decl :=
  filter (fun d => existsb (fun sp => in_space op sp d) (associated l ++ associated r)) ds.
(** The functions that a @ b can use *)
Definition usable (s : site) (op : string) (l r : ctype) : list decl :=
  filter (fun d => takes (d_takes d) l r)
    (filter (is_member op) (s_all s) ++ unqualified (s_before s) op (s_space s) ++ by_operands (s_all s) op l r).

(** ** The operators of the library *)
(** __Caitlyn/Namespace.h 21, 39 *)
Definition Caitlyn : ns := ["Caitlyn"%string].
Definition Testing : ns := ["Test"%string; "Caitlyn"%string].
Definition std : ns := ["std"%string].
Definition tChar := Class Caitlyn "Char" [].
Definition tString := Class Caitlyn "String" [].
Definition tBigInteger := Class Caitlyn "BigInteger" [].
Definition tBigFloat := Class Caitlyn "BigFloat" [].
Definition tJsonDocument := Class Caitlyn "JsonDocument" [].
Definition tUnexpected (e : ctype) := Class Caitlyn "Unexpected" [e].
Definition tCStr := Basic "const char*".
Definition tOStream := Class std "basic_ostream" [Basic "char"; Class std "char_traits" [Basic "char"]].
Definition tIStream := Class std "basic_istream" [Basic "char"; Class std "char_traits" [Basic "char"]].

Definition op (o : string) (t : operands) (p : place) : decl := {| d_op := o; d_takes := t; d_place := p |}.
Definition comparisons : list string := ["<"; ">"; "<="; ">="; "=="; "!="]%string.
(** Char.h 134-162 (members), 291 *)
Definition char_operators : list decl :=
  map (fun o => op o (Types tChar tChar) Member) comparisons ++ [op "<<" (Types tOStream tChar) (Space [])].
(** String.h 242-363 (members), 1011, 1022 *)
Definition string_operators : list decl :=
  [op "+=" (Types tString tString) Member; op "+" (Types tString tString) Member] ++
  map (fun o => op o (Types tString tCStr) Member) comparisons ++
  map (fun o => op o (Types tString tString) Member) comparisons ++
  [op ">>" (Types tIStream tString) (Space []); op "<<" (Types tOStream tString) (Space [])].
(** Unexpected.h 61, 67 *)
Definition unexpected_operators : list decl :=
  map (fun o => op o (Twice Caitlyn "Unexpected") (Space [])) ["=="; "!="]%string.
(** RawPointer.h 85-93, UniquePointer.h 97-105, SharedPointer.h 121-129, WeakPointer.h 90-98 (members) *)
Definition pointer_operators : list decl :=
  flat_map (fun c => map (fun o => op o (Twice Caitlyn c) Member) ["=="; "!="]%string) ["Ptr"; "UniquePtr"; "SharedPtr"; "WeakPtr"]%string.
(** BigInteger.h 411-470 *)
Definition integer_operators : list decl :=
  map (fun o => op o (Types tBigInteger tBigInteger) (Space [])) (comparisons ++ ["+"; "-"; "*"; "/"; "%"]%string) ++
  [op "<<" (Types tOStream tBigInteger) (Space [])].
(** BigFloat.h 363-417 *)
Definition float_operators : list decl :=
  map (fun o => op o (Types tBigFloat tBigFloat) (Space [])) (comparisons ++ ["+"; "-"; "*"; "/"]%string) ++
  [op "<<" (Types tOStream tBigFloat) (Space [])].
(** Json.h 219, 227 *)
Definition json_operators : list decl :=
  [op ">>" (Types tIStream tJsonDocument) (Space []); op "<<" (Types tOStream tJsonDocument) (Space [])].
(** All of them, in the order of the headers (include/Caitlyn/Caitlyn 18-36) *)
Definition library : list decl :=
  char_operators ++ string_operators ++ unexpected_operators ++ pointer_operators ++ integer_operators ++ float_operators ++ json_operators.

(** __Testing/Types/TestFailMessage.h 36-41: message << value, in a template that is written after the declarations [before];
    it includes Char.h and String.h itself (include/Caitlyn/Testing 18-20, TestCase.h 24). *)
Definition fail_message (before all : list decl) : site :=
  {| s_space := Testing; s_before := before ++ char_operators ++ string_operators; s_all := all |}.
(** __Core/Error/Unexpected.h 61-65: lhs.Get() == rhs.Get(), in a template that is written after [before] and after the
    headers this one includes *)
Definition compare_errors (before all : list decl) : site :=
  {| s_space := []; s_before := before ++ char_operators ++ string_operators ++ unexpected_operators; s_all := all |}.
(** A template of the standard library, such as std::less or std::accumulate, whose header knows the declarations [before] *)
Definition in_std (before all : list decl) : site := {| s_space := std; s_before := before; s_all := all |}.
(** Code that is no template *)
Definition plain (sp : ns) (ds : list decl) : site := {| s_space := sp; s_before := ds; s_all := ds |}.
