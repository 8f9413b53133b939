(** What a source file's order of includes does to the tests for operators (__Core/Traits/Types/Operators.h): which operators of the
    library are declared before them. Puts the lookup of operators (Lookup.v) and the headers (Headers.v) together. *)
From Coq Require Import String List Bool.
From Verif Require Import Lookup Headers.
Import ListNotations.
Local Open Scope string_scope.
Local Open Scope list_scope.

(** The operators a header declares (the citations are at their definitions in Lookup.v; UniquePointer.h and the other pointers have
    members only, which are found anyway) *)
Definition declares (f : header) : list decl :=
  if h_path f =? "Caitlyn/__Core/Char/Char.h" then char_operators
  else if h_path f =? "Caitlyn/__Core/String/String.h" then string_operators
  else if h_path f =? "Caitlyn/__Core/Error/Unexpected.h" then unexpected_operators
  else if h_path f =? "Caitlyn/__Numeric/Types/BigInteger.h" then integer_operators
  else if h_path f =? "Caitlyn/__Numeric/Types/BigFloat.h" then float_operators
  else if h_path f =? "Caitlyn/__Serializing/Json/Types/Json.h" then json_operators
  else [].
(** The headers whose texts come before the tests for operators *)
Fixpoint until (path : string) (texts : list header) : list header :=
  match texts with [] => [] | f :: r => if h_path f =? path then [] else f :: until path r end.
Definition operators_h : string := "Caitlyn/__Core/Traits/Types/Operators.h".
(** __Core/Traits/Types/Operators.h 26-215: the expression of a test, such as std::declval<T>() < std::declval<T>() (33), is
    in a template in namespace Caitlyn; it is instantiated where all the operators are declared. *)
Definition test_site (texts : list header) : site :=
  {| s_space := Caitlyn; s_before := flat_map declares (until operators_h texts); s_all := library |}.
(** What a test such as HasLessOperatorType<T>::Value says in a source file with these includes *)
Definition has_operator (paths : list string) (o : string) (l r : ctype) : bool :=
  match usable (test_site (texts_of (preprocess Insensitive headers paths))) o l r with [] => false | _ => true end.
