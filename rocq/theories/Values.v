(** Model of the conversion of the arguments of String::Format, __Core/String/String.h 567, 711-757,
    and of String::ValueOf, 546-556.
    Simplifications: floating-point arguments (724-728) are left out (what std::to_string prints for
    them is an arbitrary text, covered by [ABytes]); signed char and unsigned char do not compile
    (718 and 730 both apply). *)
From Coq Require Import String List NArith ZArith Bool.
From Verif Require Import Outcome CharModel StrModel Format Dec JsonData.
Import ListNotations.

(** An argument, by the overload that takes it. *)
Inductive value :=
| AString (s : Str)        (* 712-715, also C strings *)
| AInteger (z : Z)         (* 717-721 *)
| ACharacter (z : Z)       (* 729-733: char, wchar_t, char16_t, char32_t with this value *)
| ABool (b : bool)         (* 735-739 *)
| ABytes (b : list N)      (* 741-751: what to_string() or str() returned *)
| AConvertible (s : Str).  (* 753-757: what ToString() returned *)

(** String.h 546-550 ValueOf(bool): a C string with its terminator *)
Definition value_of_bool (b : bool) : list N := (if b then lit "true" else lit "false") ++ [0%N].
(** String.h 552-556 ValueOf(nullptr) *)
Definition value_of_null : list N := lit "null" ++ [0%N].

(** String.h 711-757 Formatter::ToString *)
Definition to_string (v : value) : outcome Str :=
  match v with
  | AString s => Ok s
  | AInteger z => string_of_std (dec_of_Z z)
  | ACharacter z => string_of_std (dec_of_Z z)
  | ABool b => string_of_cstr (value_of_bool b)
  | ABytes b => string_of_std b
  | AConvertible s => Ok s
  end.

(** String.h 564-698 Format: the arguments are converted (567), then the template is expanded. *)
Definition format_values (template : Str) (args : list value) : outcome Str :=
  ss <- mapM to_string args ;; format template ss.
