(** Model of __Core/Traits/Types (Primary.h, Specifiers.h, References.h, Pointers.h, SignModifiers.h,
    Relationships.h, Properties.h, Operators.h) and __Core/Traits/Constraints (Primary.h, Properties.h,
    PropertyQueries.h, Relationships.h).  A type trait is a function on the types of CxxTypes.v; the
    choice of a partial specialisation is a match on the shape of the type.
    Not modelled: the traits that only forward to std (IsEnum, IsClass, ...), detection of the members of
    collections (Types/Collections.h, used nowhere); Constraints/String.h is in Members.v. *)
From Coq Require Import List NArith ZArith Bool.
From Verif Require Import CxxTypes.
Import ListNotations.

(** Types/Relationships.h 26-34, 38-39; Constraints/Relationships.h 27-30, 33-36 *)
Definition same (t u : ty) : bool := ty_eqb t u.
Definition different (t u : ty) : bool := negb (same t u).

(** Types/Specifiers.h 26-42, 70-77 *)
Definition add_const (t : ty) : ty := qualify true false t.
Definition add_volatile (t : ty) : ty := qualify false true t.
Definition add_cv (t : ty) : ty := qualify true true t.

(** Types/Specifiers.h 44-66 __RemoveCV: the most specialised pattern that matches. *)
Definition remove_cv_impl (t : ty) : ty :=
  if is_const t && is_volatile t then without true true t       (* 62-66 *)
  else if is_volatile t then without false true t               (* 56-60 *)
  else if is_const t then without true false t                  (* 50-54 *)
  else t.                                                       (* 44-48 *)
(** Types/Specifiers.h 79-80 *)
Definition remove_const (t : ty) : ty := remove_cv_impl (qualify true false t).
(** Types/Specifiers.h 82-83 *)
Definition remove_volatile (t : ty) : ty := remove_cv_impl (qualify false true t).
(** Types/Specifiers.h 85-86 *)
Definition remove_cv (t : ty) : ty := remove_cv_impl t.

(** Types/Primary.h 26-39; Constraints/Primary.h 25-41 *)
Definition IsVoid (t : ty) : bool := same (TBase false false BVoid) (remove_cv t).
Definition IsNullPointer (t : ty) : bool := same (TBase false false BNullptr) (remove_cv t).
Definition IsBoolean (t : ty) : bool := same (TBase false false BBool) (remove_cv t).

(** Types/Primary.h 44-84 (char8_t, 69-74, only exists in C++20); Constraints/Primary.h 43-47 *)
Definition IsCharacter (t : ty) : bool :=
  match t with
  | TBase false false (BChar | BSChar | BUChar | BWChar | BChar16 | BChar32) => true
  | _ => false
  end.
(** Types/Primary.h 87-140; Constraints/Primary.h 49-53 *)
Definition IsInteger (t : ty) : bool :=
  match t with
  | TBase false false (BSChar | BUChar | BShort | BUShort | BInt | BUInt | BLong | BULong | BLLong | BULLong) => true
  | _ => false
  end.
(** Constraints/Primary.h 55-59 *)
Definition IsIntegral (t : ty) : bool := IsCharacter t || IsInteger t || IsBoolean t.
(** Types/Primary.h 143-161; Constraints/Primary.h 61-65 *)
Definition IsFloating (t : ty) : bool :=
  match t with TBase false false (BFloat | BDouble | BLDouble) => true | _ => false end.
(** Types/Primary.h 163-176; Constraints/Primary.h 67-71 *)
Definition IsArray (t : ty) : bool := match t with TArr _ _ => true | _ => false end.
(** Types/Primary.h 178-201; Constraints/Primary.h 97-101 *)
Definition IsPointer (t : ty) : bool := match t with TPtr _ _ _ => true | _ => false end.
(** Types/Primary.h 203-211; Constraints/Primary.h 103-107 *)
Definition is_lvalue_reference_impl (t : ty) : bool := match t with TLRef _ => true | _ => false end.
Definition IsLValueReference (t : ty) : bool := is_lvalue_reference_impl t.
(** Constraints/Primary.h 109-113: line 112 asks __IsLValueReference (the template
    __IsRValueReference of Types/Primary.h 213-221 is not used). *)
Definition IsRValueReference (t : ty) : bool := is_lvalue_reference_impl t.

(** A pointer type "T*" can be formed; a reference type "T&" can be formed (substitution failure
    otherwise). *)
Definition pointer_to (t : ty) : option ty := if is_ref t then None else Some (TPtr false false t).
Definition lvalue_ref_to (t : ty) : option ty :=
  match t with
  | TLRef u | TRRef u => Some (TLRef u)          (* collapsing, [dcl.ref]/6 *)
  | _ => if is_void t then None else Some (TLRef t)
  end.
Definition rvalue_ref_to (t : ty) : option ty :=
  match t with
  | TLRef u => Some (TLRef u)
  | TRRef u => Some (TRRef u)
  | _ => if is_void t then None else Some (TRRef t)
  end.

(** Types/References.h 26-30, 58-59: the overload taking T* is chosen when T* and the declared
    result exist. *)
Definition add_lvalue_reference (t : ty) : ty :=
  match pointer_to t, lvalue_ref_to t with Some _, Some r => r | _, _ => t end.
(** Types/References.h 32-36, 61-62 *)
Definition add_rvalue_reference (t : ty) : ty :=
  match pointer_to t, rvalue_ref_to t with Some _, Some r => r | _, _ => t end.
(** Types/References.h 38-54, 64-65 *)
Definition remove_reference (t : ty) : ty := match t with TLRef u | TRRef u => u | _ => t end.

(** Types/Pointers.h 26-30, 64-65 *)
Definition add_pointer (t : ty) : ty :=
  match pointer_to t, pointer_to (remove_reference t) with Some _, Some p => p | _, _ => t end.
(** Types/Pointers.h 32-60, 67-68 *)
Definition remove_pointer (t : ty) : ty := match t with TPtr _ _ u => u | _ => t end.

(** Types/SignModifiers.h 26-95, 170-171 (None: there is no such member, the program is ill-formed) *)
Definition make_signed (t : ty) : option ty :=
  match t with
  | TBase false false b =>
      option_map (TBase false false)
        match b with
        | BChar | BUChar => Some BSChar
        | BUShort => Some BShort
        | BUInt => Some BInt
        | BULong => Some BLong
        | BULLong => Some BLLong
        | BSChar => Some BSChar
        | BShort => Some BShort
        | BInt => Some BInt
        | BLong => Some BLong
        | BLLong => Some BLLong
        | _ => None
        end
  | _ => None
  end.
(** Types/SignModifiers.h 97-166, 173-174 *)
Definition make_unsigned (t : ty) : option ty :=
  match t with
  | TBase false false b =>
      option_map (TBase false false)
        match b with
        | BChar | BSChar => Some BUChar
        | BShort => Some BUShort
        | BInt => Some BUInt
        | BLong => Some BULong
        | BLLong => Some BULLong
        | BUChar => Some BUChar
        | BUShort => Some BUShort
        | BUInt => Some BUInt
        | BULong => Some BULong
        | BULLong => Some BULLong
        | _ => None
        end
  | _ => None
  end.

(** Types/Properties.h 26-34; Constraints/Properties.h 73-83.  Only for arithmetic types: for others
    T(-1) < T(0) need not even compile (None). *)
Definition IsSigned (t : ty) : option bool :=
  match t with
  | TBase _ _ b =>
      match convert_int b (-1), convert_int b 0 with Some x, Some y => Some (Z.ltb x y) | _, _ => None end
  | _ => None
  end.
Definition IsUnsigned (t : ty) : option bool :=
  match t with
  | TBase _ _ b =>
      match convert_int b 0, convert_int b (-1) with Some x, Some y => Some (Z.ltb x y) | _, _ => None end
  | _ => None
  end.

(** A number returned as a Bool and used as a number again. *)
Definition through_bool (n : N) : N := if N.eqb n 0 then 0%N else 1%N.
(** std::rank, std::extent *)
Fixpoint std_rank (t : ty) : N := match t with TArr _ u => N.succ (std_rank u) | _ => 0%N end.
Definition std_extent (t : ty) : N := match t with TArr (Some n) _ => n | _ => 0%N end.
(** Constraints/PropertyQueries.h 33-37, 39-43, 27-31; [alignment] is std::alignment_of. *)
Definition Rank (t : ty) : N := through_bool (std_rank t).
Definition Extent (t : ty) : N := through_bool (std_extent t).
Definition AlignmentOf (alignment : ty -> N) (t : ty) : N := through_bool (alignment t).

(** Types/Operators.h 26-215 (without the stream operators): the expression whose validity is tested.
    [valid e a b]: the expression is valid with operands of types [a] and [b] (the increment and
    decrement take one operand, an lvalue of the type). *)
Inductive op := Less | Greater | Add | Subtract | Multiply | Divide | Modulus | Equal | NotEqual | Subscript
| Increment | Decrement | BitAnd | BitOr | BitXor | LeftShift | RightShift.
Definition tested (o : op) : op :=
  match o with
  | BitOr => BitAnd          (* line 163 *)
  | _ => o                   (* lines 33-153, 173-193 *)
  end.
Definition HasOperator {T} (valid : op -> T -> T -> bool) (o : op) (t : T) : bool := valid (tested o) t t.
