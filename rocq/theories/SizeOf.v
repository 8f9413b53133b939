(** Model of __Core/Memory/Utility/SizeCalculation.h (25-35), __Core/Memory/Types/MemoryFormat.h (25-29) and of the
    aliases of the number types in __Caitlyn/Types.h (25-121), x86-64 Linux, C++17.
    Simplifications: the sizes of classes and enumerations are given ([sizes]; none for an incomplete class); bit-fields,
    arrays of no elements (an extension) and the call SizeOf<MemoryFormat>(f) (whose overloads may be ambiguous) are left out. *)
From Coq Require Import List NArith ZArith Bool String.
From Verif Require Import CxxTypes.
Import ListNotations.
Local Open Scope Z_scope.

(** MemoryFormat.h 25-29 *)
Inductive memory_format := FBit | FByte.

Section Sizes.
(** sizeof of the classes and enumerations of the program: number of the type, enumeration? *)
Variable sizes : bool -> nat -> option Z.

(** sizeof of the types of the language ([expr.sizeof], x86-64 psABI); none where it does not compile *)
Definition sizeof_base (b : base) : option Z :=
  match b with
  | BVoid => None
  | BBool | BChar | BSChar | BUChar => Some 1
  | BShort | BUShort | BChar16 => Some 2
  | BInt | BUInt | BWChar | BChar32 | BFloat => Some 4
  | BNullptr | BLong | BULong | BLLong | BULLong | BDouble => Some 8
  | BLDouble => Some 16
  | BClass n => sizes false n
  | BEnum n => sizes true n
  end.
(** a reference has the size of what it refers to; no object has 2^63 bytes or more (PTRDIFF_MAX) *)
Fixpoint sizeof (t : ty) : option Z :=
  match t with
  | TBase _ _ b => sizeof_base b
  | TPtr _ _ _ => Some 8
  | TLRef u | TRRef u => sizeof u
  | TArr (Some n) u =>
      match sizeof u with
      | Some e => if (0 <? Z.of_N n) && (Z.of_N n * e <? 2 ^ 63) then Some (Z.of_N n * e) else None
      | None => None
      end
  | TArr None _ | TFun _ _ => None
  end.

(** SizeCalculation.h 25-29 SizeOf<T>(mf); the product is of type size_t *)
Definition SizeOf (t : ty) (mf : memory_format) : option Z :=
  match mf with
  | FByte => sizeof t
  | FBit => option_map (fun n => n * 8 mod 2 ^ 64) (sizeof t)
  end.
(** The T deduced for an argument of type [t] and a parameter of type const T& ([temp.deduct.call]): the type of the
    expression without const; arrays stay arrays. *)
Definition deduced (t : ty) : ty := without true false (match t with TLRef u | TRRef u => u | _ => t end).
(** SizeCalculation.h 31-35 SizeOf(value, mf): sizeof(value), value of type const T& *)
Definition SizeOf_value (t : ty) (mf : memory_format) : option Z :=
  let value := TLRef (qualify true false (deduced t)) in
  match mf with
  | FByte => sizeof value
  | FBit => option_map (fun n => n * 8 mod 2 ^ 64) (sizeof value)
  end.
End Sizes.

(** Types.h 25-65, 88-121: the types the aliases name *)
Definition aliases : list (string * base) :=
  [("StdChar", BChar); ("WChar", BWChar); ("Char8", BChar); ("Char16", BChar16); ("Char32", BChar32);
   ("SByte", BSChar); ("Byte", BUChar); ("Int8", BSChar); ("UInt8", BUChar); ("Int16", BShort); ("UInt16", BUShort);
   ("Int32", BInt); ("UInt32", BUInt); ("Int64", BLong); ("UInt64", BULong);
   ("Int", BInt); ("UInt", BUInt); ("IntMax", BLong); ("UIntMax", BULong); ("IntPtr", BLong); ("UIntPtr", BULong);
   ("SSizeType", BLong); ("SizeType", BULong); ("PtrDiff", BLong);
   ("Float", BFloat); ("Double", BDouble); ("Decimal", BLDouble); ("Bool", BBool); ("NullPtr", BNullptr); ("CodePoint", BUInt)]%string.
Fixpoint lookup (l : list (string * base)) (s : string) : option base :=
  match l with [] => None | (n, b) :: r => if String.eqb n s then Some b else lookup r s end.
Definition alias (s : string) : option base := lookup aliases s.
