(** The types of C++ that the trait headers of /repo (include/Caitlyn/__Core/Traits) inspect.  Not a
    piece of /repo: this is the language in which the traits are written.
    Simplifications: function types have no cv- or ref-qualifier, unions count as classes, pointers to
    members are left out; long is 64 bits wide and char signed (x86-64 Linux). *)
From Coq Require Import List NArith ZArith Bool.
Import ListNotations.

(** [basic.fundamental], class and enumeration types *)
Inductive base :=
| BVoid | BNullptr | BBool
| BChar | BSChar | BUChar | BWChar | BChar16 | BChar32
| BShort | BUShort | BInt | BUInt | BLong | BULong | BLLong | BULLong
| BFloat | BDouble | BLDouble
| BClass (n : nat) | BEnum (n : nat).

(** [c] and [v]: const and volatile.  An array type is qualified when its elements are
    ([basic.type.qualifier]); references and functions are never qualified. *)
Inductive ty :=
| TBase (c v : bool) (b : base)
| TPtr (c v : bool) (t : ty)
| TLRef (t : ty)
| TRRef (t : ty)
| TArr (n : option N) (t : ty)
| TFun (r : ty) (args : list ty).

Definition is_ref (t : ty) : bool := match t with TLRef _ | TRRef _ => true | _ => false end.
Definition is_void (t : ty) : bool := match t with TBase _ _ BVoid => true | _ => false end.
Definition is_fun (t : ty) : bool := match t with TFun _ _ => true | _ => false end.
Definition is_arr (t : ty) : bool := match t with TArr _ _ => true | _ => false end.

(** Types a program can name: no reference to a reference or to void, no pointer to a reference, no
    array of references, void or functions, no function returning an array or a function. *)
Fixpoint wf (t : ty) : bool :=
  match t with
  | TBase _ _ _ => true
  | TPtr _ _ u => wf u && negb (is_ref u)
  | TLRef u | TRRef u => wf u && negb (is_ref u) && negb (is_void u)
  | TArr _ u => wf u && negb (is_ref u) && negb (is_void u) && negb (is_fun u)
  | TFun r args => wf r && negb (is_arr r) && negb (is_fun r) && forallb wf args
  end.

(** Top-level qualifiers *)
Fixpoint is_const (t : ty) : bool :=
  match t with TBase c _ _ | TPtr c _ _ => c | TArr _ u => is_const u | _ => false end.
Fixpoint is_volatile (t : ty) : bool :=
  match t with TBase _ v _ | TPtr _ v _ => v | TArr _ u => is_volatile u | _ => false end.

(** "const T", "volatile T": a qualifier on a reference or a function is ignored ([dcl.ref]/1). *)
Fixpoint qualify (c v : bool) (t : ty) : ty :=
  match t with
  | TBase c' v' b => TBase (c || c') (v || v') b
  | TPtr c' v' u => TPtr (c || c') (v || v') u
  | TArr n u => TArr n (qualify c v u)
  | _ => t
  end.

(** The T of a pattern "const T" ("volatile T") matched against [t]: [t] without that qualifier. *)
Fixpoint without (c v : bool) (t : ty) : ty :=
  match t with
  | TBase c' v' b => TBase (negb c && c') (negb v && v') b
  | TPtr c' v' u => TPtr (negb c && c') (negb v && v') u
  | TArr n u => TArr n (without c v u)
  | _ => t
  end.

(** Equality of types *)
Definition base_eqb (a b : base) : bool :=
  match a, b with
  | BVoid, BVoid | BNullptr, BNullptr | BBool, BBool | BChar, BChar | BSChar, BSChar | BUChar, BUChar
  | BWChar, BWChar | BChar16, BChar16 | BChar32, BChar32 | BShort, BShort | BUShort, BUShort | BInt, BInt
  | BUInt, BUInt | BLong, BLong | BULong, BULong | BLLong, BLLong | BULLong, BULLong | BFloat, BFloat
  | BDouble, BDouble | BLDouble, BLDouble => true
  | BClass m, BClass n | BEnum m, BEnum n => Nat.eqb m n
  | _, _ => false
  end.
Fixpoint ty_eqb (a b : ty) : bool :=
  match a, b with
  | TBase c v x, TBase c' v' y => Bool.eqb c c' && Bool.eqb v v' && base_eqb x y
  | TPtr c v x, TPtr c' v' y => Bool.eqb c c' && Bool.eqb v v' && ty_eqb x y
  | TLRef x, TLRef y | TRRef x, TRRef y => ty_eqb x y
  | TArr m x, TArr n y =>
      match m, n with None, None => true | Some i, Some j => N.eqb i j | _, _ => false end && ty_eqb x y
  | TFun r xs, TFun s ys =>
      ty_eqb r s &&
      (fix args (xs ys : list ty) : bool :=
         match xs, ys with
         | [], [] => true
         | x :: xs, y :: ys => ty_eqb x y && args xs ys
         | _, _ => false
         end) xs ys
  | _, _ => false
  end.

(** Size in bits and signedness of the arithmetic types (x86-64 Linux); for the floating types only
    the fact that they hold negative values is used. *)
Inductive number := NInt (signed : bool) (bits : N) | NFloat (bits : N).
Definition number_of (b : base) : option number :=
  match b with
  | BBool => Some (NInt false 1)
  | BChar | BSChar => Some (NInt true 8)
  | BUChar => Some (NInt false 8)
  | BWChar => Some (NInt true 32)
  | BChar16 => Some (NInt false 16)
  | BChar32 => Some (NInt false 32)
  | BShort => Some (NInt true 16)
  | BUShort => Some (NInt false 16)
  | BInt => Some (NInt true 32)
  | BUInt => Some (NInt false 32)
  | BLong | BLLong => Some (NInt true 64)
  | BULong | BULLong => Some (NInt false 64)
  | BFloat => Some (NFloat 32)
  | BDouble => Some (NFloat 64)
  | BLDouble => Some (NFloat 80)
  | _ => None
  end.

(** [conv.integral]: the value of the integer [z] converted to an integer type ([conv.bool] for bool). *)
Definition convert_int (b : base) (z : Z) : option Z :=
  match b, number_of b with
  | BBool, _ => Some (if Z.eqb z 0 then 0%Z else 1%Z)
  | _, Some (NInt true n) =>
      let m := (2 ^ Z.of_N n)%Z in Some ((z + m / 2) mod m - m / 2)%Z
  | _, Some (NInt false n) => Some (z mod 2 ^ Z.of_N n)%Z
  | _, Some (NFloat _) => Some z
  | _, None => None
  end.
