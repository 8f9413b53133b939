(** What the type traits should say: the definitions of the C++ standard, [meta.unary] and [meta.trans],
    as relations on types.  Independent of Traits.v. *)
From Coq Require Import List NArith ZArith Bool.
From Verif Require Import CxxTypes.
Import ListNotations.

Definition std_void (t : ty) : Prop := exists c v, t = TBase c v BVoid.
Definition std_nullptr (t : ty) : Prop := exists c v, t = TBase c v BNullptr.
Definition std_bool (t : ty) : Prop := exists c v, t = TBase c v BBool.
(** [basic.fundamental]: the character types, the standard signed and unsigned integer types *)
Definition narrow_or_wide_char (b : base) : Prop := In b [BChar; BSChar; BUChar; BWChar; BChar16; BChar32].
Definition standard_integer (b : base) : Prop :=
  In b [BSChar; BUChar; BShort; BUShort; BInt; BUInt; BLong; BULong; BLLong; BULLong].
Definition std_character (t : ty) : Prop := exists c v b, t = TBase c v b /\ narrow_or_wide_char b.
Definition std_integer (t : ty) : Prop := exists c v b, t = TBase c v b /\ standard_integer b.
Definition std_integral (t : ty) : Prop := std_bool t \/ std_character t \/ std_integer t.
Definition std_floating (t : ty) : Prop := exists c v b, t = TBase c v b /\ In b [BFloat; BDouble; BLDouble].
Definition std_array (t : ty) : Prop := exists n u, t = TArr n u.
Definition std_pointer (t : ty) : Prop := exists c v u, t = TPtr c v u.
Definition std_lvalue_reference (t : ty) : Prop := exists u, t = TLRef u.
Definition std_rvalue_reference (t : ty) : Prop := exists u, t = TRRef u.
Definition unqualified (t : ty) : Prop := is_const t = false /\ is_volatile t = false.

(** References and functions cannot be qualified. *)
Definition qualifiable (t : ty) : bool := negb (is_ref t || is_fun t).
(** [u] is [t] with exactly the qualifiers [c] and [v]: the two differ in nothing else. *)
Definition requalified (c v : bool) (t u : ty) : Prop :=
  is_const u = (c && qualifiable t) /\ is_volatile u = (v && qualifiable t) /\
  qualify true true u = qualify true true t.

(** [meta.trans.ref], [meta.trans.ptr] *)
Definition std_add_lvalue_reference (t u : ty) : Prop :=
  match t with
  | TLRef r | TRRef r => u = TLRef r
  | _ => if is_void t then u = t else u = TLRef t
  end.
Definition std_add_rvalue_reference (t u : ty) : Prop :=
  match t with
  | TLRef r => u = TLRef r
  | TRRef r => u = TRRef r
  | _ => if is_void t then u = t else u = TRRef t
  end.
Definition std_add_pointer (t u : ty) : Prop :=
  match t with TLRef r | TRRef r => u = TPtr false false r | _ => u = TPtr false false t end.

(** [meta.trans.sign] for the standard integer types and char: the integer type of the same size with
    the requested signedness. *)
Definition signed_version (s : bool) (b b' : base) : Prop :=
  standard_integer b' /\
  exists n s0, number_of b = Some (NInt s0 n) /\ number_of b' = Some (NInt s n).
(** long and long long have the same size: the counterpart must be of the same rank. *)
Definition same_rank (b b' : base) : Prop :=
  In (b, b') (let r l := list_prod l l in
              r [BChar; BSChar; BUChar] ++ r [BShort; BUShort] ++ r [BInt; BUInt] ++ r [BLong; BULong] ++ r [BLLong; BULLong]).
(** A type that has negative values. *)
Definition has_negative (b : base) : Prop :=
  exists n, number_of b = Some (NInt true n) \/ number_of b = Some (NFloat n).
