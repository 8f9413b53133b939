(** Model of __Core/Char/Char.h.  A Char is its [data_]: the list of its bytes. *)
From Coq Require Import List NArith Bool.
From Verif Require Import Outcome.
Import ListNotations.
Local Open Scope N_scope.

(** Char.h 33-34, 286: [data_] is a std::string; a byte is an N below 256. *)
Notation Chr := (list N).

(** Char.h 234-249 CalculateLength *)
Definition calculate_length (cp : N) : nat :=
  if cp <? 0x80 then 1%nat
  else if cp <? 0x800 then 2%nat
  else if cp <? 0x10000 then 3%nat
  else 4%nat.

(** static_cast<unsigned char>(x) of a 32-bit unsigned value (used at Char.h 216-230). *)
Definition to_uchar (x : N) : N := N.land x 0xFF.

(** Char.h 200-232 FromCodePoint.  Line 210 static_cast<char> of a code point below 0x80. *)
Definition from_code_point (cp : N) : Chr :=
  if cp =? 0 then []
  else match calculate_length cp with
  | 1%nat => [to_uchar cp]
  | 2%nat => [to_uchar (N.lor 0xC0 (N.shiftr cp 6));
          to_uchar (N.lor 0x80 (N.land cp 0x3F))]
  | 3%nat => [to_uchar (N.lor 0xE0 (N.shiftr cp 12));
          to_uchar (N.lor 0x80 (N.land (N.shiftr cp 6) 0x3F));
          to_uchar (N.lor 0x80 (N.land cp 0x3F))]
  | _ => [to_uchar (N.lor 0xF0 (N.shiftr cp 18));
          to_uchar (N.lor 0x80 (N.land (N.shiftr cp 12) 0x3F));
          to_uchar (N.lor 0x80 (N.land (N.shiftr cp 6) 0x3F));
          to_uchar (N.lor 0x80 (N.land cp 0x3F))]
  end.

(** Char.h 165-197 GetCodePoint.  [data_[i]] is std::string::operator[]. *)
Definition get_code_point (c : Chr) : outcome N :=
  lead <- str_get c 0 ;;
  if N.land lead 0x80 =? 0 then Ok lead
  else if N.land lead 0xE0 =? 0xC0 then
    b1 <- str_get c 1 ;;
    Ok (N.lor (N.shiftl (N.land lead 0x1F) 6) (N.land b1 0x3F))
  else if N.land lead 0xF0 =? 0xE0 then
    b1 <- str_get c 1 ;;
    b2 <- str_get c 2 ;;
    Ok (N.lor (N.lor (N.shiftl (N.land lead 0x0F) 12) (N.shiftl (N.land b1 0x3F) 6))
              (N.land b2 0x3F))
  else if N.land lead 0xF8 =? 0xF0 then
    b1 <- str_get c 1 ;;
    b2 <- str_get c 2 ;;
    b3 <- str_get c 3 ;;
    Ok (N.lor (N.lor (N.lor (N.shiftl (N.land lead 0x07) 18) (N.shiftl (N.land b1 0x3F) 12))
                     (N.shiftl (N.land b2 0x3F) 6))
              (N.land b3 0x3F))
  else Ok 0.

(** Char.h 280-283 IsContinuationByte *)
Definition is_continuation_byte (c : N) : bool := N.land c 0xC0 =? 0x80.

(** Char.h 252-278 IsValidUtf8Char.  The accesses str[1..3] are guarded by the
    size test to their left, so they are always in range. *)
Definition is_valid_utf8_char (s : list N) : bool :=
  if (Nat.eqb (length s) 0 || Nat.ltb 4 (length s))%bool then false
  else
    let first := nth 0 s 0 in
    if N.land first 0x80 =? 0 then Nat.eqb (length s) 1
    else if N.land first 0xE0 =? 0xC0 then
      (Nat.eqb (length s) 2 && is_continuation_byte (nth 1 s 0))%bool
    else if N.land first 0xF0 =? 0xE0 then
      (Nat.eqb (length s) 3 && is_continuation_byte (nth 1 s 0)
       && is_continuation_byte (nth 2 s 0))%bool
    else if N.land first 0xF8 =? 0xF0 then
      (Nat.eqb (length s) 4 && is_continuation_byte (nth 1 s 0)
       && is_continuation_byte (nth 2 s 0) && is_continuation_byte (nth 3 s 0))%bool
    else false.

(** Char.h 39-42 Char(StdChar): any byte, not validated. *)
Definition char_of_byte (b : N) : Chr := [b].

(** Char.h 44-46 Char(CodePoint) *)
Definition char_of_code_point (cp : N) : Chr := from_code_point cp.

(** Char.h 57-64 Char(const DataType&) *)
Definition char_of_bytes (s : list N) : outcome Chr :=
  if is_valid_utf8_char s then Ok s else Throw EInvalidArgument.

(** The bytes of a C string: up to the first NUL (what `os << p`, Char.h 291-295, or the
    conversion const char* -> std::string sees). *)
Fixpoint cstr (s : list N) : list N :=
  match s with
  | [] => []
  | b :: r => if b =? 0 then [] else b :: cstr r
  end.

(** Char.h 48-55 Char(const char* ): the argument is converted to a std::string
    up to its NUL. *)
Definition char_of_cstr (s : list N) : outcome Chr := char_of_bytes (cstr s).

(** Char.h 134-162: comparison operators of std::string, i.e. lexicographic
    comparison of unsigned bytes. *)
Fixpoint bytes_eqb (a b : list N) : bool :=
  match a, b with
  | [], [] => true
  | x :: a', y :: b' => (x =? y) && bytes_eqb a' b'
  | _, _ => false
  end.

Fixpoint bytes_ltb (a b : list N) : bool :=
  match a, b with
  | _, [] => false
  | [], _ :: _ => true
  | x :: a', y :: b' => if x <? y then true else if y <? x then false else bytes_ltb a' b'
  end.

(** Char.h 154-157 operator== *)
Definition char_eqb (a b : Chr) : bool := bytes_eqb a b.
(** Char.h 159-162 operator!= *)
Definition char_neqb (a b : Chr) : bool := negb (char_eqb a b).
(** Char.h 139-142 operator< *)
Definition char_ltb (a b : Chr) : bool := bytes_ltb a b.
(** Char.h 134-137 operator> *)
Definition char_gtb (a b : Chr) : bool := bytes_ltb b a.
(** Char.h 149-152 operator<= *)
Definition char_leb (a b : Chr) : bool := negb (bytes_ltb b a).
(** Char.h 144-147 operator>= *)
Definition char_geb (a b : Chr) : bool := negb (bytes_ltb a b).

(** Every way of obtaining a Char: Char.h 37-64 (constructors) and 67-99
    (assignments, same bodies). *)
Inductive obtainable : Chr -> Prop :=
| ob_default : obtainable []
| ob_byte b : b < 256 -> obtainable (char_of_byte b)
| ob_code_point cp : cp < 0x100000000 -> obtainable (char_of_code_point cp)
| ob_bytes s c : Forall (fun b => b < 256) s -> char_of_bytes s = Ok c -> obtainable c
| ob_cstr s c : Forall (fun b => b < 256) s -> char_of_cstr s = Ok c -> obtainable c.
