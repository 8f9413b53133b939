(** Specification of UTF-8, independent of the model.
    RFC 3629, section 3 (table of encodings) and section 4 (well-formed sequences). *)
From Coq Require Import List NArith.
Import ListNotations.
Local Open Scope N_scope.

(** The encoding of a code point (bits of the code point distributed over 1 to 4 bytes). *)
Definition utf8_encode (c : N) : list N :=
  if c <? 0x80 then [c]
  else if c <? 0x800 then [0xC0 + c / 64; 0x80 + c mod 64]
  else if c <? 0x10000 then [0xE0 + c / 4096; 0x80 + c / 64 mod 64; 0x80 + c mod 64]
  else [0xF0 + c / 262144; 0x80 + c / 4096 mod 64; 0x80 + c / 64 mod 64; 0x80 + c mod 64].

(** Unicode scalar values: every code point except surrogates. *)
Definition scalar (c : N) : Prop := c <= 0x10FFFF /\ ~ (0xD800 <= c <= 0xDFFF).

(** A well-formed UTF-8 unit is the encoding of a scalar value. *)
Definition utf8_wellformed (s : list N) : Prop := exists c, scalar c /\ s = utf8_encode c.

Definition continuation (b : N) : Prop := 0x80 <= b < 0xC0.

(** A structurally well-formed unit: a lead byte followed by as many continuation
    bytes as it announces (says nothing about overlong forms or surrogates). *)
Inductive utf8_unit : list N -> Prop :=
| unit1 b : b < 0x80 -> utf8_unit [b]
| unit2 b c1 : 0xC0 <= b < 0xE0 -> continuation c1 -> utf8_unit [b; c1]
| unit3 b c1 c2 : 0xE0 <= b < 0xF0 -> continuation c1 -> continuation c2 ->
    utf8_unit [b; c1; c2]
| unit4 b c1 c2 c3 : 0xF0 <= b < 0xF8 -> continuation c1 -> continuation c2 ->
    continuation c3 -> utf8_unit [b; c1; c2; c3].

(** The number a structurally well-formed unit stands for. *)
Definition utf8_value (s : list N) : N :=
  match s with
  | [b] => b
  | [b; c1] => (b - 0xC0) * 64 + (c1 - 0x80)
  | [b; c1; c2] => (b - 0xE0) * 4096 + (c1 - 0x80) * 64 + (c2 - 0x80)
  | [b; c1; c2; c3] =>
      (b - 0xF0) * 262144 + (c1 - 0x80) * 4096 + (c2 - 0x80) * 64 + (c3 - 0x80)
  | _ => 0
  end.

Definition is_byte (b : N) : Prop := b < 256.

(** Lexicographic order of lists of numbers. *)
Inductive lex_lt : list N -> list N -> Prop :=
| lex_nil y b : lex_lt [] (y :: b)
| lex_head x y a b : x < y -> lex_lt (x :: a) (y :: b)
| lex_tail x a b : lex_lt a b -> lex_lt (x :: a) (x :: b).
