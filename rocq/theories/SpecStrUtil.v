(** Specifications for the String utilities, independent of the model. *)
From Coq Require Import List NArith ZArith.
From Verif Require Import SpecUtf8 SpecStr.
Import ListNotations.
Local Open Scope N_scope.

(** Pieces joined by a separator. *)
Fixpoint join {A} (d : A) (pieces : list (list A)) : list A :=
  match pieces with
  | [] => []
  | [p] => p
  | p :: ps => p ++ d :: join d ps
  end.

(** Escape sequences: the character after the backslash and the byte it denotes. *)
Inductive simple_esc : N -> N -> Prop :=
| esc_quote : simple_esc 0x22 0x22
| esc_question : simple_esc 0x3F 0x3F
| esc_backslash : simple_esc 0x5C 0x5C
| esc_slash : simple_esc 0x2F 0x2F
| esc_a : simple_esc 0x61 0x07
| esc_b : simple_esc 0x62 0x08
| esc_f : simple_esc 0x66 0x0C
| esc_n : simple_esc 0x6E 0x0A
| esc_r : simple_esc 0x72 0x0D
| esc_t : simple_esc 0x74 0x09
| esc_v : simple_esc 0x76 0x0B.

(** Hexadecimal digits and their values. *)
Inductive hexdig : N -> N -> Prop :=
| hex_dec d : 0x30 <= d <= 0x39 -> hexdig d (d - 0x30)
| hex_upper d : 0x41 <= d <= 0x46 -> hexdig d (d - 0x41 + 10)
| hex_lower d : 0x61 <= d <= 0x66 -> hexdig d (d - 0x61 + 10).

(** A token of escaped text: its characters and the character it denotes.  [P] restricts the
    code points written as backslash, u and four hexadecimal digits. *)
Inductive token (P : N -> Prop) : list (list N) -> list N -> Prop :=
| tok_plain c : text_char c -> c <> [0x5C] -> token P [c] c
| tok_simple e v : simple_esc e v -> token P [[0x5C]; [e]] [v]
| tok_unicode h1 h2 h3 h4 v1 v2 v3 v4 v :
    hexdig h1 v1 -> hexdig h2 v2 -> hexdig h3 v3 -> hexdig h4 v4 ->
    v = ((v1 * 16 + v2) * 16 + v3) * 16 + v4 -> P v ->
    token P [[0x5C]; [0x75]; [h1]; [h2]; [h3]; [h4]] (utf8_encode v).

(** A text consisting of tokens (possibly followed by one backslash at the very end, which
    escapes nothing), and what it denotes. *)
Inductive escaped (P : N -> Prop) : list (list N) -> list (list N) -> Prop :=
| escaped_nil : escaped P [] []
| escaped_last : escaped P [[0x5C]] [[0x5C]]
| escaped_cons t c s u : token P t c -> escaped P s u -> escaped P (t ++ s) (c :: u).

(** What the C library reads as a number in base 16: white space, a sign, 0x, digits, then anything.
    [c_hex s neg n]: the text s is read as n, or as minus n when neg. *)
Definition c_space (b : N) : Prop := b = 0x20 \/ 9 <= b <= 13.
Inductive c_sign : list N -> bool -> Prop :=
| sign_none : c_sign [] false
| sign_plus : c_sign [0x2B] false
| sign_minus : c_sign [0x2D] true.
Inductive c_prefix : list N -> Prop :=
| prefix_none : c_prefix []
| prefix_lower : c_prefix [0x30; 0x78]
| prefix_upper : c_prefix [0x30; 0x58].
Inductive hex_digits : list N -> N -> Prop :=
| digits_one d v : hexdig d v -> hex_digits [d] v
| digits_more ds n d v : hex_digits ds n -> hexdig d v -> hex_digits (ds ++ [d]) (n * 16 + v).
Definition starts_hex (r : list N) : Prop := exists d v r', hexdig d v /\ r = d :: r'.
(** The digits are as many as there are, and a prefix before a digit is a prefix. *)
Inductive c_hex : list N -> bool -> N -> Prop :=
| c_hex_text ws sg pre ds r neg n : Forall c_space ws -> c_sign sg neg -> c_prefix pre -> hex_digits ds n ->
    ~ starts_hex r ->
    (pre = [] -> ds = [0x30] -> forall x r', r = x :: r' -> x = 0x78 \/ x = 0x58 -> ~ starts_hex r') ->
    c_hex (ws ++ sg ++ pre ++ ds ++ r) neg n.

Definition signed (neg : bool) (n : N) : Z := if neg then (- Z.of_N n)%Z else Z.of_N n.
(** What EscapeString makes of any text, exactly: an escape u gives the low byte of what the C library reads in the
    four characters after it, and of an escape that is not known, both characters stay and the second is read again. *)
Inductive lib_escaped : list (list N) -> list N -> Prop :=
| le_nil : lib_escaped [] []
| le_last : lib_escaped [[0x5C]] [0x5C]
| le_plain c s b : c <> [0x5C] -> lib_escaped s b -> lib_escaped (c :: s) (c ++ b)
| le_simple e v s b : simple_esc e v -> lib_escaped s b -> lib_escaped ([0x5C] :: [e] :: s) (v :: b)
| le_unicode q s b neg n : length q = 4%nat -> c_hex (concat q) neg n -> lib_escaped s b ->
    lib_escaped ([0x5C] :: [0x75] :: q ++ s) (Z.to_N (signed neg n mod 256) :: b)
| le_other c s b : ~ (exists e v, c = [e] /\ simple_esc e v) -> ~ (c = [0x75] /\ (4 <= length s)%nat) ->
    lib_escaped (c :: s) b -> lib_escaped ([0x5C] :: c :: s) (0x5C :: c ++ b).
