(** Specification of character classes, independent of the model. *)
From Coq Require Import List NArith.
Import ListNotations.
Local Open Scope N_scope.

(** Unicode PropList.txt, White_Space. *)
Definition white_space (c : N) : Prop :=
  0x09 <= c <= 0x0D \/ c = 0x20 \/ c = 0x85 \/ c = 0xA0 \/ c = 0x1680 \/
  0x2000 <= c <= 0x200A \/ 0x2028 <= c <= 0x2029 \/ c = 0x202F \/ c = 0x205F \/ c = 0x3000.

(** The digit zero of each decimal digit block the library knows. *)
Definition digit_zeros : list N :=
  [0x30; 0x660; 0x6F0; 0x7C0; 0x966; 0x9E6; 0xA66; 0xAE6; 0xB66; 0xBE6; 0xC66; 0xCE6; 0xD66;
   0xE50; 0xED0; 0xF20; 0x1040; 0x1090; 0x17E0; 0x1810; 0x1946; 0x19D0; 0x1A80; 0x1A90;
   0x1B50; 0x1BB0; 0x1C40; 0x1C50; 0xA620; 0xA8D0; 0xA900; 0xA9D0; 0xA9F0; 0xAA50; 0xABF0;
   0xFF10].

(** c is the v-th digit of one of the blocks. *)
Definition decimal_digit (c v : N) : Prop :=
  v <= 9 /\ exists z, In z digit_zeros /\ c = z + v.

(** ASCII letters. *)
Definition ascii_upper (c : N) : Prop := 0x41 <= c <= 0x5A.
Definition ascii_lower (c : N) : Prop := 0x61 <= c <= 0x7A.

(** Small letters of the basic Latin, Cyrillic and Greek alphabets; the capital
    of each is 0x20 below it. *)
Definition basic_small (c : N) : Prop :=
  0x61 <= c <= 0x7A \/ 0x430 <= c <= 0x44F \/ 0x3B1 <= c <= 0x3C1 \/ 0x3C3 <= c <= 0x3C9.

(** Small letters at odd code points whose capital is the preceding code point
    (Latin Extended-A, Unicode UnicodeData.txt). *)
Definition ext_a_odd_small (c : N) : Prop :=
  (0x100 <= c <= 0x12F \/ 0x132 <= c <= 0x137 \/ 0x14A <= c <= 0x177) /\ N.odd c = true.

(** Small letters at even code points whose capital is the preceding code point. *)
Definition ext_a_even_small (c : N) : Prop := 0x139 <= c <= 0x148 /\ N.even c = true.
