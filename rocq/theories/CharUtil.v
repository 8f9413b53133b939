(** Model of __Core/Char/Utility.h: classification and case mapping of code points.
    Code points are 32-bit unsigned; no subtraction below can underflow because of
    the range test before it. *)
From Coq Require Import List NArith ZArith Bool.
From Verif Require Import Outcome CharModel.
Import ListNotations.
Local Open Scope N_scope.

(** `a <= c && c <= b`, the range test used all over Utility.h. *)
Definition in_range (a b c : N) : bool := (a <=? c) && (c <=? b).

(** unordered_set::find(c) != end() *)
Definition in_set (l : list N) (c : N) : bool := existsb (N.eqb c) l.

(** Utility.h 28-58 IsSpace *)
Definition is_space (c : N) : bool :=
  in_set [0x09; 0x0A; 0x0B; 0x0C; 0x0D; 0x20; 0x85; 0xA0; 0x1680;
          0x2000; 0x2001; 0x2002; 0x2003; 0x2004; 0x2005; 0x2006; 0x2007; 0x2008;
          0x2009; 0x200A; 0x2028; 0x2029; 0x202F; 0x205F; 0x3000] c.

(** Utility.h 60-135 IsDigit *)
Definition is_digit (c : N) : bool :=
  in_range 0x0030 0x0039 c ||
  in_range 0x0660 0x0669 c ||
  in_range 0x06F0 0x06F9 c ||
  in_range 0x07C0 0x07C9 c ||
  in_range 0x0966 0x096F c ||
  in_range 0x09E6 0x09EF c ||
  in_range 0x0A66 0x0A6F c ||
  in_range 0x0AE6 0x0AEF c ||
  in_range 0x0B66 0x0B6F c ||
  in_range 0x0BE6 0x0BEF c ||
  in_range 0x0C66 0x0C6F c ||
  in_range 0x0CE6 0x0CEF c ||
  in_range 0x0D66 0x0D6F c ||
  in_range 0x0E50 0x0E59 c ||
  in_range 0x0ED0 0x0ED9 c ||
  in_range 0x0F20 0x0F29 c ||
  in_range 0x1040 0x1049 c ||
  in_range 0x1090 0x1099 c ||
  in_range 0x17E0 0x17E9 c ||
  in_range 0x1810 0x1819 c ||
  in_range 0x1946 0x194F c ||
  in_range 0x19D0 0x19D9 c ||
  in_range 0x1A80 0x1A89 c ||
  in_range 0x1A90 0x1A99 c ||
  in_range 0x1B50 0x1B59 c ||
  in_range 0x1BB0 0x1BB9 c ||
  in_range 0x1C40 0x1C49 c ||
  in_range 0x1C50 0x1C59 c ||
  in_range 0xA620 0xA629 c ||
  in_range 0xA8D0 0xA8D9 c ||
  in_range 0xA900 0xA909 c ||
  in_range 0xA9D0 0xA9D9 c ||
  in_range 0xA9F0 0xA9F9 c ||
  in_range 0xAA50 0xAA59 c ||
  in_range 0xABF0 0xABF9 c ||
  in_range 0xFF10 0xFF19 c.

(** Utility.h 137-250 ToUppercase(CodePoint).  The three-entry table of lines 139-147 comes first *)
Definition to_uppercase (c : N) : N :=
  if c =? 0x00DF then 0x1E9E else
  if c =? 0x0131 then 0x0049 else
  if c =? 0x0149 then 0x02BC else
  if in_range 0x61 0x7A c then c - 0x20 else
  if in_range 0x430 0x44F c then c - 0x20 else
  if in_range 0x3B1 0x3C1 c then c - 0x20 else
  if in_range 0x3C3 0x3C9 c then c - 0x20 else
  if in_range 0x1F00 0x1F07 c then c - 0x08 else
  if in_range 0x1F10 0x1F15 c then c - 0x08 else
  if in_range 0x1F20 0x1F27 c then c - 0x08 else
  if in_range 0x1F30 0x1F37 c then c - 0x08 else
  if in_range 0x1F40 0x1F45 c then c - 0x08 else
  if in_range 0x1F60 0x1F67 c then c - 0x08 else
  if in_range 0x1F70 0x1F71 c then c + 0x56 else
  if in_range 0x1F72 0x1F75 c then c + 0x64 else
  if in_range 0x1F76 0x1F77 c then c + 0x80 else
  if in_range 0x1F78 0x1F79 c then c + 0x7E else
  if in_range 0x1F7A 0x1F7B c then c + 0x7C else
  if in_range 0x1F7C 0x1F7D c then c + 0x7A else
  if in_range 0x0100 0x012F c then (if c mod 2 =? 0 then c else c - 1) else
  if in_range 0x0132 0x0137 c then (if c mod 2 =? 0 then c else c - 1) else
  if in_range 0x0139 0x0148 c then (if c mod 2 =? 0 then c else c - 1) else
  if in_range 0x014A 0x0177 c then (if c mod 2 =? 0 then c else c - 1) else
  c.

(** Utility.h 252-370 ToLowercase(CodePoint).  Note that the range test of line 332 has no upper bound *)
Definition to_lowercase (c : N) : N :=
  if c =? 0x1E9E then 0x00DF else
  if c =? 0x0130 then 0x0069 else
  if c =? 0x212A then 0x006B else
  if c =? 0x212B then 0x00E5 else
  if in_range 0x41 0x5A c then c + 0x20 else
  if in_range 0x410 0x42F c then c + 0x20 else
  if in_range 0x391 0x3A1 c then c + 0x20 else
  if in_range 0x3A3 0x3A9 c then c + 0x20 else
  if in_range 0x1F08 0x1F0F c then c - 0x08 else
  if in_range 0x1F18 0x1F1D c then c - 0x08 else
  if in_range 0x1F28 0x1F2F c then c - 0x08 else
  if in_range 0x1F38 0x1F3F c then c - 0x08 else
  if in_range 0x1F48 0x1F4D c then c - 0x08 else
  if in_range 0x1F68 0x1F6F c then c - 0x08 else
  if in_range 0x1FB8 0x1FB9 c then c - 0x08 else
  if in_range 0x1FBA 0x1FBB c then c - 0x08 else
  if in_range 0x1FC8 0x1FCB c then c - 0x08 else
  if in_range 0x1FD8 0x1FD9 c then c - 0x08 else
  if in_range 0x1FE8 0x1FE9 c then c - 0x08 else
  if in_range 0x1FEA 0x1FEB c then c - 0x08 else
  if 0x1FEC <=? c then c - 0x08 else
  if in_range 0x0100 0x012F c then (if negb (c mod 2 =? 0) then c else c + 1) else
  if in_range 0x0132 0x0137 c then (if negb (c mod 2 =? 0) then c else c + 1) else
  if in_range 0x0139 0x0148 c then (if negb (c mod 2 =? 0) then c else c + 1) else
  if in_range 0x014A 0x0177 c then (if negb (c mod 2 =? 0) then c else c + 1) else
  c.

(** Utility.h 372-375 ToUppercase(const Char&) *)
Definition char_to_uppercase (c : Chr) : outcome Chr :=
  cp <- get_code_point c ;; Ok (from_code_point (to_uppercase cp)).

(** Utility.h 377-380 ToLowercase(const Char&) *)
Definition char_to_lowercase (c : Chr) : outcome Chr :=
  cp <- get_code_point c ;; Ok (from_code_point (to_lowercase cp)).

(** Utility.h 382-455 IsUppercase *)
Definition is_uppercase (c : N) : bool :=
  if in_set [0x1E9E; 0x0130; 0x212A; 0x212B] c then true else
  if in_range 0x41 0x5A c then true else
  if in_range 0x410 0x42F c then true else
  if in_range 0x391 0x3A1 c then true else
  if in_range 0x3A3 0x3A9 c then true else
  if in_range 0x1F08 0x1F0F c then true else
  if in_range 0x1F18 0x1F1D c then true else
  if in_range 0x1F28 0x1F2F c then true else
  if in_range 0x1F38 0x1F3F c then true else
  if in_range 0x1F48 0x1F4D c then true else
  if in_range 0x1F68 0x1F6F c then true else
  if in_range 0x1FB8 0x1FBB c then true else
  if in_range 0x1FC8 0x1FCB c then true else
  if in_range 0x1FD8 0x1FDB c then true else
  if in_range 0x1FE8 0x1FEC c then true else
  false.

(** Utility.h 457-517 IsLowercase *)
Definition is_lowercase (c : N) : bool :=
  if in_set [0x00DF; 0x0131; 0x0149] c then true else
  if in_range 0x61 0x7A c then true else
  if in_range 0x430 0x44F c then true else
  if in_range 0x3B1 0x3C1 c then true else
  if in_range 0x3C3 0x3C9 c then true else
  if in_range 0x1F00 0x1F07 c then true else
  if in_range 0x1F10 0x1F15 c then true else
  if in_range 0x1F20 0x1F27 c then true else
  if in_range 0x1F30 0x1F37 c then true else
  if in_range 0x1F40 0x1F45 c then true else
  if in_range 0x1F60 0x1F67 c then true else
  if in_range 0x1F70 0x1F7D c then true else
  false.

(** Utility.h 519-522 IsLetter *)
Definition is_letter (c : N) : bool := is_uppercase c || is_lowercase c.

(** Utility.h 524-531 ToDigit *)
Definition to_digit (c : N) : Z :=
  if in_range 0x30 0x39 c then (Z.of_N c - 0x30)%Z else (-1)%Z.
