(** Properties C01-C12 (and C96-C98): characters. *)
From Coq Require Import List NArith ZArith Bool.
From Verif Require Import Outcome CharModel CharUtil SpecUtf8 SpecChar CharProofs CharUtilProofs.
Import ListNotations.
Local Open Scope N_scope.

(** C01 *)
Theorem C01_code_point_round_trip : forall cp, cp < 0x100000000 ->
  (get_code_point (char_of_code_point cp) = Ok cp <-> cp < 0x200000).
Proof. exact (fun cp _ => code_point_round_trip cp). Qed.
Print Assumptions C01_code_point_round_trip.
Example C01_ex1 : get_code_point (char_of_code_point 0x1F600) = Ok 0x1F600.
Proof. reflexivity. Qed.
Example C01_ex2 : get_code_point (char_of_code_point 0x200041) = Ok 0.
Proof. reflexivity. Qed.

(** C02 *)
Theorem C02_encoding_is_utf8 : forall cp, 1 <= cp <= 0x10FFFF ->
  char_of_code_point cp = utf8_encode cp.
Proof. exact C02_lemma. Qed.
Print Assumptions C02_encoding_is_utf8.
Example C02_ex : char_of_code_point 0x20AC = [0xE2; 0x82; 0xAC].
Proof. reflexivity. Qed.
(** The one exception below 0x110000: code point 0 gives an empty Char. *)
Theorem C02_zero_is_empty : char_of_code_point 0 = [] /\ utf8_encode 0 = [0].
Proof. exact (conj eq_refl eq_refl). Qed.
Print Assumptions C02_zero_is_empty.

(** C03 *)
Theorem C03_accepts_exactly_units : forall s, Forall is_byte s ->
  (utf8_unit s -> char_of_bytes s = Ok s) /\
  (~ utf8_unit s -> char_of_bytes s = Throw EInvalidArgument).
Proof. exact char_of_bytes_spec. Qed.
Print Assumptions C03_accepts_exactly_units.
(** The const char* constructor sees the bytes before the first NUL. *)
Theorem C03_cstring_constructor : forall s r, Forall is_byte s -> ~ In 0 s ->
  (utf8_unit s -> char_of_cstr (s ++ 0 :: r) = Ok s) /\
  (~ utf8_unit s -> char_of_cstr (s ++ 0 :: r) = Throw EInvalidArgument).
Proof. exact char_of_cstr_spec. Qed.
Print Assumptions C03_cstring_constructor.
Example C03_ex1 : utf8_unit [0xE4; 0xB8; 0x96].
Proof. constructor; vm_compute; split; congruence. Qed.
Example C03_ex2 : char_of_bytes [0xE4; 0xB8] = Throw EInvalidArgument.
Proof. reflexivity. Qed.

(** C04: every well-formed unit is accepted, but others are too. *)
Theorem C04_wellformed_accepted_partial : forall s, utf8_wellformed s -> char_of_bytes s = Ok s.
Proof. exact wellformed_accepted. Qed.
Print Assumptions C04_wellformed_accepted_partial.
Theorem C04_accepted_wellformed_iff_partial : forall s c, Forall is_byte s -> char_of_bytes s = Ok c ->
  (utf8_wellformed c <-> scalar (utf8_value c) /\ c = utf8_encode (utf8_value c)).
Proof. exact accepted_char_wellformed_iff. Qed.
Print Assumptions C04_accepted_wellformed_iff_partial.
Theorem C04_only_wellformed_refuted :
  exists overlong surrogate too_big,
    char_of_bytes overlong = Ok overlong /\ ~ utf8_wellformed overlong /\
    char_of_bytes surrogate = Ok surrogate /\ ~ utf8_wellformed surrogate /\
    char_of_bytes too_big = Ok too_big /\ ~ utf8_wellformed too_big.
Proof. exact ill_formed_accepted. Qed.
Print Assumptions C04_only_wellformed_refuted.
Theorem C04_distinct_chars_same_code_point_refuted :
  exists a b c, char_of_bytes a = Ok a /\ char_of_bytes b = Ok b /\ char_eqb a b = false /\
    get_code_point a = Ok c /\ get_code_point b = Ok c.
Proof. exact same_code_point. Qed.
Print Assumptions C04_distinct_chars_same_code_point_refuted.
Example C04_ex : utf8_wellformed [0xF0; 0x9F; 0x98; 0x80].
Proof. exists 0x1F600. repeat split; try (vm_compute; congruence). intros [H H2]. apply H2. reflexivity. Qed.

(** C05 *)
Theorem C05_char_order : forall a b, a <= 0x10FFFF -> b <= 0x10FFFF ->
  let x := char_of_code_point a in let y := char_of_code_point b in
  char_ltb x y = (a <? b) /\ char_leb x y = (a <=? b) /\
  char_gtb x y = (b <? a) /\ char_geb x y = (b <=? a) /\
  char_eqb x y = (a =? b) /\ char_neqb x y = negb (a =? b).
Proof. exact C05_lemma. Qed.
Print Assumptions C05_char_order.
Example C05_ex : char_ltb (char_of_code_point 0x7FF) (char_of_code_point 0x800) = true.
Proof. reflexivity. Qed.

(** C06 *)
Theorem C06_get_code_point_safe_partial : forall c, obtainable c ->
  (get_code_point c = UB <-> exists b, c = [b] /\ 0xE0 <= b < 0xF8).
Proof. exact get_code_point_safe. Qed.
Print Assumptions C06_get_code_point_safe_partial.
Theorem C06_unit_value_partial : forall s, utf8_unit s -> get_code_point s = Ok (utf8_value s).
Proof. exact get_code_point_unit. Qed.
Print Assumptions C06_unit_value_partial.
Theorem C06_memory_safe_refuted : exists c, obtainable c /\ get_code_point c = UB.
Proof. exact get_code_point_unsafe. Qed.
Print Assumptions C06_memory_safe_refuted.
Example C06_ex : obtainable [0xC3; 0xA9].
Proof. exact (ob_code_point 0xE9 eq_refl). Qed.

(** C07 *)
Theorem C07_is_space : forall c, is_space c = true <-> white_space c.
Proof. exact is_space_spec. Qed.
Print Assumptions C07_is_space.
Example C07_ex : is_space 0x3000 = true /\ is_space 0x200B = false.
Proof. split; reflexivity. Qed.

(** C08 *)
Theorem C08_ascii_case : forall c, c < 0x80 ->
  (ascii_lower c -> to_uppercase c = c - 32 /\ to_lowercase c = c /\
     is_lowercase c = true /\ is_uppercase c = false) /\
  (ascii_upper c -> to_lowercase c = c + 32 /\ to_uppercase c = c /\
     is_uppercase c = true /\ is_lowercase c = false) /\
  (~ ascii_lower c -> ~ ascii_upper c -> to_lowercase c = c /\ to_uppercase c = c /\
     is_letter c = false).
Proof. exact ascii_case. Qed.
Print Assumptions C08_ascii_case.
Example C08_ex : ascii_lower 0x7A /\ to_uppercase 0x7A = 0x5A.
Proof. repeat split; vm_compute; congruence. Qed.

(** C09 *)
Theorem C09_uppercase_idempotent : forall c,
  to_uppercase (to_uppercase c) = to_uppercase c /\ (0x2000 <= c -> to_uppercase c = c).
Proof. exact (fun c => conj (to_uppercase_idem c) (to_uppercase_high c)). Qed.
Print Assumptions C09_uppercase_idempotent.
Example C09_ex : to_uppercase 0x1F70 = 0x1FC6 /\ to_uppercase 0x1FC6 = 0x1FC6.
Proof. split; reflexivity. Qed.

(** C10 *)
Theorem C10_lowercase_caseless_refuted :
  exists c, is_letter c = false /\ is_digit c = false /\ to_lowercase c <> c /\
            to_lowercase (to_lowercase c) <> to_lowercase c.
Proof. exact lowercase_corrupts. Qed.
Print Assumptions C10_lowercase_caseless_refuted.
(** Exact extent: every code point from 0x1FEC on (but two) is shifted by 8. *)
Theorem C10_lowercase_shifts : forall c, 0x1FEC <= c -> c <> 0x212A -> c <> 0x212B ->
  to_lowercase c = c - 8.
Proof. exact to_lowercase_high. Qed.
Print Assumptions C10_lowercase_shifts.
Theorem C10_lowercase_idempotent_partial : forall c, c < 0x1FEC ->
  to_lowercase (to_lowercase c) = to_lowercase c /\
  (to_lowercase c <> c -> is_uppercase c = true \/ 0x100 <= c <= 0x177).
Proof. exact (fun c H => conj (to_lowercase_low_idem c H) (to_lowercase_low_moves c H)). Qed.
Print Assumptions C10_lowercase_idempotent_partial.
Example C10_ex : to_lowercase 0x4E16 = 0x4E0E.
Proof. reflexivity. Qed.

(** C11 *)
Theorem C11_is_digit : forall c, is_digit c = true <-> exists v, decimal_digit c v.
Proof. exact is_digit_spec. Qed.
Print Assumptions C11_is_digit.
Theorem C11_to_digit_partial : forall c,
  (0x30 <= c <= 0x39 -> to_digit c = (Z.of_N c - 48)%Z) /\
  (~ (0x30 <= c <= 0x39) -> to_digit c = (-1)%Z).
Proof. exact to_digit_spec. Qed.
Print Assumptions C11_to_digit_partial.
Theorem C11_digit_value_refuted : exists c, is_digit c = true /\ ~ (0 <= to_digit c <= 9)%Z.
Proof. exact digit_without_value. Qed.
Print Assumptions C11_digit_value_refuted.
Example C11_ex : is_digit 0x0669 = true /\ decimal_digit 0x0669 9.
Proof. split; [reflexivity|]. split; [vm_compute; congruence|]. exists 0x660. split; [cbn; tauto|reflexivity]. Qed.

(** C12 *)
Theorem C12_upper_lower_disjoint : forall c,
  ~ (is_uppercase c = true /\ is_lowercase c = true) /\
  (is_letter c = true <-> (is_uppercase c = true \/ is_lowercase c = true)).
Proof. exact (fun c => conj (upper_lower_disjoint c) (is_letter_spec c)). Qed.
Print Assumptions C12_upper_lower_disjoint.
Example C12_ex : is_uppercase 0x1FEC = true /\ is_lowercase 0x1F7D = true.
Proof. split; reflexivity. Qed.

(** C96: basic Latin, Cyrillic and Greek alphabets *)
Theorem C96_basic_alphabets : forall c, basic_small c ->
  to_uppercase c = c - 0x20 /\ to_lowercase (c - 0x20) = c /\
  to_lowercase c = c /\ to_uppercase (c - 0x20) = c - 0x20 /\
  is_lowercase c = true /\ is_uppercase (c - 0x20) = true.
Proof. exact basic_case. Qed.
Print Assumptions C96_basic_alphabets.
Example C96_ex : basic_small 0x436 /\ to_uppercase 0x436 = 0x416.
Proof. split; [right; left; vm_compute; split; congruence|reflexivity]. Qed.

(** C97: case conversion round trip of letters *)
Theorem C97_small_letters_partial : forall c, is_lowercase c = true ->
  (to_lowercase (to_uppercase c) = c <-> basic_small c \/ c = 0xDF).
Proof. exact small_round_trip. Qed.
Print Assumptions C97_small_letters_partial.
Theorem C97_capital_letters_partial : forall c, is_uppercase c = true ->
  (to_uppercase (to_lowercase c) = c <->
   (exists d, basic_small d /\ c = d - 0x20) \/ c = 0x1E9E \/ c = 0x1FDA \/ c = 0x1FDB).
Proof. exact capital_round_trip. Qed.
Print Assumptions C97_capital_letters_partial.
Theorem C97_round_trip_refuted :
  exists c, is_lowercase c = true /\ to_lowercase (to_uppercase c) <> c.
Proof. exact small_letter_lost. Qed.
Print Assumptions C97_round_trip_refuted.
Example C97_ex : is_lowercase 0x1F10 = true /\ to_lowercase (to_uppercase 0x1F10) = 0x1F00.
Proof. split; reflexivity. Qed.

(** C98: Latin Extended-A pairs *)
Theorem C98_odd_pairs_partial : forall c, ext_a_odd_small c -> c <> 0x131 -> c <> 0x149 ->
  to_uppercase c = c - 1 /\ to_lowercase (c - 1) = c.
Proof. exact ext_a_odd. Qed.
Print Assumptions C98_odd_pairs_partial.
Theorem C98_even_pairs_wrong : forall c, ext_a_even_small c ->
  to_uppercase c = c /\ to_uppercase (c - 1) = c - 2 /\ to_lowercase (c - 1) = c - 1 /\
  to_lowercase c = c + 1.
Proof. exact ext_a_even. Qed.
Print Assumptions C98_even_pairs_wrong.
Theorem C98_even_pairs_refuted : exists c, ext_a_even_small c /\ to_uppercase c <> c - 1.
Proof. exact ext_a_even_wrong. Qed.
Print Assumptions C98_even_pairs_refuted.
Example C98_ex : ext_a_odd_small 0x161 /\ to_uppercase 0x161 = 0x160.
Proof. split; [|reflexivity]. split; [right; right|reflexivity]. vm_compute; split; congruence. Qed.
