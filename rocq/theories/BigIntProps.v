(** BigInteger: C39 - C50.  [shows b z]: ToString of [b] is the canonical numeral of [z]; [reads_back b]: building from
    ToString gives an Equal value; [built]: obtainable through the API. *)
From Coq Require Import List NArith ZArith.
From Coq Require Import Lia.
From Verif Require Import Outcome BigInt SpecUtf8 SpecChar SpecStr SpecInt BigIntStates BigIntFacts.
Import ListNotations.
Local Open Scope Z_scope.

(** C39 *)
Theorem C39_from_text : forall t z, int_numeral t z ->
  exists b, bi_of_string (ascii_chars t) = Ok b /\ shows b z /\ reads_back b.
Proof. exact from_text. Qed.
Print Assumptions C39_from_text.
Theorem C39_from_c_string : forall t z r, int_numeral t z ->
  exists b, bi_of_cstr (t ++ 0%N :: r) = Ok b /\ bi_of_string (ascii_chars t) = Ok b.
Proof. exact from_c_string. Qed.
Print Assumptions C39_from_c_string.
Theorem C39_from_int : forall z, - 2 ^ 63 <= z < 2 ^ 64 -> exists b, bi_of_int z = Ok b /\ shows b z /\ reads_back b.
Proof. exact from_int. Qed.
Print Assumptions C39_from_int.
Theorem C39_always_shows_a_number : forall b, built b -> exists z, shows b z.
Proof. exact always_shows. Qed.
Print Assumptions C39_always_shows_a_number.
Theorem C39_shows_one_number : forall b x y, shows b x -> shows b y -> x = y.
Proof. exact shows_fun. Qed.
Print Assumptions C39_shows_one_number.
(** "-00120" *)
Example C39_ex : int_numeral [45; 48; 48; 49; 50; 48]%N (-120) /\
  (b <- bi_of_string (ascii_chars [45; 48; 48; 49; 50; 48]%N) ;; bi_to_string b) = Ok (ascii_chars [45; 49; 50; 48]%N).
Proof.
  split; [|reflexivity]. change (-120) with (- digits_value [48; 48; 49; 50; 48]%N).
  apply num_minus; [discriminate|]. repeat constructor; unfold ascii_digit; discriminate.
Qed.

(** C40 *)
Theorem C40_add_partial : forall a b x y, built a -> built b -> shows a x -> shows b y ->
  exists r, bi_add a b = Ok r /\ (0 <= x \/ y < 0 \/ 0 <= x + y -> shows r (x + y)) /\
    (x < 0 -> 0 < y -> x + y < 0 -> shows r (- (x + y))) /\
    (x < 0 -> bi_equal b bi_default = true -> shows r (- x)).
Proof. exact add_exact. Qed.
Print Assumptions C40_add_partial.
Theorem C40_add_refuted : exists a b x y r,
  built a /\ built b /\ shows a x /\ shows b y /\ bi_add a b = Ok r /\ ~ shows r (x + y).
Proof. exact add_wrong. Qed.
Print Assumptions C40_add_refuted.
Example C40_ex : bi_add (int_lit 999) (int_lit 27) = Ok (int_lit 1026) /\
  bi_add (int_lit (-5)) (int_lit 3) = Ok (int_lit 2) /\ bi_add (int_lit (-5)) (int_lit 0) = Ok (int_lit 5).
Proof. vm_compute. repeat split. Qed.

(** C41 *)
Theorem C41_sub_partial : forall a b x y, built a -> built b -> shows a x -> shows b y ->
  exists r, bi_sub a b = Ok r /\ (0 <= x /\ 0 <= y \/ x = 0 /\ reads_back a \/ y = 0 /\ reads_back b \/ x = y -> shows r (x - y)) /\
    (x < 0 -> y < 0 -> shows r (y - x)) /\
    (0 < x -> y < 0 -> shows r (Z.abs (x + y))) /\
    (x < 0 -> 0 < y -> shows r (- Z.abs (x + y))).
Proof. exact sub_exact. Qed.
Print Assumptions C41_sub_partial.
Theorem C41_sub_refuted : exists a b x y r,
  built a /\ built b /\ shows a x /\ shows b y /\ bi_sub a b = Ok r /\ ~ shows r (x - y).
Proof. exact sub_wrong. Qed.
Print Assumptions C41_sub_refuted.
Example C41_ex : bi_sub (int_lit 1000) (int_lit 1) = Ok (int_lit 999) /\ bi_sub (int_lit 27) (int_lit 1000) = Ok (int_lit (-973)) /\
  bi_sub (int_lit 5) (int_lit (-3)) = Ok (int_lit 2).
Proof. vm_compute. repeat split. Qed.

(** C42 *)
Theorem C42_multiply : forall a b x y, built a -> built b -> shows a x -> shows b y ->
  exists r, bi_mul a b = Ok r /\ shows r (x * y) /\ reads_back r.
Proof. exact mul_exact. Qed.
Print Assumptions C42_multiply.
Example C42_ex : bi_mul (int_lit 99999) (int_lit (-9999)) = Ok (int_lit (-999890001)) /\ bi_mul (int_lit (-7)) (int_lit 0) = Ok (int_lit 0).
Proof. vm_compute. repeat split. Qed.

(** C43 *)
Theorem C43_divide : forall a b x y, built a -> built b -> shows a x -> shows b y -> y <> 0 ->
  exists r, bi_div a b = Ok r /\ shows r (Z.quot x y) /\ reads_back r.
Proof. exact div_exact. Qed.
Print Assumptions C43_divide.
Theorem C43_divide_by_zero : forall a b, bi_equal b bi_default = true -> bi_div a b = Throw EInvalidArgument.
Proof. exact div_zero. Qed.
Print Assumptions C43_divide_by_zero.
Example C43_ex : bi_div (int_lit (-1000007)) (int_lit 13) = Ok (int_lit (-76923)) /\ bi_div (int_lit 3) (int_lit (-5)) = Ok (int_lit 0).
Proof. vm_compute. repeat split. Qed.

(** C44 *)
Theorem C44_modulo : forall a b x y, built a -> built b -> shows a x -> shows b y -> y <> 0 ->
  exists r, bi_mod a b = Ok r /\ shows r (Z.rem x y).
Proof. exact mod_exact. Qed.
Print Assumptions C44_modulo.
Theorem C44_identity : forall a b x y, built a -> built b -> shows a x -> shows b y -> y <> 0 ->
  exists q p r s, bi_div a b = Ok q /\ bi_mul q b = Ok p /\ bi_mod a b = Ok r /\ bi_add p r = Ok s /\ shows s x /\
    (reads_back a -> bi_equal a s = true).
Proof. exact div_mod_identity. Qed.
Print Assumptions C44_identity.
Example C44_ex : bi_mod (int_lit (-17)) (int_lit 5) = Ok (int_lit (-2)) /\ bi_mod (int_lit 17) (int_lit (-5)) = Ok (int_lit 2).
Proof. vm_compute. repeat split. Qed.

(** C45 *)
Theorem C45_pow : forall a x e, built a -> shows a x -> 0 <= e <= 2147483647 ->
  exists r, bi_pow a e = Ok r /\ shows r (x ^ e) /\ reads_back r.
Proof. exact pow_exact. Qed.
Print Assumptions C45_pow.
Theorem C45_pow_negative_exponent : forall a e, e < 0 -> bi_pow a e = Throw EInvalidArgument.
Proof. exact pow_negative. Qed.
Print Assumptions C45_pow_negative_exponent.
Theorem C45_sqr : forall a x, built a -> shows a x -> exists r, bi_sqr a = Ok r /\ shows r (x * x).
Proof. exact sqr_exact. Qed.
Print Assumptions C45_sqr.
Theorem C45_abs : forall a x, built a -> shows a x -> shows (bi_abs a) (Z.abs x) /\ reads_back (bi_abs a).
Proof. exact abs_exact. Qed.
Print Assumptions C45_abs.
Example C45_ex : bi_pow (int_lit (-3)) 13 = Ok (int_lit (-1594323)) /\ bi_sqr (int_lit (-12)) = Ok (int_lit 144) /\
  bi_abs (int_lit (-12)) = int_lit 12.
Proof. vm_compute. repeat split. Qed.

(** C46: missing: the zero that is not Equal to a zero read from text (refuted below). *)
Theorem C46_sqrt_partial : forall a x, built a -> shows a x -> 0 <= x -> reads_back a ->
  forall fuel, (4 * bi_size a <= fuel)%nat -> exists r, bi_sqrt fuel a = Ok r /\ shows r (Z.sqrt x) /\ reads_back r.
Proof. exact sqrt_exact. Qed.
Print Assumptions C46_sqrt_partial.
Theorem C46_sqrt_negative : forall a x fuel, built a -> shows a x -> x < 0 -> bi_sqrt fuel a = Throw EInvalidArgument.
Proof. exact sqrt_negative. Qed.
Print Assumptions C46_sqrt_negative.
Theorem C46_sqrt_refuted : exists a, built a /\ shows a 0 /\ forall fuel, bi_sqrt fuel a = Throw EInvalidArgument.
Proof. exact sqrt_wrong. Qed.
Print Assumptions C46_sqrt_refuted.
Example C46_ex : bi_sqrt 40 (int_lit 99980000) = Ok (int_lit 9998) /\ bi_sqrt 40 (int_lit 99980001) = Ok (int_lit 9999).
Proof. vm_compute. repeat split. Qed.

(** C47 *)
Theorem C47_order_partial : forall a b x y, built a -> built b -> shows a x -> shows b y -> reads_back a -> reads_back b ->
  (0 <= x \/ 0 <= y -> bi_lt a b = (x <? y) /\ bi_gt a b = (y <? x)) /\
  (x < 0 -> y < 0 -> bi_lt a b = (y <? x) /\ bi_gt a b = (x <? y)).
Proof. exact lt_cases. Qed.
Print Assumptions C47_order_partial.
(** The weak comparisons and !=, under the same conditions. *)
Theorem C47_weak_order_partial : forall a b x y, built a -> built b -> shows a x -> shows b y -> reads_back a -> reads_back b ->
  (0 <= x \/ 0 <= y -> bi_le a b = (x <=? y) /\ bi_ge a b = (y <=? x)) /\
  (x < 0 -> y < 0 -> bi_le a b = (y <=? x) /\ bi_ge a b = (x <=? y)) /\
  bi_ne a b = negb (x =? y).
Proof.
  intros a b x y Ba Bb Sa Sb Ra Rb. destruct (C47_order_partial a b x y Ba Bb Sa Sb Ra Rb) as [P N].
  unfold bi_le, bi_ge, bi_ne. rewrite (equal_exact a b x y Ba Bb Sa Sb Ra Rb).
  repeat split.
  - destruct (P H) as [-> _]. apply Bool.eq_true_iff_eq. rewrite Bool.orb_true_iff, Z.ltb_lt, Z.eqb_eq, Z.leb_le. lia.
  - destruct (P H) as [_ ->]. apply Bool.eq_true_iff_eq. rewrite Bool.orb_true_iff, Z.ltb_lt, Z.eqb_eq, Z.leb_le. lia.
  - destruct (N H H0) as [-> _]. apply Bool.eq_true_iff_eq. rewrite Bool.orb_true_iff, Z.ltb_lt, Z.eqb_eq, Z.leb_le. lia.
  - destruct (N H H0) as [_ ->]. apply Bool.eq_true_iff_eq. rewrite Bool.orb_true_iff, Z.ltb_lt, Z.eqb_eq, Z.leb_le. lia.
Qed.
Print Assumptions C47_weak_order_partial.
Theorem C47_strict_total_order :
  (forall a, built a -> bi_lt a a = false) /\
  (forall a b c, built a -> built b -> built c -> bi_lt a b = true -> bi_lt b c = true -> bi_lt a c = true) /\
  (forall a b, built a -> built b -> bi_lt a b = true \/ bi_equal a b = true \/ bi_lt b a = true).
Proof. exact lt_strict_total. Qed.
Print Assumptions C47_strict_total_order.
Theorem C47_order_refuted : exists a b x y,
  built a /\ built b /\ shows a x /\ shows b y /\ x < y /\ bi_lt a b = false /\ bi_gt a b = true.
Proof. exact lt_wrong. Qed.
Print Assumptions C47_order_refuted.
Example C47_ex : bi_lt (int_lit 99) (int_lit 101) = true /\ bi_lt (int_lit (-99)) (int_lit 7) = true /\
  bi_lt (int_lit (-3)) (int_lit (-5)) = true.
Proof. vm_compute. repeat split. Qed.
Example C47_weak_ex : bi_le (int_lit 7) (int_lit 7) = true /\ bi_ge (int_lit 7) (int_lit 7) = true /\
  bi_le (int_lit 8) (int_lit 7) = false /\ bi_ne (int_lit 8) (int_lit 7) = true.
Proof. vm_compute. repeat split. Qed.

(** C48 *)
Theorem C48_equal_partial : forall a b x y, built a -> built b -> shows a x -> shows b y -> reads_back a -> reads_back b ->
  bi_equal a b = (x =? y).
Proof. exact equal_exact. Qed.
Print Assumptions C48_equal_partial.
(** Where a second zero can come from: nowhere else (with C39, C42, C43, C45, C46). *)
Theorem C48_only_these_partial : forall a b x y, built a -> built b -> shows a x -> shows b y ->
  (forall r, bi_add a b = Ok r -> ~ (x + y = 0 /\ 0 <= x /\ y <= 0) -> reads_back r) /\
  (forall r, bi_sub a b = Ok r -> ~ (Z.abs x = Z.abs y /\ x <= 0 /\ 0 <= y) -> reads_back r) /\
  (forall r, bi_mod a b = Ok r -> y <> 0 -> 0 < x \/ Z.rem x y <> 0 -> reads_back r).
Proof. exact normal_results. Qed.
Print Assumptions C48_only_these_partial.
Theorem C48_equal_refuted : exists a b, built a /\ built b /\ shows a 0 /\ shows b 0 /\ bi_equal a b = false.
Proof. exact equal_wrong. Qed.
Print Assumptions C48_equal_refuted.
(** 3 + (-3) == 0 is false; so is (-4) % 2 == 0 *)
Example C48_ex :
  (z <- bi_add (int_lit 3) (int_lit (-3)) ;; Ok (bi_equal z (int_lit 0))) = Ok false /\
  (z <- bi_mod (int_lit (-4)) (int_lit 2) ;; Ok (bi_equal z (int_lit 0))) = Ok false /\
  (z <- bi_add (int_lit (-3)) (int_lit 3) ;; Ok (bi_equal z (int_lit 0))) = Ok true.
Proof. vm_compute. repeat split. Qed.

(** C49 *)
Theorem C49_accepted_partial : forall s, text s ->
  let accepted := s <> [] /\ exists sign body, s = sign ++ body /\ (sign = [] \/ sign = [[45%N]] \/ sign = [[43%N]]) /\
    Forall (fun c => exists v, decimal_digit (utf8_value c) v) body in
  (accepted -> exists b, bi_of_string s = Ok b) /\ (~ accepted -> bi_of_string s = Throw EInvalidArgument).
Proof. exact accepted_texts. Qed.
Print Assumptions C49_accepted_partial.
Theorem C49_lone_sign_refuted : exists s b, s = ascii_chars [45%N] /\ bi_of_string s = Ok b /\ shows b 0.
Proof. exact not_numeral_accepted. Qed.
Print Assumptions C49_lone_sign_refuted.
Theorem C49_foreign_digit_refuted : exists s b, text s /\ bi_of_string s = Ok b /\ forall z, ~ shows b z.
Proof. exact foreign_digit_accepted. Qed.
Print Assumptions C49_foreign_digit_refuted.
(** "12a", "", "--1" *)
Example C49_ex : bi_of_string (ascii_chars [49; 50; 97]%N) = Throw EInvalidArgument /\
  bi_of_string [] = Throw EInvalidArgument /\ bi_of_string (ascii_chars [45; 45; 49]%N) = Throw EInvalidArgument.
Proof. vm_compute. repeat split. Qed.

(** C50 *)
Theorem C50_throws_partial : forall a b, built a -> built b ->
  (bi_div a b = Throw EInvalidArgument <-> bi_equal b bi_default = true) /\
  (bi_equal b bi_default = false -> exists r, bi_div a b = Ok r).
Proof. exact div_throws_iff. Qed.
Print Assumptions C50_throws_partial.
Theorem C50_throws_refuted : forall a, built a -> ~ shows a 0 ->
  exists b r, built b /\ shows b 0 /\ bi_div a b = Ok r /\ (forall z, ~ shows r z).
Proof. exact div_by_negative_zero. Qed.
Print Assumptions C50_throws_refuted.
(** 77 / (3 + (-3)) prints -:: *)
Example C50_ex : (z <- bi_add (int_lit 3) (int_lit (-3)) ;; q <- bi_div (int_lit 77) z ;; bi_to_string q) =
  Ok (ascii_chars [45; 58; 58]%N).
Proof. reflexivity. Qed.
