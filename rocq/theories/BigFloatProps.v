(** Properties C51-C57: BigFloat.
    [bf_built f]: f comes from ASCII text by any sequence of operations.  [fshows f x p]: ToString f is the canonical
    numeral of x, then ".", then that of p (only x when p = 0).  [denotes f m k]: ToString f is a decimal numeral of
    m / 10^k.  None of the full claims holds of this code: each is refuted below, beside the part that does hold. *)
From Coq Require Import List NArith ZArith Bool Arith.
From Verif Require Import Outcome CharModel StrModel BigInt BigFloat SpecInt SpecFloat BigFloatStates BigFloatClaims.
Import ListNotations.
Local Open Scope Z_scope.

(** C51: missing: decimals whose fraction begins with a zero, and negative ones between -1 and 0. *)
Theorem C51_whole_partial : forall t z, int_numeral t z ->
  exists f, bf_of_string (ascii_chars t) = Ok f /\ fshows f z 0.
Proof. exact reads_whole. Qed.
Print Assumptions C51_whole_partial.
Theorem C51_fraction_partial : forall ds fs, Forall ascii_digit ds -> Forall ascii_digit fs ->
  (exists f, bf_of_string (ascii_chars (ds ++ 46%N :: fs)) = Ok f /\ fshows f (digits_value ds) (digits_value fs)) /\
  (ds <> [] -> exists f, bf_of_string (ascii_chars (45%N :: ds ++ 46%N :: fs)) = Ok f /\
    fshows f (- digits_value ds) (digits_value fs)).
Proof. exact reads_fraction. Qed.
Print Assumptions C51_fraction_partial.
(** exactly which decimals keep their value *)
Theorem C51_kept_iff_partial : forall ds fs, Forall ascii_digit ds -> Forall ascii_digit fs ->
  (forall f, bf_of_string (ascii_chars (ds ++ 46%N :: fs)) = Ok f ->
    (denotes f (digits_value (ds ++ fs)) (length fs) <-> no_lost_zero (digits_value fs) (length fs))) /\
  (forall f, ds <> [] -> bf_of_string (ascii_chars (45%N :: ds ++ 46%N :: fs)) = Ok f ->
    (denotes f (- digits_value (ds ++ fs)) (length fs) <->
     no_lost_zero (digits_value fs) (length fs) /\ (digits_value ds = 0 -> digits_value fs = 0))).
Proof. exact keeps_iff. Qed.
Print Assumptions C51_kept_iff_partial.
Theorem C51_print_parse : forall f, bf_built f -> exists s, bf_to_string f = Ok s /\ bf_of_string s = Ok f.
Proof. exact round_trip. Qed.
Print Assumptions C51_print_parse.
(** 1.05 and 1.5 become the same BigFloat *)
Theorem C51_kept_refuted : exists t t' m m' k k' f, decimal t m k /\ decimal t' m' k' /\ ~ same_number m k m' k' /\
  bf_of_string (ascii_chars t) = Ok f /\ bf_of_string (ascii_chars t') = Ok f.
Proof. exact keeps_wrong. Qed.
Print Assumptions C51_kept_refuted.
(** -0.5 becomes 0.5 *)
Theorem C51_sign_refuted : exists t m k f, decimal t m k /\ m < 0 /\ bf_of_string (ascii_chars t) = Ok f /\ denotes f (- m) k.
Proof. exact sign_wrong. Qed.
Print Assumptions C51_sign_refuted.
(** 12.50 and -007.25 *)
Example C51_ex :
  (f <- bf_of_string (ascii_chars [49; 50; 46; 53; 48]%N) ;; bf_to_string f) = Ok (ascii_chars [49; 50; 46; 53; 48]%N) /\
  (f <- bf_of_string (ascii_chars [45; 48; 48; 55; 46; 50; 53]%N) ;; bf_to_string f) = Ok (ascii_chars [45; 55; 46; 50; 53]%N) /\
  no_lost_zero 50 2 /\ no_lost_zero 25 2.
Proof. split; [reflexivity|]. split; [reflexivity|]. split; right; discriminate. Qed.

(** C52: they return exactly when both fractions are zero or neither is. *)
Theorem C52_terminates_partial : forall a b x p y q, bf_built a -> bf_built b -> fshows a x p -> fshows b y q ->
  ((p = 0 <-> q = 0) -> exists steps, forall fuel, (steps <= fuel)%nat ->
     (exists r, bf_add fuel a b = Ok r) /\ (exists r, bf_sub fuel a b = Ok r)) /\
  ((p = 0 <-> q <> 0) -> forall fuel, bf_add fuel a b = NoFuel /\ bf_sub fuel a b = NoFuel).
Proof. exact terminates. Qed.
Print Assumptions C52_terminates_partial.
(** 1.5 + 2 and 1.5 - 2 loop for ever *)
Theorem C52_terminates_refuted : exists a b,
  bf_of_string (ascii_chars [49; 46; 53]%N) = Ok a /\ bf_of_string (ascii_chars [50%N]) = Ok b /\
  forall fuel, bf_add fuel a b = NoFuel /\ bf_sub fuel a b = NoFuel.
Proof. exact diverges_ex. Qed.
Print Assumptions C52_terminates_refuted.
(** 1.5 + 2.25 = 3.75 *)
Example C52_ex :
  (a <- bf_of_string (ascii_chars [49; 46; 53]%N) ;; b <- bf_of_string (ascii_chars [50; 46; 50; 53]%N) ;;
   r <- bf_add 2 a b ;; bf_to_string r) = Ok (ascii_chars [51; 46; 55; 53]%N).
Proof. reflexivity. Qed.

(** C53: missing: a carry out of two or more fraction digits, and one fraction being zero (C52). *)
Theorem C53_whole_partial : forall a b x y, bf_built a -> bf_built b -> fshows a x 0 -> fshows b y 0 -> 0 <= x -> 0 <= y ->
  forall fuel, (exists r, bf_add fuel a b = Ok r /\ fshows r (x + y) 0) /\
    (exists r, bf_sub fuel a b = Ok r /\ fshows r (x - y) 0).
Proof. exact add_whole_shows. Qed.
Print Assumptions C53_whole_partial.
Theorem C53_add_partial : forall a b x p k y q j, bf_built a -> bf_built b -> fshows a x p -> fshows b y q ->
  0 <= x -> 0 <= y -> 0 < p -> 0 < q -> num_digits p k -> num_digits q j ->
  let K := Nat.max k j in
  p * 10 ^ Z.of_nat (K - k) + q * 10 ^ Z.of_nat (K - j) < 10 ^ Z.of_nat K \/ K = 1%nat ->
  forall fuel, (K <= fuel)%nat -> exists r, bf_add fuel a b = Ok r /\
    denotes r ((x * 10 ^ Z.of_nat k + p) * 10 ^ Z.of_nat (K - k) + (y * 10 ^ Z.of_nat j + q) * 10 ^ Z.of_nat (K - j)) K.
Proof. exact add_exact. Qed.
Print Assumptions C53_add_partial.
(** what comes out in every case, carry included *)
Theorem C53_add_result_partial : forall a b x p k y q j, bf_built a -> bf_built b -> fshows a x p -> fshows b y q ->
  0 <= x -> 0 <= y -> 0 < p -> 0 < q -> num_digits p k -> num_digits q j ->
  let K := Nat.max k j in
  let s := p * 10 ^ Z.of_nat (K - k) + q * 10 ^ Z.of_nat (K - j) in
  forall fuel, (K <= fuel)%nat -> exists r, bf_add fuel a b = Ok r /\
    if s <? 10 ^ Z.of_nat K then fshows r (x + y) s else fshows r (x + y + 1) (s - 10 * Z.of_nat K).
Proof. exact add_fraction. Qed.
Print Assumptions C53_add_result_partial.
Theorem C53_sub_partial : forall a b x p k y q j, bf_built a -> bf_built b -> fshows a x p -> fshows b y q ->
  0 <= y <= x -> 0 < p -> 0 < q -> num_digits p k -> num_digits q j ->
  let K := Nat.max k j in
  let d := p * 10 ^ Z.of_nat (K - k) - q * 10 ^ Z.of_nat (K - j) in
  0 <= d -> no_lost_zero d K ->
  forall fuel, (K <= fuel)%nat -> exists r, bf_sub fuel a b = Ok r /\
    denotes r ((x * 10 ^ Z.of_nat k + p) * 10 ^ Z.of_nat (K - k) - (y * 10 ^ Z.of_nat j + q) * 10 ^ Z.of_nat (K - j)) K.
Proof. exact sub_exact. Qed.
Print Assumptions C53_sub_partial.
Theorem C53_sub_result_partial : forall a b x p k y q j, bf_built a -> bf_built b -> fshows a x p -> fshows b y q ->
  0 <= x -> 0 <= y -> 0 < p -> 0 < q -> num_digits p k -> num_digits q j ->
  let K := Nat.max k j in
  let d := p * 10 ^ Z.of_nat (K - k) - q * 10 ^ Z.of_nat (K - j) in
  forall fuel, (K <= fuel)%nat -> exists r, bf_sub fuel a b = Ok r /\
    if 0 <=? d then fshows r (x - y) d
    else fshows r (if x <? y then x - y + 1 else x - y - 1) (d + 10 * Z.of_nat K).
Proof. exact sub_fraction. Qed.
Print Assumptions C53_sub_result_partial.
(** 1.55 + 2.66 is not 4.21 *)
Theorem C53_add_refuted : exists a b r, bf_of_string (ascii_chars [49; 46; 53; 53]%N) = Ok a /\
  bf_of_string (ascii_chars [50; 46; 54; 54]%N) = Ok b /\ bf_add 2 a b = Ok r /\ ~ denotes r 421 2.
Proof. exact add_wrong. Qed.
Print Assumptions C53_add_refuted.
(** 1.5 + 2.25 fits C53_add_partial; 1.55 + 2.66 prints 4.101; 7.75 - 2.5 = 5.25 *)
Example C53_ex :
  5 * 10 ^ Z.of_nat (2 - 1) + 25 * 10 ^ Z.of_nat (2 - 2) < 10 ^ Z.of_nat 2 /\ num_digits 25 2 /\
  (a <- bf_of_string (ascii_chars [49; 46; 53; 53]%N) ;; b <- bf_of_string (ascii_chars [50; 46; 54; 54]%N) ;;
   r <- bf_add 2 a b ;; bf_to_string r) = Ok (ascii_chars [52; 46; 49; 48; 49]%N) /\
  (a <- bf_of_string (ascii_chars [55; 46; 55; 53]%N) ;; b <- bf_of_string (ascii_chars [50; 46; 53]%N) ;;
   r <- bf_sub 2 a b ;; bf_to_string r) = Ok (ascii_chars [53; 46; 50; 53]%N).
Proof.
  split; [reflexivity|]. split; [right; cbn; split; [auto with arith|split; [discriminate|reflexivity]]|].
  split; vm_compute; reflexivity.
Qed.

(** C54: missing: a whole factor (too large by 10, by 100 when both are), a product whose fraction begins with a zero. *)
Theorem C54_multiply_partial : forall a b x p k y q j, bf_built a -> bf_built b -> fshows a x p -> fshows b y q ->
  small p -> small q -> 0 < p -> 0 < q -> num_digits p k -> num_digits q j ->
  let M := joined x p k * joined y q j in
  0 <= M \/ 10 ^ Z.of_nat (k + j) <= - M -> no_lost_zero (Z.abs M mod 10 ^ Z.of_nat (k + j)) (k + j) ->
  exists r, bf_mul a b = Ok r /\ denotes r M (k + j).
Proof. exact mul_exact. Qed.
Print Assumptions C54_multiply_partial.
(** what comes out in every case *)
Theorem C54_result_partial : forall a b x p k y q j, bf_built a -> bf_built b -> fshows a x p -> fshows b y q ->
  k = O /\ j = O \/ small p /\ small q -> 0 <= p -> 0 <= q -> num_digits p k -> num_digits q j ->
  let M := joined x p (Nat.max 1 k) * joined y q (Nat.max 1 j) in
  exists r, bf_mul a b = Ok r /\ fshows r (Z.quot M (10 ^ Z.of_nat (k + j))) (Z.abs M mod 10 ^ Z.of_nat (k + j)).
Proof. exact mul_shows. Qed.
Print Assumptions C54_result_partial.
(** the product of any two whole numbers is a hundred times too large *)
Theorem C54_whole_refuted : forall a b x y, bf_built a -> bf_built b -> fshows a x 0 -> fshows b y 0 ->
  exists r, bf_mul a b = Ok r /\ fshows r (100 * x * y) 0.
Proof. exact mul_whole_shows. Qed.
Print Assumptions C54_whole_refuted.
(** 1.5 * 2.5 = 3.75; 2 * 3 = 600 *)
Example C54_ex :
  (a <- bf_of_string (ascii_chars [49; 46; 53]%N) ;; b <- bf_of_string (ascii_chars [50; 46; 53]%N) ;;
   r <- bf_mul a b ;; bf_to_string r) = Ok (ascii_chars [51; 46; 55; 53]%N) /\
  (a <- bf_of_string (ascii_chars [50]%N) ;; b <- bf_of_string (ascii_chars [51]%N) ;;
   r <- bf_mul a b ;; bf_to_string r) = Ok (ascii_chars [54; 48; 48]%N).
Proof. split; vm_compute; reflexivity. Qed.

(** C55: missing: exactly one fraction zero, a divisor with more fraction digits, a quotient whose fraction begins with 0. *)
Theorem C55_by_zero : forall a b, bf_built a -> bf_built b -> fshows b 0 0 -> bf_div a b = Throw EInvalidArgument.
Proof. exact div_by_zero. Qed.
Print Assumptions C55_by_zero.
Theorem C55_whole_partial : forall a b x y, bf_built a -> bf_built b -> fshows a x 0 -> fshows b y 0 -> y <> 0 ->
  exists r, bf_div a b = Ok r /\ fshows r (Z.quot x y) 0.
Proof. exact div_whole_shows. Qed.
Print Assumptions C55_whole_partial.
Theorem C55_divide_partial : forall a b x p k y q j, bf_built a -> bf_built b -> fshows a x p -> fshows b y q -> small p ->
  0 < p -> 0 < q -> num_digits p k -> num_digits q j -> (j <= k)%nat ->
  let R := Z.quot (joined x p k) (joined y q j) in
  0 <= R \/ 10 ^ Z.of_nat (k - j) <= - R -> no_lost_zero (Z.abs R mod 10 ^ Z.of_nat (k - j)) (k - j) ->
  exists r, bf_div a b = Ok r /\ denotes r R (k - j).
Proof. exact div_exact. Qed.
Print Assumptions C55_divide_partial.
(** what comes out when the divisor has no more fraction digits *)
Theorem C55_result_partial : forall a b x p k y q j, bf_built a -> bf_built b -> fshows a x p -> fshows b y q ->
  k = O \/ small p -> 0 <= p -> 0 <= q -> num_digits p k -> num_digits q j -> (y <> 0 \/ q <> 0) -> (j <= k)%nat ->
  let R := Z.quot (joined x p (Nat.max 1 k)) (joined y q (Nat.max 1 j)) in
  0 <= R \/ 10 ^ Z.of_nat (k - j - 1) <= - R ->
  exists r, bf_div a b = Ok r /\ fshows r (Z.quot R (10 ^ Z.of_nat (k - j))) (Z.abs R mod 10 ^ Z.of_nat (k - j)).
Proof. exact div_shows. Qed.
Print Assumptions C55_result_partial.
(** a divisor with more fraction digits asks for about 2^64 zeros *)
Theorem C55_longer_divisor_refuted : forall a b x p k y q j, bf_built a -> bf_built b -> fshows a x p -> fshows b y q ->
  small x -> small p -> small q -> 0 <= p -> 0 <= q -> num_digits p k -> num_digits q j -> (y <> 0 \/ q <> 0) -> (k < j)%nat ->
  bf_div a b = Throw ELengthError.
Proof. exact div_longer_throws. Qed.
Print Assumptions C55_longer_divisor_refuted.
(** 1.5 / 2 = 0 *)
Theorem C55_whole_divisor_refuted : exists a b,
  bf_of_string (ascii_chars [49; 46; 53]%N) = Ok a /\ bf_of_string (ascii_chars [50%N]) = Ok b /\
  exists r, bf_div a b = Ok r /\ denotes r 0 0.
Proof. exact div_wrong. Qed.
Print Assumptions C55_whole_divisor_refuted.
(** 8.64 / 2.4 = 3.6; -17 / 5 = -3; 1 / 0.5 throws *)
Example C55_ex :
  (a <- bf_of_string (ascii_chars [56; 46; 54; 52]%N) ;; b <- bf_of_string (ascii_chars [50; 46; 52]%N) ;;
   r <- bf_div a b ;; bf_to_string r) = Ok (ascii_chars [51; 46; 54]%N) /\
  (a <- bf_of_string (ascii_chars [45; 49; 55]%N) ;; b <- bf_of_string (ascii_chars [53]%N) ;;
   r <- bf_div a b ;; bf_to_string r) = Ok (ascii_chars [45; 51]%N) /\
  (a <- bf_of_string (ascii_chars [49]%N) ;; b <- bf_of_string (ascii_chars [48; 46; 53]%N) ;; bf_div a b) = Throw ELengthError.
Proof. split; [|split]; vm_compute; reflexivity. Qed.

(** C56: missing: fractions of different length, negative integer parts. *)
Theorem C56_order_partial : forall a b x p k y q j, bf_built a -> bf_built b -> fshows a x p -> fshows b y q ->
  0 <= x -> 0 <= y -> 0 <= p -> 0 <= q -> num_digits p k -> num_digits q j -> p = 0 \/ q = 0 \/ k = j ->
  let m := (x * 10 ^ Z.of_nat k + p) * 10 ^ Z.of_nat j in
  let n := (y * 10 ^ Z.of_nat j + q) * 10 ^ Z.of_nat k in
  bf_lt a b = (m <? n) /\ bf_gt a b = (n <? m) /\ bf_equal a b = (m =? n).
Proof. exact lt_exact. Qed.
Print Assumptions C56_order_partial.
Theorem C56_equal_partial : forall a b x p y q, bf_built a -> bf_built b -> fshows a x p -> fshows b y q ->
  (bf_equal a b = true <-> bf_to_string a = bf_to_string b) /\ bf_equal a b = (x =? y) && (p =? q).
Proof. exact equal_shows. Qed.
Print Assumptions C56_equal_partial.
Theorem C56_strict_total_order :
  (forall a, bf_built a -> bf_lt a a = false) /\
  (forall a b c, bf_built a -> bf_built b -> bf_built c -> bf_lt a b = true -> bf_lt b c = true -> bf_lt a c = true) /\
  (forall a b, bf_built a -> bf_built b -> bf_lt a b = true \/ bf_equal a b = true \/ bf_lt b a = true) /\
  (forall a b, bf_built a -> bf_built b -> bf_gt a b = bf_lt b a).
Proof. exact float_strict_total. Qed.
Print Assumptions C56_strict_total_order.
(** 1.5 < 1.15 is true, 1.5 == 1.50 is false *)
Theorem C56_order_refuted : exists a b c, bf_of_string (ascii_chars [49; 46; 53]%N) = Ok a /\
  bf_of_string (ascii_chars [49; 46; 49; 53]%N) = Ok b /\ bf_of_string (ascii_chars [49; 46; 53; 48]%N) = Ok c /\
  bf_lt a b = true /\ bf_equal a c = false.
Proof. exact order_wrong. Qed.
Print Assumptions C56_order_refuted.
(** 3.25 < 3.75, 3 < 3.5, 12.5 > 9.75 *)
Example C56_ex :
  (a <- bf_of_string (ascii_chars [51; 46; 50; 53]%N) ;; b <- bf_of_string (ascii_chars [51; 46; 55; 53]%N) ;; Ok (bf_lt a b)) = Ok true /\
  (a <- bf_of_string (ascii_chars [51]%N) ;; b <- bf_of_string (ascii_chars [51; 46; 53]%N) ;; Ok (bf_lt a b)) = Ok true /\
  (a <- bf_of_string (ascii_chars [49; 50; 46; 53]%N) ;; b <- bf_of_string (ascii_chars [57; 46; 55; 53]%N) ;; Ok (bf_gt a b)) = Ok true.
Proof. split; [|split]; vm_compute; reflexivity. Qed.

(** C57: what they return for whole numbers; both are wrong because Multiply is. *)
Theorem C57_pow_result_partial : forall a x e, bf_built a -> fshows a x 0 -> 0 <= e <= 2147483647 ->
  exists r, bf_pow a e = Ok r /\ fshows r ((100 * x) ^ e) 0.
Proof. exact pow_shows. Qed.
Print Assumptions C57_pow_result_partial.
Theorem C57_pow_negative_exponent : forall a e, e < 0 -> bf_pow a e = Throw EInvalidArgument.
Proof. exact pow_neg. Qed.
Print Assumptions C57_pow_negative_exponent.
Theorem C57_sqrt_result_partial : forall a n, bf_built a -> fshows a n 0 -> 2 <= n -> forall fuel, n < 2 ^ Z.of_nat fuel ->
  exists r, bf_sqrt fuel a = Ok r /\ fshows r (Z.sqrt (n / 100)) 0.
Proof. exact sqrt_shows. Qed.
Print Assumptions C57_sqrt_result_partial.
(** 0, 1, and also every negative whole number, are returned as they are *)
Theorem C57_sqrt_small_partial : forall a n, bf_built a -> fshows a n 0 -> n < 2 -> forall fuel, bf_sqrt fuel a = Ok a.
Proof. exact sqrt_small_shows. Qed.
Print Assumptions C57_sqrt_small_partial.
(** 2^3 is 8000000, the root of 16 is 0 *)
Theorem C57_pow_refuted : exists a r, bf_of_string (ascii_chars [50%N]) = Ok a /\ bf_pow a 3 = Ok r /\ fshows r 8000000 0.
Proof. exact pow_wrong. Qed.
Print Assumptions C57_pow_refuted.
Theorem C57_sqrt_refuted : exists a, bf_of_string (ascii_chars [49; 54]%N) = Ok a /\
  forall fuel, (5 <= fuel)%nat -> exists r, bf_sqrt fuel a = Ok r /\ fshows r 0 0.
Proof. exact sqrt_wrong_f. Qed.
Print Assumptions C57_sqrt_refuted.
(** the root of 2500 comes out as 5 *)
Example C57_ex : (a <- bf_of_string (ascii_chars [50; 53; 48; 48]%N) ;; r <- bf_sqrt 14 a ;; bf_to_string r) = Ok (ascii_chars [53]%N).
Proof. vm_compute. reflexivity. Qed.
