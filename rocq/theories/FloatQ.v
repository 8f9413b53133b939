(** Powers, fractions and rounding over the rationals, for the claims about floating-point texts. *)
From Coq Require Import List NArith ZArith QArith Qabs Qpower Qfield Lqa Lia Bool.
From Verif Require Import SpecInt Dec DecProofs Double DoubleProps FloatText SpecFloatText.
Import ListNotations.
Local Open Scope Q_scope.

Lemma inj_le a b : (a <= b)%Z -> inject_Z a <= inject_Z b. Proof. now rewrite <- Zle_Qle. Qed.
Lemma inj_lt a b : (a < b)%Z -> inject_Z a < inject_Z b. Proof. now rewrite <- Zlt_Qlt. Qed.
Lemma inj_le_inv a b : inject_Z a <= inject_Z b -> (a <= b)%Z. Proof. now rewrite <- Zle_Qle. Qed.
Lemma inj_lt_inv a b : inject_Z a < inject_Z b -> (a < b)%Z. Proof. now rewrite <- Zlt_Qlt. Qed.
Lemma inj_pos a : (0 < a)%Z -> 0 < inject_Z a. Proof. apply (inj_lt 0). Qed.

Section Base.
Variable base : Z.
Hypothesis B1 : (1 < base)%Z.
Let b : Q := inject_Z base.
Lemma b_pos : 0 < b. Proof. apply (inj_lt 0). lia. Qed.
Lemma b_one : 1 < b. Proof. apply (inj_lt 1). lia. Qed.
Lemma b_nz : ~ b == 0. Proof. pose proof b_pos. lra. Qed.
Lemma pow_pos k : 0 < b ^ k. Proof. apply Qpower_0_lt, b_pos. Qed.
Lemma pow_plus i j : b ^ (i + j) == b ^ i * b ^ j. Proof. apply Qpower_plus, b_nz. Qed.
Lemma pow_inv k : b ^ k * b ^ (- k) == 1.
Proof. rewrite <- pow_plus. replace (k + - k)%Z with 0%Z by lia. reflexivity. Qed.
Lemma pow_Z k : (0 <= k)%Z -> b ^ k == inject_Z (base ^ k). Proof. intro. symmetry. now apply Zpower_Qpower. Qed.
Lemma pow_lt i j : (i < j)%Z -> b ^ i < b ^ j. Proof. intro. apply Qpower_lt_compat_l; [assumption|apply b_one]. Qed.
Lemma pow_le i j : (i <= j)%Z -> b ^ i <= b ^ j. Proof. intro. apply Qpower_le_compat_l; [assumption|apply Qlt_le_weak, b_one]. Qed.
Lemma pow_lt_inv i j : b ^ i < b ^ j -> (i < j)%Z. Proof. intro. apply (Qpower_lt_compat_l_inv b); [assumption|apply b_one]. Qed.
(** The exponent of a number is unique. *)
Lemma exponent_unique v i j : b ^ i <= v -> v < b ^ (i + 1) -> b ^ j <= v -> v < b ^ (j + 1) -> i = j.
Proof.
  intros. assert (b ^ i < b ^ (j + 1)) as H3 by lra. assert (b ^ j < b ^ (i + 1)) as H4 by lra.
  apply pow_lt_inv in H3, H4. lia.
Qed.
Definition frac (n d : Z) : Q := inject_Z n / inject_Z d.
Lemma frac_mul n d : (0 < d)%Z -> frac n d * inject_Z d == inject_Z n.
Proof. intro D. unfold frac. field. apply inj_pos in D. lra. Qed.
Lemma frac_le n d v : (0 < d)%Z -> inject_Z n <= v * inject_Z d -> frac n d <= v.
Proof. intros D H. apply inj_pos in D. unfold frac. now apply Qle_shift_div_r. Qed.
Lemma frac_ge n d v : (0 < d)%Z -> v * inject_Z d <= inject_Z n -> v <= frac n d.
Proof. intros D H. apply inj_pos in D. unfold frac. now apply Qle_shift_div_l. Qed.
Lemma frac_lt n d v : (0 < d)%Z -> inject_Z n < v * inject_Z d -> frac n d < v.
Proof. intros D H. apply inj_pos in D. unfold frac. now apply Qlt_shift_div_r. Qed.
Lemma frac_pos n d : (0 < n)%Z -> (0 < d)%Z -> 0 < frac n d.
Proof. intros N D. apply inj_pos in N, D. unfold frac. apply Qlt_shift_div_l; lra. Qed.
Lemma scaled_spec n d k : (0 < d)%Z -> let (p, q) := scaled base n d k in
  (0 < q)%Z /\ frac p q == frac n d * b ^ k /\ ((0 < n)%Z -> (0 < p)%Z).
Proof.
  intro D. pose proof (inj_pos d D) as D'. unfold scaled. destruct (Z.leb_spec 0 k) as [K|K].
  - pose proof (Z.pow_pos_nonneg base k ltac:(lia) K). split; [assumption|]. split; [|nia].
    unfold frac. rewrite inject_Z_mult, <- pow_Z by assumption. field. lra.
  - pose proof (Z.pow_pos_nonneg base (- k) ltac:(lia) ltac:(lia)). split; [nia|]. split; [|auto].
    unfold frac. rewrite inject_Z_mult, <- pow_Z by lia. unfold b at 2. rewrite Qpower_opp. pose proof (pow_pos k). fold b. field. split; lra.
Qed.
(** [k - 1] and [- k] are the exponents of n/d if base^(k-1) <= n/d < base^k, base^(k-1) <= (d - 1) / n < base^k. *)
Lemma exponent_above n d k : (0 < d <= n)%Z -> (base ^ (k - 1) <= n / d < base ^ k)%Z -> (0 < k)%Z ->
  b ^ (k - 1) <= frac n d /\ frac n d < b ^ k.
Proof.
  intros D [L H] K. rewrite !pow_Z by lia.
  pose proof (Z.mul_div_le n d ltac:(lia)). pose proof (Z.mul_succ_div_gt n d ltac:(lia)). split.
  - apply frac_ge; [lia|]. rewrite <- inject_Z_mult. apply inj_le. nia.
  - apply frac_lt; [lia|]. rewrite <- inject_Z_mult. apply inj_lt. nia.
Qed.
Lemma exponent_below n d k : (0 < n < d)%Z -> (base ^ (k - 1) <= (d - 1) / n < base ^ k)%Z -> (0 < k)%Z ->
  b ^ (- k) <= frac n d /\ frac n d < b ^ (- k + 1).
Proof.
  intros D [L H] K. pose proof (Z.mul_div_le (d - 1) n ltac:(lia)). pose proof (Z.mul_succ_div_gt (d - 1) n ltac:(lia)).
  pose proof (pow_pos k) as P. pose proof (pow_inv k) as I. split.
  - apply frac_ge; [lia|].
    assert (inject_Z d <= inject_Z n * b ^ k) as E by (rewrite pow_Z by lia; rewrite <- inject_Z_mult; apply inj_le; nia).
    pose proof (pow_pos (- k)). assert (b ^ (- k) * inject_Z d <= b ^ (- k) * (inject_Z n * b ^ k)) as E2 by (apply Qmult_le_l; assumption).
    assert (b ^ (- k) * (inject_Z n * b ^ k) == inject_Z n) as E3.
    { transitivity (inject_Z n * (b ^ k * b ^ (- k))); [ring|]. rewrite I. ring. }
    lra.
  - apply frac_lt; [lia|]. replace (- k + 1)%Z with (- (k - 1))%Z by lia. set (j := (k - 1)%Z) in *.
    pose proof (pow_pos j) as Pj. pose proof (pow_inv j) as Ij. pose proof (pow_pos (- j)) as Pj'.
    assert (inject_Z n * b ^ j < inject_Z d) as E by (rewrite pow_Z by lia; rewrite <- inject_Z_mult; apply inj_lt; nia).
    assert (b ^ (- j) * (inject_Z n * b ^ j) < b ^ (- j) * inject_Z d) as E2 by (apply Qmult_lt_l; assumption).
    assert (b ^ (- j) * (inject_Z n * b ^ j) == inject_Z n) as E3.
    { transitivity (inject_Z n * (b ^ j * b ^ (- j))); [ring|]. rewrite Ij. ring. }
    lra.
Qed.
End Base.

Lemma digit_count_spec n : (0 < n)%Z -> (10 ^ (digit_count n - 1) <= n < 10 ^ digit_count n /\ 0 < digit_count n)%Z.
Proof.
  intro P. unfold digit_count. pose proof (dec_of_Z_canonical n) as C. remember (dec_of_Z n) as t eqn:T. clear T. destruct C as [|ds d r E1 E2 E3|ds d r E1 E2 E3]; [lia| |].
  - subst ds. pose proof (digits_value_bound _ E3) as U. pose proof (digits_value_lead d r E3 E2) as L. cbn [length] in *.
    replace (Z.of_nat (S (length r)) - 1)%Z with (Z.of_nat (length r)) by lia. repeat split; lia.
  - pose proof (digits_value_bound _ E3). lia.
Qed.
Lemma log10_spec a b : (0 < a)%Z -> (0 < b)%Z -> 10 ^ log10_floor a b <= frac a b /\ frac a b < 10 ^ (log10_floor a b + 1).
Proof.
  intros A B. unfold log10_floor. destruct (Z.leb_spec b a) as [H|H].
  - assert (0 < a / b)%Z as P by (apply Z.div_str_pos; lia). destruct (digit_count_spec _ P) as [L K].
    replace (digit_count (a / b) - 1 + 1)%Z with (digit_count (a / b)) by lia. apply (exponent_above 10); lia.
  - assert (0 < (b - 1) / a)%Z as P by (apply Z.div_str_pos; lia). destruct (digit_count_spec _ P) as [L K].
    apply (exponent_below 10); lia.
Qed.
Lemma log2_spec a b : (0 < a)%Z -> (0 < b)%Z -> 2 ^ log2_floor a b <= frac a b /\ frac a b < 2 ^ (log2_floor a b + 1).
Proof.
  intros A B. unfold log2_floor. destruct (Z.leb_spec b a) as [H|H].
  - assert (0 < a / b)%Z as P by (apply Z.div_str_pos; lia). pose proof (Z.log2_spec _ P). pose proof (Z.log2_nonneg (a / b)).
    set (k := Z.log2 (a / b)) in *. pose proof (exponent_above 2 ltac:(lia) a b (k + 1) ltac:(lia)) as E.
    replace (k + 1 - 1)%Z with k in E by lia. rewrite <- Z.add_1_r in *. apply E; lia.
  - assert (0 < (b - 1) / a)%Z as P by (apply Z.div_str_pos; lia). pose proof (Z.log2_spec _ P). pose proof (Z.log2_nonneg ((b - 1) / a)).
    set (k := Z.log2 ((b - 1) / a)) in *. pose proof (exponent_below 2 ltac:(lia) a b (k + 1) ltac:(lia)) as E.
    replace (k + 1 - 1)%Z with k in E by lia. rewrite <- Z.add_1_r in *.
    replace (- k - 1)%Z with (- (k + 1))%Z by lia. apply E; lia.
Qed.
(** Rounding to an integer *)
Lemma nearest_spec n d : (0 < d)%Z -> let q := inject_Z (nearest_even n d) in
  Qabs (frac n d - q) <= 1 # 2 /\ (Qabs (frac n d - q) == 1 # 2 -> Z.even (nearest_even n d) = true).
Proof.
  intro D. destruct (nearest_rounds n d D) as [L E]. set (q := nearest_even n d) in *. pose proof (inj_pos d D) as D'.
  assert (Qabs (frac n d - inject_Z q) * inject_Z d == inject_Z (Z.abs (n - q * d))) as A.
  { assert (inject_Z (Z.abs (n - q * d)) == Qabs (inject_Z (n - q * d))) as -> by reflexivity.
    assert (inject_Z (n - q * d) == (frac n d - inject_Z q) * inject_Z d) as ->.
    { unfold Zminus. rewrite inject_Z_plus, inject_Z_opp, inject_Z_mult. pose proof (frac_mul n d D). lra. }
    rewrite Qabs_Qmult. rewrite (Qabs_pos (inject_Z d)) by lra. reflexivity. }
  set (w := Qabs (frac n d - inject_Z q)) in *. set (m := Z.abs (n - q * d)) in *. cbv zeta. fold w. clearbody w. split.
  - apply inj_le in L. rewrite inject_Z_mult in L. change (inject_Z 2) with 2 in L.
    apply (Qmult_le_r _ _ (inject_Z d)); [assumption|]. lra.
  - intro W. apply E. apply inject_Z_injective. rewrite inject_Z_mult, <- A, W. change (inject_Z 2) with 2. lra.
Qed.
(** The model's rounding to six digits and to a binary significand *)
Lemma nearest_Z v i j : Qabs (v - inject_Z i) <= 1 # 2 -> Qabs (v - inject_Z j) < 1 # 2 -> i = j.
Proof.
  intros I J. apply Qabs_Qle_condition in I. apply Qabs_Qlt_condition in J.
  assert (inject_Z i - inject_Z j < 1 /\ inject_Z j - inject_Z i < 1) as [X Y] by lra.
  change 1 with (inject_Z 1) in X, Y. unfold Qminus in X, Y. rewrite <- inject_Z_opp, <- inject_Z_plus in X, Y. apply inj_lt_inv in X, Y. lia.
Qed.
