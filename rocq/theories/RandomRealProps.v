(** Property C139: random floating-point numbers. *)
From Coq Require Import List NArith ZArith QArith Qabs Qpower Qfield Lqa Lia Bool.
From Verif Require Import Outcome Double DoubleProps Random RandomProps RandomReal FloatText FloatQ.
Import ListNotations.
Local Open Scope Q_scope.

(** The number a pair stands for, and the numbers of a floating type. *)
Definition val (x : num) : Q := inject_Z (fst x) * 2 ^ snd x.
Definition in_type (t : ftype) (v : Q) : Prop :=
  exists m e, (Z.abs m < 2 ^ digits t)%Z /\ (least t <= e)%Z /\ v == inject_Z m * 2 ^ e.

(** ** The exact operations *)
Lemma p_pos k : 0 < 2 ^ k. Proof. exact (FloatQ.pow_pos 2 ltac:(lia) k). Qed.
Lemma p_plus i j : 2 ^ (i + j) == 2 ^ i * 2 ^ j. Proof. exact (FloatQ.pow_plus 2 ltac:(lia) i j). Qed.
Lemma p_Z k : (0 <= k)%Z -> 2 ^ k == inject_Z (2 ^ k). Proof. exact (FloatQ.pow_Z 2 k). Qed.
Lemma p_le i j : (i <= j)%Z -> 2 ^ i <= 2 ^ j. Proof. exact (FloatQ.pow_le 2 ltac:(lia) i j). Qed.
Lemma p_lt i j : (i < j)%Z -> 2 ^ i < 2 ^ j. Proof. exact (FloatQ.pow_lt 2 ltac:(lia) i j). Qed.
Lemma p_lt_inv i j : 2 ^ i < 2 ^ j -> (i < j)%Z. Proof. exact (FloatQ.pow_lt_inv 2 ltac:(lia) i j). Qed.
(** To a smaller exponent *)
Lemma lower m e k : (k <= e)%Z -> inject_Z m * 2 ^ e == inject_Z (m * 2 ^ (e - k)) * 2 ^ k.
Proof.
  intro H. rewrite inject_Z_mult, <- p_Z by lia. replace e with ((e - k) + k)%Z at 1 by lia. rewrite p_plus. ring.
Qed.
Lemma val_opp x : val (n_opp x) == - val x.
Proof. unfold val, n_opp. cbn [fst snd]. rewrite inject_Z_opp. ring. Qed.
Lemma val_add x y : val (n_add x y) == val x + val y.
Proof.
  unfold val, n_add. cbn [fst snd]. set (e := Z.min (snd x) (snd y)). rewrite inject_Z_plus.
  rewrite (lower (fst x) (snd x) e), (lower (fst y) (snd y) e) by lia. ring.
Qed.
Lemma val_mul x y : val (n_mul x y) == val x * val y.
Proof. unfold val, n_mul. cbn [fst snd]. rewrite inject_Z_mult, p_plus. ring. Qed.
Lemma val_leb x y : n_leb x y = true <-> val x <= val y.
Proof.
  unfold val, n_leb. set (e := Z.min (snd x) (snd y)). rewrite (lower (fst x) (snd x) e), (lower (fst y) (snd y) e) by lia.
  pose proof (p_pos e) as P. rewrite Z.leb_le, Zle_Qle. symmetry. now apply Qmult_le_r.
Qed.
Lemma same_exponent a b k : inject_Z a * 2 ^ k <= inject_Z b * 2 ^ k <-> (a <= b)%Z.
Proof. rewrite Zle_Qle. apply Qmult_le_r, p_pos. Qed.
Lemma same_exponent_lt a b k : inject_Z a * 2 ^ k < inject_Z b * 2 ^ k <-> (a < b)%Z.
Proof. rewrite Zlt_Qlt. apply Qmult_lt_r, p_pos. Qed.

Lemma pred_inj a : inject_Z (a - 1) == inject_Z a - 1.
Proof. unfold Z.sub. rewrite inject_Z_plus. reflexivity. Qed.

Lemma digits_pos t : (1 < digits t)%Z. Proof. destruct t; reflexivity. Qed.

(** ** Rounding gives the nearest number of the type *)
Lemma abs_val m e : Qabs (inject_Z m * 2 ^ e) == inject_Z (Z.abs m) * 2 ^ e.
Proof. rewrite Qabs_Qmult. pose proof (p_pos e). rewrite (Qabs_pos (2 ^ e)) by lra. reflexivity. Qed.

Lemma round_nearest t x y : in_type t y -> Qabs (val (round t x) - val x) <= Qabs (y - val x).
Proof.
  destruct x as [m e]. intros (n & j & N & J & Y). unfold round. set (p := digits t) in *. set (L := Z.log2 (Z.abs m)).
  set (k := Z.max (least t) (L + e - (p - 1))). destruct (Z.leb_spec k e) as [K|K].
  { setoid_replace (val (m, e) - val (m, e)) with 0 by ring. change (Qabs 0) with 0. apply Qabs_nonneg. }
  set (q := nearest_even m (2 ^ (k - e))). assert (D : (0 < 2 ^ (k - e))%Z) by (apply Z.pow_pos_nonneg; lia).
  pose proof (p_pos k) as Pk. pose proof (p_pos e) as Pe.
  (* multiples of 2^k *)
  assert (G : forall i, Qabs (val (q, k) - val (m, e)) <= Qabs (inject_Z i * 2 ^ k - val (m, e))).
  { intro i. destruct (nearest_rounds m (2 ^ (k - e)) D) as [A _]. fold q in A.
    assert (B : (Z.abs (q * 2 ^ (k - e) - m) <= Z.abs (i * 2 ^ (k - e) - m))%Z).
    { destruct (Z.eq_dec i q) as [->|Ne]; [lia|]. rewrite <- Z.abs_opp. replace (- (q * 2 ^ (k - e) - m))%Z with (m - q * 2 ^ (k - e))%Z by lia.
      set (d := (2 ^ (k - e))%Z) in *. clearbody d. nia. }
    unfold val. cbn [fst snd]. rewrite (lower q k e), (lower i k e) by lia.
    setoid_replace (inject_Z (q * 2 ^ (k - e)) * 2 ^ e - inject_Z m * 2 ^ e) with (inject_Z (q * 2 ^ (k - e) - m) * 2 ^ e)
      by (unfold Z.sub; rewrite (inject_Z_plus _ (- m)), inject_Z_opp; ring).
    setoid_replace (inject_Z (i * 2 ^ (k - e)) * 2 ^ e - inject_Z m * 2 ^ e) with (inject_Z (i * 2 ^ (k - e) - m) * 2 ^ e)
      by (unfold Z.sub; rewrite (inject_Z_plus _ (- m)), inject_Z_opp; ring).
    rewrite !abs_val. apply Qmult_le_r; [exact Pe|]. now apply inj_le. }
  destruct (Z.le_gt_cases k j) as [KJ|KJ].
  { rewrite Y, (lower n j k) by exact KJ. apply G. }
  (* a number below the power of two that the magnitude of x reaches *)
  assert (M0 : (0 < Z.abs m)%Z).
  { destruct (Z.eq_dec m 0) as [->|]; [|lia]. exfalso. change (Z.abs 0) with 0%Z in L. change (Z.log2 0) with 0%Z in L. pose proof (digits_pos t). fold p in H. lia. }
  assert (Ek : k = (L + e - (p - 1))%Z) by lia. pose proof (Z.log2_spec _ M0) as [L1 L2]. fold L in L1, L2. pose proof (Z.log2_nonneg (Z.abs m)) as L0. fold L in L0.
  assert (Yb : Qabs y < 2 ^ (L + e)).
  { rewrite Y, abs_val. apply Qlt_le_trans with (2 ^ p * 2 ^ j).
    - rewrite (p_Z p) by (pose proof (digits_pos t); fold p in H; lia). apply Qmult_lt_r; [apply p_pos|]. now apply inj_lt.
    - rewrite <- p_plus. apply p_le. lia. }
  assert (Xb : 2 ^ (L + e) <= Qabs (val (m, e))).
  { unfold val. cbn [fst snd]. rewrite abs_val, p_plus, (p_Z L) by lia. apply Qmult_le_r; [exact Pe|]. now apply inj_le. }
  assert (Z1 : 2 ^ (L + e) == inject_Z (2 ^ (p - 1)) * 2 ^ k).
  { rewrite <- p_Z by (pose proof (digits_pos t); fold p in H; lia). rewrite <- p_plus. replace (p - 1 + k)%Z with (L + e)%Z by lia. reflexivity. }
  set (X := val (m, e)) in *. set (z := 2 ^ (L + e)) in *. clearbody X z.
  destruct (Qlt_le_dec X 0) as [S|S].
  - eapply Qle_trans; [apply (G (- 2 ^ (p - 1))%Z)|]. rewrite inject_Z_opp. setoid_replace (- inject_Z (2 ^ (p - 1)) * 2 ^ k - X) with (- z - X) by (rewrite Z1; ring).
    rewrite (Qabs_neg X) in Xb by lra. apply Qabs_Qlt_condition in Yb. rewrite (Qabs_pos (- z - X)), (Qabs_pos (y - X)) by lra. lra.
  - eapply Qle_trans; [apply (G (2 ^ (p - 1))%Z)|]. rewrite <- Z1. rewrite (Qabs_pos X) in Xb by lra. apply Qabs_Qlt_condition in Yb.
    rewrite (Qabs_neg (z - X)), (Qabs_neg (y - X)) by lra. lra.
Qed.

Lemma round_in_type t x : in_type t (val (round t x)).
Proof.
  destruct x as [m e]. unfold round. set (p := digits t) in *. set (L := Z.log2 (Z.abs m)).
  pose proof (digits_pos t) as P1. fold p in P1.
  set (k := Z.max (least t) (L + e - (p - 1))). destruct (Z.leb_spec k e) as [K|K].
  - exists m, e. split; [|split; [lia|reflexivity]]. destruct (Z.eq_dec m 0) as [->|N]; [apply Z.pow_pos_nonneg; lia|].
    pose proof (Z.log2_spec (Z.abs m) ltac:(lia)) as [_ L2]. fold L in L2. eapply Z.lt_le_trans; [exact L2|]. apply Z.pow_le_mono_r; lia.
  - set (q := nearest_even m (2 ^ (k - e))). assert (D : (0 < 2 ^ (k - e))%Z) by (apply Z.pow_pos_nonneg; lia).
    assert (Q : (Z.abs q <= 2 ^ p)%Z).
    { destruct (nearest_rounds m (2 ^ (k - e)) D) as [A _]. fold q in A.
      assert (B : (Z.abs m < 2 ^ p * 2 ^ (k - e))%Z).
      { rewrite <- Z.pow_add_r by lia. destruct (Z.eq_dec m 0) as [->|N]; [apply Z.pow_pos_nonneg; lia|].
        pose proof (Z.log2_spec (Z.abs m) ltac:(lia)) as [_ L2]. fold L in L2. eapply Z.lt_le_trans; [exact L2|]. apply Z.pow_le_mono_r; lia. }
      set (d := (2 ^ (k - e))%Z) in *. set (r := (2 ^ p)%Z) in *. clearbody d r. nia. }
    destruct (Z.eq_dec (Z.abs q) (2 ^ p)) as [E|E].
    + exists (Z.sgn q * 2 ^ (p - 1))%Z, (k + 1)%Z. split; [|split; [lia|]].
      * rewrite Z.abs_mul, (Z.abs_eq (2 ^ (p - 1))) by (apply Z.pow_nonneg; lia). fold p. replace p with (p - 1 + 1)%Z at 2 by lia. rewrite Z.pow_add_r by lia.
        assert (0 < 2 ^ (p - 1))%Z by (apply Z.pow_pos_nonneg; lia). pose proof (Z.sgn_spec q). nia.
      * unfold val. cbn [fst snd]. rewrite (lower _ (k + 1) k) by lia. replace (k + 1 - k)%Z with 1%Z by lia.
        replace (Z.sgn q * 2 ^ (p - 1) * 2 ^ 1)%Z with q; [reflexivity|]. rewrite <- Z.mul_assoc, <- Z.pow_add_r by lia. replace (p - 1 + 1)%Z with p by lia.
        rewrite <- E. rewrite Z.mul_comm. symmetry. apply Z.abs_sgn.
    + exists q, k. split; [fold p; lia|]. split; [lia|reflexivity].
Qed.
Lemma round_le t x b : in_type t b -> val x <= b -> val (round t x) <= b.
Proof.
  intros B H. pose proof (round_nearest t x b B) as N. destruct (Qlt_le_dec b (val (round t x))) as [C|C]; [|exact C]. exfalso.
  rewrite (Qabs_pos (b - val x)), (Qabs_pos (val (round t x) - val x)) in N by lra. lra.
Qed.
Lemma round_ge t x b : in_type t b -> b <= val x -> b <= val (round t x).
Proof.
  intros B H. pose proof (round_nearest t x b B) as N. destruct (Qlt_le_dec (val (round t x)) b) as [C|C]; [|exact C]. exfalso.
  rewrite (Qabs_neg (b - val x)), (Qabs_neg (val (round t x) - val x)) in N by lra. lra.
Qed.

(** A number of the type between two that follow each other is one of them *)
Lemma no_between t y n k : in_type t y -> (2 ^ (digits t - 1) <= n)%Z -> inject_Z n * 2 ^ k < y -> inject_Z (n + 1) * 2 ^ k <= y.
Proof.
  intros (m & e & M & E & Y) N H. pose proof (digits_pos t) as P1. assert (KE : (k <= e)%Z).
  { assert (A : 2 ^ (digits t - 1 + k) < 2 ^ (digits t + e)).
    { apply Qle_lt_trans with (inject_Z n * 2 ^ k).
      - rewrite p_plus, p_Z by lia. apply Qmult_le_r; [apply p_pos|]. now apply inj_le.
      - eapply Qlt_trans; [exact H|]. rewrite Y, p_plus, (p_Z (digits t)) by lia. apply Qmult_lt_r; [apply p_pos|]. apply inj_lt. lia. }
    apply p_lt_inv in A. lia. }
  rewrite Y in *. rewrite (lower m e k) in * by exact KE. apply same_exponent_lt in H. apply same_exponent. lia.
Qed.

(** A part of a rounded number, rounded, is not above the number itself *)
Lemma part_below t x c y : 0 <= c -> c <= 1 - 2 ^ (- digits t) -> 0 <= val x -> (exists i, val x == inject_Z i * 2 ^ least t) ->
  val y == c * val (round t x) -> val (round t y) <= val x.
Proof.
  intros C0 C1 X0 (i & Xi) Y. set (d := val (round t x)) in *. pose proof (p_pos (- digits t)) as Pp.
  assert (D0 : 0 <= d).
  { apply round_ge; [|exact X0]. exists 0%Z, (least t). split; [pose proof (digits_pos t); apply Z.pow_pos_nonneg; lia|]. split; [lia|]. ring. }
  assert (YD : val y <= d) by (rewrite Y; nra).
  assert (Dt : in_type t d) by apply round_in_type.
  destruct (Qlt_le_dec (val x) d) as [G|G]; [|eapply Qle_trans; [exact (round_le t y d Dt YD)|exact G]].
  pose proof (round_nearest t x) as NX. fold d in NX. pose proof (digits_pos t) as P1.
  destruct x as [m e]. unfold round in d. set (p := digits t) in *. set (L := Z.log2 (Z.abs m)) in *.
  set (k := Z.max (least t) (L + e - (p - 1))) in *. destruct (Z.leb_spec k e) as [K|K]; [subst d; lra|].
  set (q := nearest_even m (2 ^ (k - e))) in *. assert (D : (0 < 2 ^ (k - e))%Z) by (apply Z.pow_pos_nonneg; lia).
  assert (M0 : (0 <= m)%Z).
  { apply (same_exponent 0 m e). unfold val in X0. cbn [fst snd] in X0. rewrite Qmult_0_l. exact X0. }
  assert (GZ : (m < q * 2 ^ (k - e))%Z).
  { subst d. unfold val in G. cbn [fst snd] in G. rewrite (lower q k e) in G by lia. now apply same_exponent_lt in G. }
  assert (Ek : k = (L + e - (p - 1))%Z).
  { destruct (Z.max_spec (least t) (L + e - (p - 1))) as [[_ E]|[_ E]]; [exact E|]. exfalso.
    fold k in E. assert (Mi : m = (i * 2 ^ (k - e))%Z).
    { unfold val in Xi. cbn [fst snd] in Xi. rewrite <- E, (lower i k e) in Xi by lia.
      apply Z.le_antisymm; apply (same_exponent _ _ e); rewrite Xi; lra. }
    destruct (nearest_rounds m (2 ^ (k - e)) D) as [A _]. fold q in A. clearbody q. set (z := (2 ^ (k - e))%Z) in *. clearbody z. clear - A GZ Mi D. subst m.
    assert (i < q)%Z by nia. assert (z <= q * z - i * z)%Z by nia. lia. }
  assert (M1 : (0 < m)%Z).
  { destruct (Z.eq_dec m 0) as [->|]; [|lia]. exfalso. destruct (nearest_rounds 0 (2 ^ (k - e)) D) as [A _]. fold q in A. clearbody q. set (z := (2 ^ (k - e))%Z) in *. clearbody z. clear - A GZ D.
    assert (0 < q)%Z by nia. assert (z <= q * z)%Z by nia. lia. }
  assert (Lm : (2 ^ (p - 1) * 2 ^ (k - e) <= m)%Z).
  { rewrite <- Z.pow_add_r by lia. replace (p - 1 + (k - e))%Z with L by lia. pose proof (Z.log2_spec (Z.abs m) ltac:(lia)) as [A _]. fold L in A. lia. }
  assert (Lq : (2 ^ (p - 1) <= q - 1)%Z) by (set (z := (2 ^ (k - e))%Z) in *; clearbody z; nia).
  pose proof (p_pos k) as Pk.
  assert (Lt : (q - 1 < 2 ^ p)%Z).
  { destruct (nearest_rounds m (2 ^ (k - e)) D) as [A _]. fold q in A.
    assert (B : (m < 2 ^ p * 2 ^ (k - e))%Z).
    { rewrite <- Z.pow_add_r by lia. replace (p + (k - e))%Z with (Z.succ L) by lia. pose proof (Z.log2_spec (Z.abs m) ltac:(lia)) as [_ B]. fold L in B. lia. }
    set (z := (2 ^ (k - e))%Z) in *. set (r := (2 ^ p)%Z) in *. clearbody z r. nia. }
  assert (Hp : (0 < 2 ^ (p - 1))%Z) by (apply Z.pow_pos_nonneg; lia).
  set (b := inject_Z (q - 1) * 2 ^ k).
  assert (Bt : in_type t b) by (exists (q - 1)%Z, k; split; [fold p; lia|split; [lia|reflexivity]]).
  assert (Ed : d == b + 2 ^ k).
  { subst d b. unfold val. cbn [fst snd]. rewrite pred_inj. ring. }
  (* the number is above b *)
  assert (Xb : b < val (m, e)).
  { destruct (Qlt_le_dec b (val (m, e))) as [H|H]; [exact H|]. exfalso. pose proof (NX b Bt) as N.
    rewrite (Qabs_pos (b - val (m, e))), (Qabs_pos (d - val (m, e))) in N by lra. lra. }
  (* the part is below the middle between b and d *)
  assert (Half : val y < b + (1 # 2) * 2 ^ k).
  { assert (H : (1 # 2) * 2 ^ k < d * 2 ^ (- p)).
    { assert (E : (1 # 2) * 2 ^ k == inject_Z (2 ^ (p - 1)) * 2 ^ k * 2 ^ (- p)).
      { rewrite <- p_Z by lia. setoid_replace (2 ^ (p - 1) * 2 ^ k * 2 ^ (- p)) with (2 ^ k * (2 ^ (p - 1) * 2 ^ (- p))) by ring.
        rewrite <- p_plus. replace (p - 1 + - p)%Z with (-1)%Z by lia. change (2 ^ (-1)) with (1 # 2). ring. }
      rewrite E. apply Qmult_lt_r; [exact Pp|]. subst d. unfold val. cbn [fst snd]. apply Qmult_lt_r; [exact Pk|]. apply inj_lt. lia. }
    assert (c * d <= d - d * 2 ^ (- p)) by nra. rewrite Y. lra. }
  destruct (Qlt_le_dec b (val (round t y))) as [H|H]; [|lra].
  exfalso. pose proof (no_between t _ (q - 1) k (round_in_type t y) Lq H) as H2. replace (q - 1 + 1)%Z with q in H2 by lia.
  assert (Ed2 : d == inject_Z q * 2 ^ k) by reflexivity. rewrite <- Ed2 in H2.
  destruct (Qlt_le_dec (val y) b) as [S|S].
  - pose proof (round_le t y b Bt ltac:(lra)). lra.
  - pose proof (round_nearest t y b Bt) as N. rewrite (Qabs_neg (b - val y)), (Qabs_pos (val (round t y) - val y)) in N by lra. lra.
Qed.

(** The canonical number is at least 0 and at most the number before 1 *)
Lemma canonical_range t w : (w < two64)%N -> 0 <= val (canonical_real t w) /\ val (canonical_real t w) <= 1 - 2 ^ (- digits t).
Proof.
  intro W. unfold canonical_real. pose proof (round_in_type t (Z.of_N w, 0%Z)) as T.
  assert (R0 : 0 <= val (round t (Z.of_N w, 0%Z))).
  { apply round_ge; [exists 0%Z, (least t); split; [pose proof (digits_pos t); apply Z.pow_pos_nonneg; lia|]; split; [lia|]; ring|].
    unfold val. cbn [fst snd]. apply Qmult_le_0_compat; [apply (inj_le 0); lia|]. apply Qlt_le_weak, p_pos. }
  assert (One : inject_Z (2 ^ digits t - 1) * 2 ^ (- digits t) == 1 - 2 ^ (- digits t)).
  { rewrite pred_inj, <- p_Z by (pose proof (digits_pos t); lia). unfold Qminus.
    rewrite Qmult_plus_distr_l, <- p_plus. replace (digits t + - digits t)%Z with 0%Z by lia. change (2 ^ 0) with 1. ring. }
  assert (Small : 2 ^ (- digits t) <= 1) by (change 1 with (2 ^ 0); apply p_le; pose proof (digits_pos t); lia).
  destruct (round t (Z.of_N w, 0%Z)) as [m e]. destruct (n_leb (1%Z, 0%Z) (m, (e - 64)%Z)) eqn:B.
  - unfold val. cbn [fst snd]. rewrite One. lra.
  - assert (V : val (m, (e - 64)%Z) == val (m, e) * 2 ^ (-64)).
    { unfold val. cbn [fst snd]. replace (e - 64)%Z with (e + -64)%Z by lia. rewrite p_plus. ring. }
    assert (H : val (m, (e - 64)%Z) < 1).
    { destruct (Qlt_le_dec (val (m, (e - 64)%Z)) 1) as [H|H]; [exact H|]. exfalso.
      assert (val (1%Z, 0%Z) <= val (m, (e - 64)%Z)) as H' by (setoid_replace (val (1%Z, 0%Z)) with 1 by reflexivity; exact H).
      apply val_leb in H'. congruence. }
    pose proof (p_pos (-64)) as P64. split; [rewrite V; apply Qmult_le_0_compat; lra|].
    (* v in the type, below 2^64 *)
    destruct T as (n & j & N & J & T). set (p := digits t) in *. assert (P64' : (1 < p <= 64)%Z) by (destruct t; subst p; cbn; lia).
    assert (V2 : val (m, (e - 64)%Z) == inject_Z n * 2 ^ (j + -64)) by (rewrite V, T, p_plus; ring). rewrite V2 in H. rewrite V2, <- One. clear V V2 T.
    destruct (Z.le_gt_cases (- p) (j + -64)) as [K|K].
    + rewrite (lower n (j + -64) (- p)) in H by exact K. rewrite (lower n (j + -64) (- p)) by exact K. apply same_exponent.
      assert (1 == inject_Z (2 ^ p) * 2 ^ (- p)) as E by (rewrite <- p_Z by lia; rewrite <- p_plus; replace (p + - p)%Z with 0%Z by lia; reflexivity).
      rewrite E in H. apply same_exponent_lt in H. lia.
    + apply Qle_trans with (inject_Z (2 ^ p - 1) * 2 ^ (j + -64)).
      * apply same_exponent. lia.
      * assert (0 <= inject_Z (2 ^ p - 1)) by (apply (inj_le 0); lia). pose proof (p_le (j + -64) (- p) ltac:(lia)).
        rewrite (Qmult_comm _ (2 ^ (j + -64))), (Qmult_comm _ (2 ^ (- p))). now apply Qmult_le_compat_r.
Qed.

(** ** The claims *)
(** A finite argument of the type *)
Definition argument (t : ftype) (d : dbl) (v : Q) : Prop :=
  exists neg m e, d = Finite neg m e /\ v == (if neg then - inject_Z (Z.of_N m) else inject_Z (Z.of_N m)) * 2 ^ e /\
    (m < 2 ^ Z.to_N (digits t))%N /\ (least t <= e)%Z.
(** The largest number of the type *)
Definition max_value (t : ftype) : Q := inject_Z (2 ^ digits t - 1) * 2 ^ greatest t.

Lemma argument_finite t d v : argument t d v -> exists a, finite d = Some a /\ val a == v /\ in_type t v /\ exists i, v == inject_Z i * 2 ^ least t.
Proof.
  intros (neg & m & e & -> & V & M & E). cbn [finite]. eexists. split; [reflexivity|].
  set (z := if neg then (- Z.of_N m)%Z else Z.of_N m).
  assert (Vz : v == inject_Z z * 2 ^ e) by (rewrite V; subst z; destruct neg; [rewrite inject_Z_opp|]; reflexivity).
  assert (Mz : (Z.abs z < 2 ^ digits t)%Z).
  { pose proof (digits_pos t). assert (Z.of_N m < 2 ^ digits t)%Z.
    { apply N2Z.inj_lt in M. rewrite N2Z.inj_pow, Z2N.id in M by lia. exact M. }
    subst z. destruct neg; lia. }
  split; [unfold val; cbn [fst snd]; fold z; symmetry; exact Vz|]. split; [exists z, e; auto|].
  exists (z * 2 ^ (e - least t))%Z. rewrite Vz. now apply lower.
Qed.

(** C139.  The result is in the interval, ends included, and a number of the type. *)
Theorem C139_in_range_partial : forall t now min max a b, argument t min a -> argument t max b -> a <= b -> b - a <= max_value t ->
  exists r, random_real t now min max = Ok r /\ a <= val r /\ val r <= b /\ in_type t (val r).
Proof.
  intros t now min max a b A B AB M. unfold random_real, uniform_real. set (w := output (u64 now) 0).
  destruct (argument_finite t min a A) as (x & -> & Vx & Tx & ix & Ix). destruct (argument_finite t max b B) as (y & -> & Vy & Ty & iy & Iy).
  assert (L : n_leb x y = true) by (apply val_leb; rewrite Vx, Vy; exact AB). rewrite L. cbn [negb].
  set (d := round t (n_add y (n_opp x))). assert (Vd : val (n_add y (n_opp x)) == b - a) by (rewrite val_add, val_opp, Vx, Vy; ring).
  assert (Lt : in_type t (max_value t)).
  { exists (2 ^ digits t - 1)%Z, (greatest t). split; [|split; [destruct t; cbn; lia|reflexivity]].
    assert (0 < 2 ^ digits t)%Z by (pose proof (digits_pos t); apply Z.pow_pos_nonneg; lia). lia. }
  assert (D : n_leb d (largest t) = true).
  { apply val_leb. change (val (largest t)) with (max_value t). apply round_le; [exact Lt|]. rewrite Vd. exact M. }
  rewrite D. cbn [negb]. eexists. split; [reflexivity|]. set (p := round t (n_mul (canonical_real t w) d)).
  destruct (canonical_range t w (small_output _ _)) as [C0 C1].
  assert (Z0 : in_type t 0).
  { exists 0%Z, (least t). split; [pose proof (digits_pos t); apply Z.pow_pos_nonneg; lia|]. split; [lia|]. ring. }
  assert (D0 : 0 <= val d) by (apply round_ge; [exact Z0|]; rewrite Vd; lra).
  assert (P0 : 0 <= val p) by (apply round_ge; [exact Z0|]; rewrite val_mul; now apply Qmult_le_0_compat).
  assert (P1 : val p <= b - a).
  { rewrite <- Vd. apply (part_below t (n_add y (n_opp x)) (val (canonical_real t w))); [exact C0|exact C1|rewrite Vd; lra| |apply val_mul].
    exists (iy - ix)%Z. rewrite Vd, Ix, Iy. unfold Z.sub. rewrite inject_Z_plus, inject_Z_opp. ring. }
  assert (S : val (n_add p x) == val p + a) by (rewrite val_add, Vx; reflexivity).
  split; [apply round_ge; [exact Tx|]; rewrite S; lra|]. split; [apply round_le; [exact Ty|]; rewrite S; lra|]. apply round_in_type.
Qed.
Print Assumptions C139_in_range_partial.
(** ** How far the rounding leads away *)
Lemma round_error t x : Qabs (val (round t x) - val x) <= 2 ^ (- digits t) * Qabs (val x) + (1 # 2) * 2 ^ least t.
Proof.
  destruct x as [m e]. unfold round. set (p := digits t) in *. set (L := Z.log2 (Z.abs m)).
  pose proof (p_pos (- p)) as Pp. pose proof (p_pos (least t)) as Pl. pose proof (Qabs_nonneg (val (m, e))) as X0.
  assert (N0 : 0 <= 2 ^ (- p) * Qabs (val (m, e))) by (apply Qmult_le_0_compat; lra).
  set (k := Z.max (least t) (L + e - (p - 1))). destruct (Z.leb_spec k e) as [K|K].
  { setoid_replace (val (m, e) - val (m, e)) with 0 by ring. change (Qabs 0) with 0. lra. }
  assert (D : (0 < 2 ^ (k - e))%Z) by (apply Z.pow_pos_nonneg; lia). destruct (nearest_rounds m (2 ^ (k - e)) D) as [A _].
  set (q := nearest_even m (2 ^ (k - e))) in *.
  assert (H : Qabs (val (q, k) - val (m, e)) <= (1 # 2) * 2 ^ k).
  { unfold val. cbn [fst snd]. rewrite (lower q k e) by lia.
    setoid_replace (inject_Z (q * 2 ^ (k - e)) * 2 ^ e - inject_Z m * 2 ^ e) with (inject_Z (q * 2 ^ (k - e) - m) * 2 ^ e)
      by (unfold Z.sub; rewrite (inject_Z_plus _ (- m)), inject_Z_opp; ring).
    rewrite abs_val. replace k with ((k - e) + e)%Z at 2 by lia. rewrite p_plus, (p_Z (k - e)) by lia.
    rewrite Qmult_assoc. apply Qmult_le_r; [apply p_pos|].
    assert (B : (2 * Z.abs (q * 2 ^ (k - e) - m) <= 2 ^ (k - e))%Z) by lia. apply inj_le in B. rewrite inject_Z_mult in B.
    change (inject_Z 2) with 2 in B. lra. }
  eapply Qle_trans; [exact H|]. destruct (Z.max_spec (least t) (L + e - (p - 1))) as [[_ E]|[_ E]]; fold k in E; rewrite E; [|lra].
  destruct (Z.eq_dec m 0) as [->|M].
  { exfalso. unfold L in E. change (Z.log2 (Z.abs 0)) with 0%Z in E. pose proof (digits_pos t) as P1. fold p in P1. lia. }
  assert (Hx : 2 ^ (L + e) <= Qabs (val (m, e))).
  { unfold val. cbn [fst snd]. pose proof (Z.log2_nonneg (Z.abs m)). rewrite abs_val, p_plus, (p_Z L) by (unfold L; lia). apply Qmult_le_r; [apply p_pos|]. apply inj_le.
    now apply Z.log2_spec; lia. }
  assert (Eq : (1 # 2) * 2 ^ (L + e - (p - 1)) == 2 ^ (- p) * 2 ^ (L + e)).
  { rewrite <- p_plus. replace (- p + (L + e))%Z with (-1 + (L + e - (p - 1)))%Z by lia. rewrite p_plus. change (2 ^ (-1)) with (1 # 2). reflexivity. }
  rewrite Eq. assert (2 ^ (- p) * 2 ^ (L + e) <= 2 ^ (- p) * Qabs (val (m, e))); [|lra].
  rewrite !(Qmult_comm (2 ^ (- p))). apply Qmult_le_compat_r; lra.
Qed.
(** The canonical number is the word over 2^64, nearly *)
Lemma canonical_error t w : (w < two64)%N -> Qabs (val (canonical_real t w) - inject_Z (Z.of_N w) * 2 ^ (-64)) <= 2 * 2 ^ (- digits t).
Proof.
  intro W. pose proof (round_error t (Z.of_N w, 0%Z)) as R.
  assert (Vw : val (Z.of_N w, 0%Z) == inject_Z (Z.of_N w)) by (unfold val; cbn [fst snd]; change (2 ^ 0) with 1; ring).
  rewrite Vw in R. set (u := inject_Z (Z.of_N w)) in *.
  assert (U : 0 <= u /\ u * 2 ^ (-64) < 1).
  { split; [apply (inj_le 0); lia|]. assert (u < inject_Z (2 ^ 64)) as H by (apply inj_lt; unfold two64 in W; lia).
    rewrite <- p_Z in H by lia. assert (1 == 2 ^ 64 * 2 ^ (-64)) as -> by reflexivity. apply Qmult_lt_r; [apply p_pos|exact H]. }
  destruct U as [U0 U1]. clearbody u. rewrite (Qabs_pos u) in R by lra.
  pose proof (p_pos (- digits t)) as Pp. pose proof (p_pos (-64)) as P64.
  assert (S : (1 # 2) * 2 ^ least t * 2 ^ (-64) <= (1 # 1000000) * 2 ^ (- digits t)).
  { assert ((1 # 2) * 2 ^ least t * 2 ^ (-64) == 2 ^ (-65 + least t)) as ->.
    { rewrite p_plus. assert (2 ^ (-65) == (1 # 2) * 2 ^ (-64)) as -> by reflexivity. ring. }
    apply Qle_trans with (2 ^ (-20) * 2 ^ (- digits t)).
    - rewrite <- p_plus. apply p_le. destruct t; cbn; lia.
    - apply Qmult_le_r; [exact Pp|]. discriminate. }
  set (v := val (round t (Z.of_N w, 0%Z))) in *.
  assert (R2 : Qabs (v * 2 ^ (-64) - u * 2 ^ (-64)) <= 2 * 2 ^ (- digits t)).
  { setoid_replace (v * 2 ^ (-64) - u * 2 ^ (-64)) with ((v - u) * 2 ^ (-64)) by ring. rewrite Qabs_Qmult, (Qabs_pos (2 ^ (-64))) by lra.
    apply Qle_trans with ((2 ^ (- digits t) * u + (1 # 2) * 2 ^ least t) * 2 ^ (-64)); [apply Qmult_le_compat_r; lra|].
    setoid_replace ((2 ^ (- digits t) * u + (1 # 2) * 2 ^ least t) * 2 ^ (-64)) with (2 ^ (- digits t) * (u * 2 ^ (-64)) + (1 # 2) * 2 ^ least t * 2 ^ (-64)) by ring.
    assert (2 ^ (- digits t) * (u * 2 ^ (-64)) <= 2 ^ (- digits t) * 1) by (rewrite !(Qmult_comm (2 ^ (- digits t))); apply Qmult_le_compat_r; lra). lra. }
  assert (One : inject_Z (2 ^ digits t - 1) * 2 ^ (- digits t) == 1 - 2 ^ (- digits t)).
  { rewrite pred_inj, <- p_Z by (pose proof (digits_pos t); lia). unfold Qminus.
    rewrite Qmult_plus_distr_l, <- p_plus. replace (digits t + - digits t)%Z with 0%Z by lia. change (2 ^ 0) with 1. ring. }
  unfold canonical_real. subst v. destruct (round t (Z.of_N w, 0%Z)) as [m e].
  assert (V : val (m, (e - 64)%Z) == val (m, e) * 2 ^ (-64)).
  { unfold val. cbn [fst snd]. replace (e - 64)%Z with (e + -64)%Z by lia. rewrite p_plus. ring. }
  destruct (n_leb (1%Z, 0%Z) (m, (e - 64)%Z)) eqn:B; [|rewrite V; exact R2].
  apply val_leb in B. rewrite V in B. change (val (1%Z, 0%Z)) with 1 in B. unfold val at 1. cbn [fst snd]. rewrite One.
  set (x := u * 2 ^ (-64)) in *. set (y := val (m, e) * 2 ^ (-64)) in *. clearbody x y. apply Qabs_Qle_condition in R2. apply Qabs_Qle_condition. lra.
Qed.

(** C139.  The result follows the first word of the engine: it divides the interval as the word divides the range from 0
    to 2^64, up to rounding. *)
Theorem C139_follows_word : forall t now min max a b r, argument t min a -> argument t max b -> a <= b ->
  random_real t now min max = Ok r ->
  Qabs (val r - (a + inject_Z (Z.of_N (output (u64 now) 0)) * 2 ^ (-64) * (b - a))) <=
    6 * 2 ^ (- digits t) * (Qabs a + Qabs b) + 2 * 2 ^ least t.
Proof.
  intros t now min max a b r A B AB. unfold random_real, uniform_real. set (w := output (u64 now) 0).
  destruct (argument_finite t min a A) as (x & -> & Vx & Tx & ix & Ix). destruct (argument_finite t max b B) as (y & -> & Vy & Ty & iy & Iy).
  assert (L : n_leb x y = true) by (apply val_leb; rewrite Vx, Vy; exact AB). rewrite L. cbn [negb].
  set (d := round t (n_add y (n_opp x))). assert (Vd : val (n_add y (n_opp x)) == b - a) by (rewrite val_add, val_opp, Vx, Vy; ring).
  destruct (n_leb d (largest t)); [|discriminate]. cbn [negb]. intro Res.
  apply (f_equal (fun o => match o with Ok z => z | _ => r end)) in Res. cbv beta iota in Res. subst r.
  destruct (canonical_range t w (small_output _ _)) as [C0 C1]. pose proof (canonical_error t w (small_output _ _)) as Ec.
  set (c := canonical_real t w) in *. set (u := inject_Z (Z.of_N w) * 2 ^ (-64)) in *.
  assert (Z0 : in_type t 0).
  { exists 0%Z, (least t). split; [pose proof (digits_pos t); apply Z.pow_pos_nonneg; lia|]. split; [lia|]. ring. }
  assert (D0 : 0 <= val d) by (apply round_ge; [exact Z0|]; rewrite Vd; lra).
  assert (P0 : 0 <= val (round t (n_mul c d))) by (apply round_ge; [exact Z0|]; rewrite val_mul; now apply Qmult_le_0_compat).
  assert (P1 : val (round t (n_mul c d)) <= b - a).
  { rewrite <- Vd. apply (part_below t (n_add y (n_opp x)) (val c)); [exact C0|exact C1|rewrite Vd; lra| |apply val_mul].
    exists (iy - ix)%Z. rewrite Vd, Ix, Iy. unfold Z.sub. rewrite inject_Z_plus, inject_Z_opp. ring. }
  pose proof (round_error t (n_add y (n_opp x))) as Ed. fold d in Ed. rewrite Vd in Ed.
  pose proof (round_error t (n_mul c d)) as Ep. rewrite val_mul in Ep. set (p := round t (n_mul c d)) in *.
  pose proof (round_error t (n_add p x)) as Er. assert (S : val (n_add p x) == val p + a) by (rewrite val_add, Vx; reflexivity). rewrite S in Er.
  set (R := val (round t (n_add p x))) in *. set (P := val p) in *. set (D := val d) in *. set (C := val c) in *.
  pose proof (p_pos (- digits t)) as Pp. pose proof (p_pos (least t)) as Pl.
  assert (Small : 2 ^ (- digits t) <= 1 # 1000).
  { apply Qle_trans with (2 ^ (-10)); [apply p_le; destruct t; cbn; lia|discriminate]. }
  set (E := 2 ^ (- digits t)) in *. set (l := 2 ^ least t) in *.
  assert (M : Qabs (P + a) <= Qabs a + Qabs b).
  { apply Qabs_Qle_condition. pose proof (Qle_Qabs b). pose proof (Qle_Qabs (- a)) as H1. rewrite Qabs_opp in H1. pose proof (Qabs_nonneg a). pose proof (Qabs_nonneg b). lra. }
  assert (BA : b - a <= Qabs a + Qabs b).
  { pose proof (Qle_Qabs b). pose proof (Qle_Qabs (- a)) as H1. rewrite Qabs_opp in H1. lra. }
  rewrite (Qabs_pos (b - a)) in Ed by lra. assert (CD : 0 <= C * D) by now apply Qmult_le_0_compat. rewrite (Qabs_pos (C * D)) in Ep by exact CD.
  set (T := Qabs a + Qabs b) in *. set (m := Qabs (P + a)) in *. set (g := b - a) in *.
  assert (G0 : 0 <= g) by (unfold g; lra). assert (Hm : 0 <= m) by apply Qabs_nonneg.
  clearbody R P D C E l u T m g. clear - Ec Ed Ep Er C0 C1 D0 CD Pp Pl Small M BA G0 Hm.
  apply Qabs_Qle_condition in Ec, Ed, Ep, Er. apply Qabs_Qle_condition.
  assert (X1 : E * m <= E * T) by nra. assert (X2 : E * g <= E * T) by nra.
  assert (CDD : C * D <= D) by nra. assert (X3 : E * (C * D) <= E * D) by nra.
  assert (Dg : D <= 2 * g + l) by nra. assert (X4 : E * D <= 2 * (E * g) + (1 # 1000) * l) by nra.
  assert (X5 : C * (D - g) <= E * g + (1 # 2) * l) by nra. assert (X6 : - (E * g + (1 # 2) * l) <= C * (D - g)) by nra.
  assert (X7 : (C - u) * g <= 2 * E * g) by nra. assert (X8 : - (2 * E * g) <= (C - u) * g) by nra.
  assert (X9 : C * D - u * g == C * (D - g) + (C - u) * g) by ring.
  split; lra.
Qed.
Print Assumptions C139_follows_word.
(** Called without arguments it gives only positive numbers: the default minimum is the smallest positive normal number. *)
Theorem C139_default_refuted : forall t now, exists r, random_default t now = Ok r /\ 0 < val r.
Proof.
  intros t now. unfold random_default.
  set (lo := Finite false 1 (snd (smallest_normal t))). set (hi := Finite false (Z.to_N (fst (largest t))) (greatest t)).
  set (a := 2 ^ (least t + digits t - 1)).
  assert (Hd : (0 < 2 ^ digits t)%Z) by (pose proof (digits_pos t); apply Z.pow_pos_nonneg; lia).
  assert (A : argument t lo a).
  { exists false, 1%N, (least t + digits t - 1)%Z. split; [reflexivity|]. split; [unfold a; change (inject_Z (Z.of_N 1)) with 1; ring|].
    pose proof (digits_pos t). split; [destruct t; reflexivity|lia]. }
  assert (B : argument t hi (max_value t)).
  { exists false, (Z.to_N (2 ^ digits t - 1)), (greatest t). split; [reflexivity|]. split; [unfold max_value; rewrite Z2N.id by lia; reflexivity|].
    split; [destruct t; reflexivity|destruct t; cbn; lia]. }
  assert (P : 0 < a) by apply p_pos.
  assert (AB : a <= max_value t).
  { unfold a, max_value. apply Qle_trans with (1 * 2 ^ greatest t); [rewrite Qmult_1_l; apply p_le; destruct t; cbn; lia|].
    apply Qmult_le_r; [apply p_pos|]. change 1 with (inject_Z 1). apply inj_le. destruct t; cbn; lia. }
  destruct (C139_in_range_partial t now lo hi a (max_value t) A B AB ltac:(lra)) as (r & E & R & _). exists r. split; [exact E|lra].
Qed.
Print Assumptions C139_default_refuted.
(** Arguments in the wrong order, infinities and NaNs are undefined. *)
Theorem C139_undefined_refuted : forall t now min max,
  (forall a b, argument t min a -> argument t max b -> b < a -> random_real t now min max = UB) /\
  ((forall neg m e, min <> Finite neg m e) \/ (forall neg m e, max <> Finite neg m e) -> random_real t now min max = UB).
Proof.
  intros t now min max. unfold random_real, uniform_real. split.
  - intros a b A B H. destruct (argument_finite t min a A) as (x & -> & Vx & _). destruct (argument_finite t max b B) as (y & -> & Vy & _).
    destruct (n_leb x y) eqn:L; [|reflexivity]. exfalso. apply val_leb in L. rewrite Vx, Vy in L. lra.
  - intros [H|H].
    + destruct min as [neg m e| |]; [now destruct (H neg m e)|reflexivity..].
    + destruct max as [neg m e| |]; [now destruct (H neg m e)|..]; destruct (finite min); reflexivity.
Qed.
Print Assumptions C139_undefined_refuted.
(** The maximum itself comes out, though the distribution is over [min, max): Random<Double>(1.0, 1.0 + 2^-52). *)
Theorem C139_maximum_refuted : exists now r, random_real FDouble now (Finite false 1 0) (Finite false (2 ^ 52 + 1) (-52)) = Ok r /\
  val r == inject_Z (2 ^ 52 + 1) * 2 ^ (-52).
Proof. exists 5489%Z. eexists. split; [vm_compute; reflexivity|]. unfold val. cbn [fst snd]. reflexivity. Qed.
Print Assumptions C139_maximum_refuted.
Example C139_ex : argument FFloat (Finite true 5 (-1)) (-5 # 2) /\ argument FFloat (Finite false 3 1) 6 /\
  random_real FFloat 5489 (Finite true 5 (-1)) (Finite false 3 1) = Ok (8782827%Z, (-21)%Z).
Proof.
  split; [exists true, 5%N, (-1)%Z; repeat split; discriminate|]. split; [exists false, 3%N, 1%Z; repeat split; discriminate|]. vm_compute. reflexivity.
Qed.
