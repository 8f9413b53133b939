(** Reading and writing of floats near zero, which have fewer significant bits. *)
From Coq Require Import List NArith ZArith QArith Qabs Qpower Qfield Lqa Lia Bool.
From Verif Require Import SpecInt Dec DecProofs Double DoubleProps JsonParse FloatText SpecFloatText FloatQ FloatTextProofs FloatRead FloatJson.
Import ListNotations.
Local Open Scope Q_scope.

(** ** Reading: the nearest multiple of 2^-149, where the first rounding to double does not matter *)
Lemma small_float neg a b : (0 < a)%Z -> (0 < b)%Z -> let u := frac a b * 2 ^ 149 in 1 # 2 <= u -> u <= 8400000 ->
  exists m, to_float neg a b = Converted (Finite neg (Z.to_N m) (-149)) /\ (0 <= m < 8400002)%Z /\
  Qabs (u - inject_Z m) <= (1 # 2) + (1 # 10000000) /\ forall k, Qabs (u - inject_Z k) < (1 # 2) - (1 # 10000000) -> k = m.
Proof.
  intros A B u L H. unfold to_float. pose proof (round_spec 53 (-1074) a b ltac:(lia) A B) as R. destruct (round_binary 53 (-1074) a b) as [m1 e1].
  set (v := frac a b) in *. destruct R as (M1 & E1 & R). fold v in R. pose proof (frac_magnitude (Z.to_N m1) e1) as G. destruct (magnitude (Z.to_N m1) e1) as [c d].
  destruct G as [D G]. unfold binary in G. rewrite Z2N.id in G by lia. set (y1 := frac c d) in *. rewrite <- G in R.
  pose proof (p2_pos 149) as P149. pose proof (p2_inv 149) as I149. change (- (149))%Z with (-149)%Z in I149. pose proof (p2_pos (-149)) as P149'.
  assert (VU : v == u * 2 ^ (-149)) by (unfold u; rewrite <- Qmult_assoc, I149; ring).
  assert (V0 : 2 ^ (-150) <= v).
  { rewrite VU. change (-150)%Z with (-1 + -149)%Z. rewrite p2_plus. change (2 ^ (-1)) with (1 # 2). now apply Qmult_le_r. }
  assert (R1 : Qabs (v - y1) <= v * 2 ^ (-53)).
  { destruct R as [R|R]; [exact R|]. eapply Qle_trans; [exact R|]. eapply Qle_trans; [apply (p2_le (-1074 - 1) (-150 + -53)); lia|].
    rewrite p2_plus. apply Qmult_le_r; [apply p2_pos|assumption]. }
  set (u1 := y1 * 2 ^ 149).
  assert (U1 : Qabs (u - u1) <= u * 2 ^ (-53)).
  { unfold u, u1. rewrite scale_abs by assumption. rewrite <- Qmult_assoc, (Qmult_comm (2 ^ 149)), Qmult_assoc. now apply Qmult_le_r. }
  change (2 ^ (-53)) with (1 # 9007199254740992) in U1. apply Qabs_Qle_condition in U1.
  assert (Y0 : 0 < y1).
  { apply (Qmult_lt_r _ _ _ P149). fold u1. rewrite Qmult_0_l. lra. }
  assert (C0 : (0 < c)%Z).
  { apply inj_lt_inv. rewrite <- (frac_mul c d D). fold y1. apply inj_pos in D. change (inject_Z 0) with 0. nra. }
  assert (Y1 : y1 < 2 ^ (-125)).
  { apply (Qmult_lt_r _ _ _ P149). fold u1. rewrite <- p2_plus. change (2 ^ (-125 + 149)) with 16777216. lra. }
  replace (2 ^ 1024 * d <=? c)%Z with false.
  2: { symmetry. apply Z.leb_gt. apply inj_lt_inv. rewrite inject_Z_mult. rewrite <- (frac_mul c d D). fold y1. apply Qmult_lt_r; [now apply inj_pos|].
       rewrite <- p2_Z by lia. pose proof (p2_le (-125) 1024 ltac:(lia)). lra. }
  replace (a * 2 ^ 1022 <? b)%Z with false.
  2: { symmetry. apply Z.ltb_ge. apply inj_le_inv. rewrite inject_Z_mult. rewrite <- p2_Z by lia. rewrite <- (frac_mul a b B). fold v.
       pose proof (inj_pos b B) as B'. pose proof (p2_inv 1022) as I. pose proof (p2_le (-1022) (-150) ltac:(lia)). pose proof (p2_pos 1022).
       change (- (1022))%Z with (-1022)%Z in I. nra. }
  cbn [orb andb]. unfold narrowed, round_binary.
  destruct (log2_spec c d C0 D) as [LG _]. fold y1 in LG.
  assert (LE : (log2_floor c d < -125)%Z) by (apply (pow_lt_inv 2 eq_refl); change (inject_Z 2) with 2; lra).
  replace (Z.max (log2_floor c d - (24 - 1)) (-149)) with (-149)%Z by lia.
  pose proof (scaled_spec 2 eq_refl c d (- (-149)) D) as S. destruct (scaled 2 c d (- (-149))) as [n d'] eqn:SC. destruct S as (D' & E & Pn). specialize (Pn C0).
  change (inject_Z 2 ^ (- (-149))) with (2 ^ 149) in E. fold y1 u1 in E. pose proof (nearest_spec n d' D') as N. cbv zeta in N. destruct N as [N _].
  set (q := nearest_even n d') in *. rewrite E in N. apply Qabs_Qle_condition in N.
  assert (Q0 : (0 <= q)%Z). { pose proof (nearest_rounds n d' D') as [Rr _]. fold q in Rr. nia. }
  assert (Q1 : (q < 8400002)%Z) by (apply inj_lt_inv; change (inject_Z 8400002) with 8400002; lra).
  replace (q =? 2 ^ 24)%Z with false by (symmetry; apply Z.eqb_neq; lia).
  pose proof (frac_magnitude (Z.to_N q) (-149)) as G'. destruct (magnitude (Z.to_N q) (-149)) as [c' d''].
  destruct G' as [D2 G']. unfold binary in G'. rewrite Z2N.id in G' by lia.
  replace (c' <? 2 ^ 128 * d'')%Z with true.
  2: { symmetry. apply Z.ltb_lt. apply inj_lt_inv. rewrite inject_Z_mult. rewrite <- (frac_mul c' d'' D2), <- p2_Z by lia. apply Qmult_lt_r; [now apply inj_pos|].
       rewrite G'. assert (inject_Z q <= 16777216) as K by (apply (inj_le q 16777216); lia). pose proof (p2_le (-149) 0 ltac:(lia)) as K2. change (2 ^ 0) with 1 in K2.
       assert (16777216 < 2 ^ 128) as K3 by reflexivity. assert (0 <= inject_Z q) as K4 by (apply (inj_le 0); lia). nra. }
  exists q. split; [reflexivity|]. split; [lia|]. split.
  - apply Qabs_Qle_condition. lra.
  - intros k K. apply Qabs_Qlt_condition in K. symmetry. apply (nearest_Z u1); [apply Qabs_Qle_condition; lra|apply Qabs_Qlt_condition; lra].
Qed.

(** ** Six digits that are read as a float near zero are not the ones halfway to the next float *)
Lemma not_halfway d x d' x' m : six_digits d -> six_digits d' ->
  let u := six d x * 2 ^ 149 in let u' := six d' x' * 2 ^ 149 in let s := 10 ^ (x' - 5) * 2 ^ 149 in
  Qabs (u - m) <= (1 # 2) + (1 # 10000000) -> Qabs (u' - m) <= Qabs (u - m) -> Qabs (u' - m) <= (1 # 2) * s ->
  (d, x) = (d', x') \/ Qabs (u' - m) < (1 # 2) - (1 # 10000000).
Proof.
  intros D D' u u' s U U' S. destruct (Qlt_le_dec (Qabs (u' - m)) ((1 # 2) - (1 # 10000000))) as [|G]; [now right|left].
  assert (S1 : 9999990 # 10000000 <= s) by lra.
  assert (DF : (Qabs (u - u') <= 4 # 10000000) \/ (9999990 # 10000000 <= Qabs (u - u') /\ Qabs (u - u') <= 10000010 # 10000000)).
  { revert U U' G. apply (Qabs_case (u - m)); intros C1; apply (Qabs_case (u' - m)); intros C2 U U' G.
    - left. apply Qabs_Qle_condition. lra.
    - right. rewrite Qabs_pos by lra. lra.
    - right. rewrite Qabs_neg by lra. lra.
    - left. apply Qabs_Qle_condition. lra. }
  assert (UB1 : Qabs (u - u') <= 10000010 # 10000000) by (destruct DF as [DF|[_ DF]]; lra). apply Qabs_Qle_condition in UB1.
  assert (P149 : 0 < 2 ^ 149) by reflexivity.
  assert (B' : 100000 * s <= u' /\ u' <= 999999 * s).
  { unfold u', six, s. assert (100000 <= inject_Z d') by (apply (inj_le 100000); apply D'). assert (inject_Z d' <= 999999) by (apply (inj_le d' 999999); unfold six_digits in D'; lia).
    pose proof (p10_pos (x' - 5)) as P. assert (0 < 10 ^ (x' - 5) * 2 ^ 149) as Q by (rewrite <- (Qmult_0_l (2 ^ 149)); now apply Qmult_lt_r).
    rewrite <- Qmult_assoc. split; apply Qmult_le_r; assumption. }
  set (r := 10 ^ (x - 5) * 2 ^ 149).
  assert (B : 100000 * r <= u /\ u <= 999999 * r).
  { unfold u, six, r. assert (100000 <= inject_Z d) by (apply (inj_le 100000); apply D). assert (inject_Z d <= 999999) by (apply (inj_le d 999999); unfold six_digits in D; lia).
    pose proof (p10_pos (x - 5)) as P. assert (0 < 10 ^ (x - 5) * 2 ^ 149) as Q by (rewrite <- (Qmult_0_l (2 ^ 149)); now apply Qmult_lt_r).
    rewrite <- Qmult_assoc. split; apply Qmult_le_r; assumption. }
  assert (RS : forall j, r == s * 10 ^ j <-> r == s * 10 ^ j) by tauto. clear RS.
  assert (RJ : r == s * 10 ^ (x - x')).
  { unfold r, s. replace (x - 5)%Z with (x' - 5 + (x - x'))%Z by lia. rewrite p10_plus. ring. }
  assert (J : (-1 <= x - x' <= 1)%Z).
  { destruct (Z.le_gt_cases (-1) (x - x')) as [J1|J1]; [destruct (Z.le_gt_cases (x - x') 1) as [J2|J2]; [lia|]|]; exfalso.
    - pose proof (p10_le 2 (x - x') ltac:(lia)) as K. change (10 ^ 2) with 100 in K. assert (100 * s <= r) by (rewrite RJ; nra). lra.
    - pose proof (p10_le (x - x') (-2) ltac:(lia)) as K. change (10 ^ (-2)) with (1 # 100) in K. assert (r <= (1 # 100) * s) by (rewrite RJ; nra). lra. }
  set (k := (d * 10 ^ (x - x' + 1) - 10 * d')%Z).
  assert (UK : u - u' == inject_Z k * (s * (1 # 10))).
  { unfold u, u', six, k. transitivity (inject_Z d * r - inject_Z d' * s); [unfold r, s; ring|]. rewrite RJ.
    unfold Zminus. rewrite inject_Z_plus, inject_Z_opp, !inject_Z_mult. rewrite <- p10_Z by lia. rewrite (p10_plus _ 1). change (10 ^ 1) with 10. change (inject_Z 10) with 10. ring. }
  assert (K0 : k = 0%Z -> (d, x) = (d', x')).
  { unfold k. intro E. assert (x - x' = -1 \/ x - x' = 0 \/ x - x' = 1)%Z as [X|[X|X]] by lia; rewrite X in E; unfold six_digits in *.
    all: match type of E with context [(10 ^ ?e)%Z] => let v := eval vm_compute in (10 ^ e)%Z in change (10 ^ e)%Z with v in E end.
    - exfalso. lia.
    - f_equal; lia.
    - exfalso. lia. }
  destruct (Z.eq_dec k 0) as [K|K]; [auto|exfalso].
  assert (AK : Qabs (u - u') == inject_Z (Z.abs k) * (s * (1 # 10))).
  { rewrite UK, Qabs_Qmult, (Qabs_pos (s * (1 # 10))) by lra. reflexivity. }
  rewrite AK in DF. assert (A1 : 1 <= inject_Z (Z.abs k)) by (apply (inj_le 1); lia).
  destruct DF as [DF|[DF1 DF2]]; [nra|].
  assert (S2 : s <= 11) by nra.
  assert (X : (x' - 5 = -44)%Z).
  { destruct (Z.lt_trichotomy (x' - 5) (-44)) as [X|[X|X]]; [exfalso|assumption|exfalso].
    - pose proof (p10_le (x' - 5) (-45) ltac:(lia)) as Y. assert (s <= 10 ^ (-45) * 2 ^ 149) as Z by (unfold s; now apply Qmult_le_r).
      assert (10 ^ (-45) * 2 ^ 149 < 8 # 10) as W by reflexivity. lra.
    - pose proof (p10_le (-43) (x' - 5) ltac:(lia)) as Y. assert (10 ^ (-43) * 2 ^ 149 <= s) as Z by (unfold s; now apply Qmult_le_r).
      assert (11 < 10 ^ (-43) * 2 ^ 149) as W by reflexivity. lra. }
  assert (W1 : 7136 # 1000 < s) by (unfold s; rewrite X; reflexivity). assert (W2 : s < 7137 # 1000) by (unfold s; rewrite X; reflexivity).
  assert (Z.abs k = 1 \/ 2 <= Z.abs k)%Z as [E|E] by lia.
  - rewrite E in *. change (inject_Z 1) with 1 in *. lra.
  - assert (2 <= inject_Z (Z.abs k)) by (now apply (inj_le 2)). nra.
Qed.

(** ** Floats near zero *)
Lemma units m e : float32 m e -> binary m e < 2 ^ (-126) -> binary m e * 2 ^ 149 == inject_Z (Z.of_N m * 2 ^ (e + 149)) /\ binary m e * 2 ^ 149 < 8388608.
Proof.
  intros (_ & E & _) L. split.
  - unfold binary. rewrite inject_Z_mult, <- p2_Z by lia. rewrite p2_plus. ring.
  - assert (2 ^ (-126) * 2 ^ 149 == 8388608) as <- by reflexivity. apply Qmult_lt_r; [reflexivity|assumption].
Qed.
Lemma units_of k : binary (Z.to_N k) (-149) * 2 ^ 149 == inject_Z (Z.max 0 k).
Proof.
  unfold binary. replace (Z.of_N (Z.to_N k)) with (Z.max 0 k) by lia. rewrite <- Qmult_assoc. pose proof (p2_inv 149) as I. change (- (149))%Z with (-149)%Z in I.
  rewrite (Qmult_comm (2 ^ (-149))), I. ring.
Qed.
Lemma scale_149 u v : Qabs (u * 2 ^ 149 - v * 2 ^ 149) == Qabs (u - v) * 2 ^ 149.
Proof. apply scale_abs. reflexivity. Qed.
Lemma small_notation v : v < 2 ^ (-125) -> with_exponent v.
Proof. intro L. left. assert (2 ^ (-125) < 9999995 # 100000000000) by reflexivity. lra. Qed.
Lemma back_units k : binary (Z.to_N k) (-149) * 2 ^ 149 < 16777216 -> binary (Z.to_N k) (-149) < 2 ^ (-125).
Proof. intro H. apply (Qmult_lt_r _ _ (2 ^ 149)); [reflexivity|]. assert (2 ^ (-125) * 2 ^ 149 == 16777216) as -> by reflexivity. exact H. Qed.

(** The text of a float near zero: six digits [d * 10^(x - 5)] within half of the last one *)
Lemma small_text neg m e : m <> 0%N -> binary m e < 2 ^ (-125) -> exists d x t a b, best_six (binary m e) d x /\
  float_to_stream (Finite neg m e) = sgn neg ++ t /\ exponent_text t d x /\ Qabs (binary m e * 10 ^ (5 - x) - inject_Z d) <= 1 # 2 /\
  six_significant a b = (d, x) /\ t = g_text a b.
Proof.
  intros M L. destruct (text_of neg m e M) as (d & x & t & B & T & S & N & a & b & Eab & Eq & Et).
  destruct S as [[X _]|[X S]]; [apply small_notation in L; apply (notation_chosen _ _ _ B) in L; contradiction|].
  exists d, x, t, a, b. auto 8.
Qed.

Lemma read_small neg m e : float32 m e -> m <> 0%N -> binary m e < 2 ^ (-126) ->
  exists m', stod_float (float_to_stream (Finite neg m e)) = Converted (Finite neg m' (-149)) /\ float32 m' (-149) /\ m' <> 0%N /\ binary m' (-149) < 2 ^ (-125) /\
  Qabs (binary m' (-149) - binary m e) <= binary m e * (6 # 1000000) + 2 ^ (-150) /\
  stod_float (float_to_stream (Finite neg m' (-149))) = Converted (Finite neg m' (-149)).
Proof.
  intros F M L. destruct (units m e F L) as [K KL]. assert (L' : binary m e < 2 ^ (-125)) by (pose proof (p2_le (-126) (-125) ltac:(lia)); lra).
  destruct (small_text neg m e M L') as (d & x & t & a & b & B & T & S & N & Eq & Et).
  pose proof (six_near _ _ _ B N) as NR.
  destruct (stod_exponent neg t d x S (proj1 B)) as (a1 & b1 & A1 & B1 & E1 & R1).
  set (v := binary m e) in *. set (u := six d x * 2 ^ 149).
  assert (KP : 1 <= v * 2 ^ 149).
  { rewrite K. apply (inj_le 1). destruct F as (_ & E & _). pose proof (Z.pow_pos_nonneg 2 (e + 149) ltac:(lia) ltac:(lia)). nia. }
  assert (UV : Qabs (u - v * 2 ^ 149) <= v * 2 ^ 149 * (5 # 999995)).
  { unfold u. rewrite scale_149. rewrite <- Qmult_assoc, (Qmult_comm (2 ^ 149)), Qmult_assoc. apply Qmult_le_r; [reflexivity|exact NR]. }
  set (w := v * 2 ^ 149) in *. apply Qabs_Qle_condition in UV.
  assert (FU : frac a1 b1 * 2 ^ 149 == u) by (unfold u; now rewrite E1).
  destruct (small_float neg a1 b1 A1 B1) as (k & C & Kr & KN & _); [rewrite FU; lra|rewrite FU; lra|]. rewrite FU in KN.
  assert (K1 : (1 <= k)%Z).
  { apply Qabs_Qle_condition in KN. assert (inject_Z 0 < inject_Z k) as Z by (change (inject_Z 0) with 0; lra). apply inj_lt_inv in Z. lia. }
  assert (K2 : (k < 8388654)%Z).
  { apply Qabs_Qle_condition in KN. apply inj_lt_inv. change (inject_Z 8388654) with 8388654. lra. }
  set (m' := Z.to_N k). assert (M' : m' <> 0%N) by lia.
  assert (UM : binary m' (-149) * 2 ^ 149 == inject_Z k) by (unfold m'; rewrite units_of; now rewrite Z.max_r by lia).
  assert (KQ : inject_Z k <= 8388653) by (apply (inj_le k 8388653); lia). assert (KQ1 : 1 <= inject_Z k) by (now apply (inj_le 1)).
  assert (L2 : binary m' (-149) < 2 ^ (-125)) by (apply back_units; fold m'; rewrite UM; lra).
  exists m'. split; [rewrite T, R1; exact C|]. split; [|split; [assumption|split; [assumption|split]]].
  - split; [unfold m'; lia|]. split; [lia|]. pose proof (p2_le (-125) 128 ltac:(lia)). lra.
  - apply (Qmult_le_r _ _ (2 ^ 149)); [reflexivity|]. rewrite <- scale_149, UM. fold w.
    assert ((v * (6 # 1000000) + 2 ^ (-150)) * 2 ^ 149 == w * (6 # 1000000) + (1 # 2)) as ->.
    { unfold w. assert (1 # 2 == 2 ^ (-150) * 2 ^ 149) as -> by reflexivity. ring. }
    apply Qabs_Qle_condition in KN. apply Qabs_Qle_condition. lra.
  - destruct (small_text neg m' (-149) M' L2) as (d2 & x2 & t2 & a2 & b2 & B2 & T2 & S2 & N2 & Eq2 & Et2).
    set (u2 := six d2 x2 * 2 ^ 149). set (v2 := binary m' (-149)) in *.
    destruct (not_halfway d x d2 x2 (inject_Z k) (proj1 B) (proj1 B2)) as [H|H].
    + exact KN.
    + rewrite <- UM. rewrite (scale_149 (six d2 x2)), (scale_149 (six d x)). apply Qmult_le_r; [reflexivity|].
      rewrite (Qabs_Qminus (six d2 x2)), (Qabs_Qminus (six d x)). apply best_le; [exact B2|apply B].
    + rewrite <- UM. rewrite (scale_149 (six d2 x2)). rewrite Qmult_assoc. apply Qmult_le_r; [reflexivity|].
      pose proof (p10_pos (x2 - 5)) as P. assert (v2 == v2 * 10 ^ (5 - x2) * 10 ^ (x2 - 5)) as ->.
      { rewrite <- Qmult_assoc, <- p10_plus. replace (5 - x2 + (x2 - 5))%Z with 0%Z by lia. change (10 ^ 0) with 1. ring. }
      unfold six. rewrite scale_abs by assumption. apply Qmult_le_r; [assumption|]. now rewrite Qabs_Qminus.
    + injection H as <- <-. rewrite T2, Et2. unfold g_text. rewrite Eq2. transitivity (stod_float (sgn neg ++ t)); [|now rewrite R1]. rewrite Et. unfold g_text. now rewrite Eq.
    + pose proof (six_near _ _ _ B2 N2) as NR2. fold v2 in NR2.
      destruct (stod_exponent neg t2 d2 x2 S2 (proj1 B2)) as (a3 & b3 & A3 & B3 & E3 & R3).
      assert (FU2 : frac a3 b3 * 2 ^ 149 == u2) by (unfold u2; now rewrite E3).
      assert (UV2 : Qabs (u2 - inject_Z k) <= inject_Z k * (5 # 999995)).
      { rewrite <- UM. unfold u2. rewrite scale_149. rewrite <- Qmult_assoc, (Qmult_comm (2 ^ 149)), Qmult_assoc. apply Qmult_le_r; [reflexivity|exact NR2]. }
      apply Qabs_Qle_condition in UV2.
      destruct (small_float neg a3 b3 A3 B3) as (k3 & C3 & _ & _ & Un); [rewrite FU2; lra|rewrite FU2; lra|].
      rewrite T2, R3, C3. rewrite <- (Un k); [reflexivity|]. rewrite FU2. exact H.
Qed.
