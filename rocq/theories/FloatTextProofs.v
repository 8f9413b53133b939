(** The six digits that are written are the nearest ones, and what is read back. *)
From Coq Require Import List NArith ZArith QArith Qabs Qpower Qfield Lqa Lia Bool.
From Verif Require Import SpecInt Dec DecProofs Double DoubleProps FloatText SpecFloatText FloatQ.
Import ListNotations.
Local Open Scope Q_scope.

Lemma p10_pos k : 0 < 10 ^ k. Proof. exact (pow_pos 10 eq_refl k). Qed.
Lemma p10_plus i j : 10 ^ (i + j) == 10 ^ i * 10 ^ j. Proof. exact (pow_plus 10 eq_refl i j). Qed.
Lemma p10_le i j : (i <= j)%Z -> 10 ^ i <= 10 ^ j. Proof. exact (pow_le 10 eq_refl i j). Qed.
Lemma p10_lt i j : (i < j)%Z -> 10 ^ i < 10 ^ j. Proof. exact (pow_lt 10 eq_refl i j). Qed.
Lemma p10_inv k : 10 ^ k * 10 ^ (- k) == 1. Proof. exact (pow_inv 10 eq_refl k). Qed.
Lemma p10_Z k : (0 <= k)%Z -> 10 ^ k == inject_Z (10 ^ k). Proof. exact (pow_Z 10 k). Qed.
Lemma p2_pos k : 0 < 2 ^ k. Proof. exact (pow_pos 2 eq_refl k). Qed.
Lemma p2_plus i j : 2 ^ (i + j) == 2 ^ i * 2 ^ j. Proof. exact (pow_plus 2 eq_refl i j). Qed.
Lemma p2_le i j : (i <= j)%Z -> 2 ^ i <= 2 ^ j. Proof. exact (pow_le 2 eq_refl i j). Qed.
Lemma p2_lt i j : (i < j)%Z -> 2 ^ i < 2 ^ j. Proof. exact (pow_lt 2 eq_refl i j). Qed.
Lemma p2_inv k : 2 ^ k * 2 ^ (- k) == 1. Proof. exact (pow_inv 2 eq_refl k). Qed.
Lemma p2_Z k : (0 <= k)%Z -> 2 ^ k == inject_Z (2 ^ k). Proof. exact (pow_Z 2 k). Qed.

Lemma frac_magnitude m e : let (a, b) := magnitude m e in (0 < b)%Z /\ frac a b == binary m e.
Proof.
  unfold magnitude, binary, frac. destruct (Z.leb_spec 0 e).
  - split; [lia|]. rewrite inject_Z_mult, <- p2_Z by assumption. change (inject_Z 1) with 1. field.
  - pose proof (Z.pow_pos_nonneg 2 (- e) ltac:(lia) ltac:(lia)). split; [assumption|]. rewrite <- p2_Z by lia.
    pose proof (p2_inv e). pose proof (p2_pos (- e)). apply (Qmult_inj_r _ _ (2 ^ (- e))); [lra|].
    transitivity (inject_Z (Z.of_N m)); [field; lra|]. rewrite <- Qmult_assoc, H1. ring.
Qed.

(** ** Six digits *)
Lemma scale_abs u v s : 0 < s -> Qabs (u * s - v * s) == Qabs (u - v) * s.
Proof.
  intro S. assert (u * s - v * s == (u - v) * s) as -> by ring. rewrite Qabs_Qmult, (Qabs_pos s) by lra. reflexivity.
Qed.
Section Six.
Variables (a b : Z) (A : (0 < a)%Z) (B : (0 < b)%Z).
Let v := frac a b.
Let x0 := log10_floor a b.
Let w := v * 10 ^ (5 - x0).
Let q := let (n, d) := scaled 10 a b (5 - x0) in nearest_even n d.
Lemma w_range : 100000 <= w /\ w < 1000000.
Proof.
  destruct (log10_spec a b A B) as [L H]. fold v x0 in L, H. pose proof (p10_pos (5 - x0)) as P.
  apply (Qmult_le_r _ _ _ P) in L. apply (Qmult_lt_r _ _ _ P) in H. rewrite <- p10_plus in L, H.
  replace (x0 + (5 - x0))%Z with 5%Z in L by lia. replace (x0 + 1 + (5 - x0))%Z with 6%Z in H by lia.
  change (10 ^ 5) with 100000 in L. change (10 ^ 6) with 1000000 in H. now split.
Qed.
Lemma q_near : Qabs (w - inject_Z q) <= 1 # 2 /\ (Qabs (w - inject_Z q) == 1 # 2 -> Z.even q = true).
Proof.
  unfold q, w. pose proof (scaled_spec 10 eq_refl a b (5 - x0) B) as S. destruct (scaled 10 a b (5 - x0)) as [n d].
  destruct S as (D & E & _). fold v in E. change (inject_Z 10 ^ (5 - x0)) with (10 ^ (5 - x0)) in E.
  pose proof (nearest_spec n d D) as N. cbv zeta in N. rewrite E in N. exact N.
Qed.
Lemma q_range : (100000 <= q <= 1000000)%Z.
Proof.
  destruct w_range as [L H]. destruct q_near as [N _]. apply Qabs_Qle_condition in N.
  assert (inject_Z 99999 < inject_Z q) as X by (change (inject_Z 99999) with 99999; lra).
  assert (inject_Z q < inject_Z 1000001) as Y by (change (inject_Z 1000001) with 1000001; lra).
  apply inj_lt_inv in X, Y. lia.
Qed.
Lemma six_eq : six_significant a b = if (q =? 1000000)%Z then (100000, x0 + 1)%Z else (q, x0).
Proof. unfold six_significant, q. fold x0. destruct (scaled 10 a b (5 - x0)). reflexivity. Qed.
Lemma v_w : v == w * 10 ^ (x0 - 5).
Proof.
  unfold w. rewrite <- Qmult_assoc, <- p10_plus. replace (5 - x0 + (x0 - 5))%Z with 0%Z by lia. change (10 ^ 0) with 1. ring.
Qed.
Lemma six_w d x : six d x == inject_Z d * 10 ^ (x - x0) * 10 ^ (x0 - 5).
Proof. unfold six. rewrite <- Qmult_assoc, <- p10_plus. replace (x - x0 + (x0 - 5))%Z with (x - 5)%Z by lia. reflexivity. Qed.
Lemma far_from d x : Qabs (v - six d x) == Qabs (w - inject_Z d * 10 ^ (x - x0)) * 10 ^ (x0 - 5).
Proof. rewrite v_w, six_w. apply scale_abs, p10_pos. Qed.
(** Every other number with six digits is at least as far from [w] as [q]. *)
Lemma q_best d x : six_digits d -> let u := inject_Z d * 10 ^ (x - x0) in ~ u == inject_Z q ->
  Qabs (w - inject_Z q) < Qabs (w - u) \/ Qabs (w - inject_Z q) == Qabs (w - u) /\ Z.even q = true.
Proof.
  intros D u NE. destruct w_range as [L H]. destruct q_near as [N T]. destruct D as [D1 D2].
  assert (100000 <= inject_Z d) as D1' by (apply (inj_le 100000); lia).
  assert (inject_Z d <= 999999) as D2' by (apply (inj_le d 999999); lia).
  assert (G : forall i, i <> q -> 1 # 2 <= Qabs (w - inject_Z i)).
  { intros i I. destruct (Qlt_le_dec (Qabs (w - inject_Z i)) (1 # 2)) as [X|X]; [|assumption].
    exfalso. apply I. symmetry. exact (nearest_Z w q i N X). }
  assert (W : 1 # 2 <= Qabs (w - u) -> Qabs (w - inject_Z q) < Qabs (w - u) \/ Qabs (w - inject_Z q) == Qabs (w - u) /\ Z.even q = true).
  { intro X. destruct (Qlt_le_dec (Qabs (w - inject_Z q)) (Qabs (w - u))) as [Y|Y]; [now left|right].
    assert (Qabs (w - inject_Z q) == 1 # 2) as Z by lra. split; [lra|now apply T]. }
  destruct (Z.lt_trichotomy x x0) as [X|[X|X]].
  - left. assert (u < 100000) as U.
    { unfold u. pose proof (p10_le (x - x0) (-1) ltac:(lia)) as P. change (10 ^ (-1)) with (1 # 10) in P. pose proof (p10_pos (x - x0)). nra. }
    assert (Qabs (w - inject_Z q) <= Qabs (w - 100000)) as Y.
    { destruct (Z.eq_dec 100000 q) as [Q|Q]; [rewrite <- Q; change (inject_Z 100000) with 100000; lra|].
      pose proof (G _ Q) as G1. change (inject_Z 100000) with 100000 in G1. lra. }
    rewrite (Qabs_pos (w - 100000)) in Y by lra. rewrite (Qabs_pos (w - u)) by lra. lra.
  - apply W. assert (u == inject_Z d) as E by (unfold u; rewrite X, Z.sub_diag; change (10 ^ 0) with 1; ring).
    rewrite E. apply G. intro Q. apply NE. rewrite E, Q. reflexivity.
  - assert (1000000 <= u) as U.
    { unfold u. pose proof (p10_le 1 (x - x0) ltac:(lia)) as P. change (10 ^ 1) with 10 in P. nra. }
    destruct (Z.eq_dec 1000000 q) as [Q|Q].
    + left. rewrite <- Q in *. change (inject_Z 1000000) with 1000000 in *. setoid_replace (w - 1000000) with (- (1000000 - w)) by ring.
      setoid_replace (w - u) with (- (u - w)) by ring. rewrite !Qabs_opp, !Qabs_pos by lra. lra.
    + apply W. pose proof (G _ Q) as G1. change (inject_Z 1000000) with 1000000 in G1. setoid_replace (w - 1000000) with (- (1000000 - w)) in G1 by ring.
      setoid_replace (w - u) with (- (u - w)) by ring. rewrite Qabs_opp in G1. rewrite Qabs_pos in G1 by lra. rewrite Qabs_opp, Qabs_pos by lra. lra.
Qed.
Lemma u_unique d x d' x' : six_digits d -> six_digits d' -> inject_Z d * 10 ^ (x - x0) == inject_Z d' * 10 ^ (x' - x0) -> d = d' /\ x = x'.
Proof.
  intros [L H] [L' H'] E.
  assert (G : forall d x d' x', (100000 <= d < 1000000)%Z -> (100000 <= d' < 1000000)%Z -> inject_Z d * 10 ^ (x - x0) == inject_Z d' * 10 ^ (x' - x0) -> (x <= x')%Z).
  { clear. intros d x d' x' D D' E. destruct (Z.le_gt_cases x x') as [|X]; [assumption|exfalso].
    pose proof (p10_le (x' - x0 + 1) (x - x0) ltac:(lia)) as P. rewrite p10_plus in P. change (10 ^ 1) with 10 in P.
    pose proof (p10_pos (x' - x0)).
    assert (100000 <= inject_Z d) by (apply (inj_le 100000); lia). assert (inject_Z d' <= 999999) by (apply (inj_le d' 999999); lia). nra. }
  assert (x = x') as X by (pose proof (G d x d' x' ltac:(lia) ltac:(lia) E); symmetry in E; pose proof (G d' x' d x ltac:(lia) ltac:(lia) E); lia).
  split; [|assumption]. subst x'. pose proof (p10_pos (x - x0)). apply Qmult_inj_r in E; [|lra]. exact (proj1 (inject_Z_injective _ _) E).
Qed.
Lemma six_best : let (d, x) := six_significant a b in best_six v d x /\ Qabs (v * 10 ^ (5 - x) - inject_Z d) <= 1 # 2.
Proof.
  rewrite six_eq. pose proof q_range as R. destruct q_near as [N T]. destruct (Z.eqb_spec q 1000000) as [Q|Q].
  - split.
    + assert (S : six_digits 100000) by (unfold six_digits; lia). split; [assumption|]. intros d' x' D' NE. rewrite !far_from.
      pose proof (p10_pos (x0 - 5)) as P.
      assert (inject_Z 100000 * 10 ^ (x0 + 1 - x0) == inject_Z q) as E.
      { replace (x0 + 1 - x0)%Z with 1%Z by lia. rewrite Q. reflexivity. }
      rewrite E. destruct (q_best d' x' D') as [X|[X Y]].
      * rewrite <- E. intro U. apply u_unique in U; auto. destruct U. subst. now apply NE.
      * left. now apply Qmult_lt_r.
      * right. split; [now rewrite X|reflexivity].
    + assert (v * 10 ^ (5 - (x0 + 1)) == w * (1 # 10)) as ->.
      { unfold w. replace (5 - (x0 + 1))%Z with (5 - x0 + -1)%Z by lia. rewrite p10_plus. change (10 ^ (-1)) with (1 # 10). ring. }
      rewrite Q in N. apply Qabs_Qle_condition in N. apply Qabs_Qle_condition. change (inject_Z 1000000) with 1000000 in N. change (inject_Z 100000) with 100000. lra.
  - split; [|exact N]. assert (S : six_digits q) by (unfold six_digits; lia). split; [assumption|]. intros d' x' D' NE. rewrite !far_from.
    pose proof (p10_pos (x0 - 5)) as P.
    assert (inject_Z q * 10 ^ (x0 - x0) == inject_Z q) as E by (rewrite Z.sub_diag; change (10 ^ 0) with 1; ring).
    rewrite E. destruct (q_best d' x' D') as [X|[X Y]].
    + rewrite <- E. intro U. apply u_unique in U; auto. destruct U. subst. now apply NE.
    + left. now apply Qmult_lt_r.
    + right. split; [now rewrite X|assumption].
Qed.
(** A number close to one with six digits is written with those digits. *)
Lemma six_unique d x : six_digits d -> Qabs (v - six d x) <= six d x * (4 # 10000000) -> six_significant a b = (d, x).
Proof.
  intros [D1 D2] C. set (w' := v * 10 ^ (5 - x)). pose proof (p10_pos (5 - x)) as P.
  assert (six d x * 10 ^ (5 - x) == inject_Z d) as E.
  { unfold six. rewrite <- Qmult_assoc, <- p10_plus. replace (x - 5 + (5 - x))%Z with 0%Z by lia. change (10 ^ 0) with 1. ring. }
  assert (Qabs (w' - inject_Z d) <= inject_Z d * (4 # 10000000)) as C'.
  { rewrite <- E at 1. unfold w'. rewrite scale_abs by assumption. apply (Qmult_le_r _ _ _ P) in C.
    eapply Qle_trans; [exact C|]. rewrite <- E. apply Qle_lteq. right. ring. }
  apply Qabs_Qle_condition in C'.
  assert (100000 <= inject_Z d) as D1' by (apply (inj_le 100000); lia). assert (inject_Z d <= 999999) as D2' by (apply (inj_le d 999999); lia).
  destruct (log10_spec a b A B) as [L H]. fold v x0 in L, H. rewrite six_eq. destruct q_near as [N _].
  assert (EX : forall y, 10 ^ y <= v -> v < 10 ^ (y + 1) -> x0 = y) by (intros y Y1 Y2; exact (exponent_unique 10 eq_refl v x0 y L H Y1 Y2)).
  assert (V : v == w' * 10 ^ (x - 5)).
  { unfold w'. rewrite <- Qmult_assoc, <- p10_plus. replace (5 - x + (x - 5))%Z with 0%Z by lia. change (10 ^ 0) with 1. ring. }
  pose proof (p10_pos (x - 5)) as P'.
  destruct (Qlt_le_dec w' 100000) as [W|W].
  - assert (d = 100000%Z) as ->.
    { assert (inject_Z d < inject_Z 100001) as X by (change (inject_Z 100001) with 100001; lra). apply inj_lt_inv in X. lia. }
    change (inject_Z 100000) with 100000 in *.
    assert (X : x0 = (x - 1)%Z).
    { apply EX; rewrite V.
      - replace (x - 1)%Z with (4 + (x - 5))%Z by lia. rewrite p10_plus. change (10 ^ 4) with 10000. nra.
      - replace (x - 1 + 1)%Z with (5 + (x - 5))%Z by lia. rewrite p10_plus. change (10 ^ 5) with 100000. nra. }
    assert (w == 10 * w') as WW.
    { unfold w, w'. rewrite X. replace (5 - (x - 1))%Z with (1 + (5 - x))%Z by lia. rewrite p10_plus. change (10 ^ 1) with 10. ring. }
    assert (q = 1000000%Z) as ->.
    { apply (nearest_Z w); [assumption|]. rewrite WW. change (inject_Z 1000000) with 1000000. apply Qabs_Qlt_condition. lra. }
    rewrite X. replace (x - 1 + 1)%Z with x by lia. reflexivity.
  - assert (X : x0 = x).
    { apply EX; rewrite V.
      - replace x with (5 + (x - 5))%Z at 1 by lia. rewrite p10_plus. change (10 ^ 5) with 100000. nra.
      - replace (x + 1)%Z with (6 + (x - 5))%Z by lia. rewrite p10_plus. change (10 ^ 6) with 1000000. nra. }
    assert (q = d) as ->.
    { apply (nearest_Z w); [assumption|]. unfold w. rewrite X. fold w'. apply Qabs_Qlt_condition. lra. }
    destruct (Z.eqb_spec d 1000000); [lia|]. now rewrite X.
Qed.
End Six.

(** ** A binary significand *)
(** The error is at most half a unit in the last place: relative for numbers with [p] bits, absolute below. *)
Lemma round_spec p emin a b : (0 < p)%Z -> (0 < a)%Z -> (0 < b)%Z -> let (m, e) := round_binary p emin a b in
  let v := frac a b in (0 <= m < 2 ^ p)%Z /\ (emin <= e)%Z /\
  (Qabs (v - inject_Z m * 2 ^ e) <= v * 2 ^ (- p) \/ Qabs (v - inject_Z m * 2 ^ e) <= 2 ^ (emin - 1)).
Proof.
  intros P0 A B. unfold round_binary. set (e := Z.max (log2_floor a b - (p - 1)) emin).
  pose proof (scaled_spec 2 eq_refl a b (- e) B) as S. destruct (scaled 2 a b (- e)) as [n d]. destruct S as (D & E & Pn). specialize (Pn A).
  change (inject_Z 2 ^ (- e)) with (2 ^ (- e)) in E. pose proof (nearest_spec n d D) as N. cbv zeta in N. destruct N as [N _].
  set (q := nearest_even n d) in *. pose proof (p2_pos e) as P. pose proof (p2_inv e) as I.
  assert (V : frac a b == frac n d * 2 ^ e). { rewrite E, <- Qmult_assoc, (Qmult_comm (2 ^ (- e))), I. ring. }
  assert (Q0 : (0 <= q)%Z). { pose proof (nearest_rounds n d D) as [R _]. fold q in R. nia. }
  assert (Q1 : (q <= 2 ^ p)%Z).
  { destruct (log2_spec a b A B) as [_ H]. assert (frac n d < 2 ^ p) as Y.
    { apply (Qmult_lt_r _ _ (2 ^ e) P). rewrite <- V, <- p2_plus. eapply Qlt_le_trans; [exact H|]. apply p2_le. lia. }
    rewrite p2_Z in Y by lia. apply Qabs_Qle_condition in N.
    assert (inject_Z q < inject_Z (2 ^ p + 1)) as Z by (rewrite inject_Z_plus; change (inject_Z 1) with 1; lra). apply inj_lt_inv in Z. lia. }
  assert (C : Qabs (frac a b - inject_Z q * 2 ^ e) <= frac a b * 2 ^ (- p) \/ Qabs (frac a b - inject_Z q * 2 ^ e) <= 2 ^ (emin - 1)).
  { assert (Qabs (frac a b - inject_Z q * 2 ^ e) <= 2 ^ (e - 1)) as Y.
    { rewrite V, scale_abs by assumption. replace (e - 1)%Z with (-1 + e)%Z by lia. rewrite p2_plus. change (2 ^ (-1)) with (1 # 2).
      now apply Qmult_le_r. }
    destruct (Z.le_gt_cases emin (log2_floor a b - (p - 1))) as [X|X].
    - left. destruct (log2_spec a b A B) as [L _]. eapply Qle_trans; [exact Y|].
      replace (e - 1)%Z with (log2_floor a b + - p)%Z by lia. rewrite p2_plus. apply Qmult_le_r; [apply p2_pos|assumption].
    - right. replace (emin - 1)%Z with (e - 1)%Z by lia. assumption. }
  destruct (Z.eqb_spec q (2 ^ p)) as [Q|Q].
  - pose proof (Z.pow_pos_nonneg 2 (p - 1) ltac:(lia) ltac:(lia)).
    assert (2 ^ p = 2 * 2 ^ (p - 1))%Z as T by (rewrite <- Z.pow_succ_r by lia; f_equal; lia).
    split; [lia|]. split; [lia|]. cbv zeta.
    assert (inject_Z (2 ^ (p - 1)) * 2 ^ (e + 1) == inject_Z q * 2 ^ e) as ->; [|assumption].
    rewrite Q, T, inject_Z_mult, p2_plus. change (2 ^ 1) with 2. change (inject_Z 2) with 2. ring.
  - split; [lia|]. split; [lia|]. assumption.
Qed.
