(** Reading any decimal number: what [stod_float] makes of a text is what SpecFloatRead.v says. *)
From Coq Require Import List NArith ZArith QArith Qabs Qpower Qfield Lqa Lia Bool.
From Verif Require Import SpecInt SpecStr SpecStrUtil HexProofs Dec DecProofs Double DoubleProps JsonData StrUtil JsonParse FloatText SpecFloatText SpecFloatRead
  FloatQ FloatTextProofs FloatRead.
Import ListNotations.
Local Open Scope Q_scope.

(** ** Rounding *)
Section Round.
Variables p emin : Z.
Hypothesis P : (2 <= p)%Z.
Lemma half : (2 ^ p = 2 * 2 ^ (p - 1))%Z. Proof. rewrite <- Z.pow_succ_r by lia. f_equal. lia. Qed.
Lemma half_even : Z.even (2 ^ (p - 1)) = true.
Proof. replace (p - 1)%Z with (Z.succ (p - 2))%Z by lia. rewrite Z.pow_succ_r by lia. now rewrite Z.even_mul. Qed.
Lemma half_pos : (0 < 2 ^ (p - 1))%Z. Proof. apply Z.pow_pos_nonneg; lia. Qed.

(** In units of 2^e *)
Lemma in_units m' e' e : scaled2 m' e' == inject_Z m' * 2 ^ (e' - e) * 2 ^ e.
Proof. unfold scaled2. rewrite <- Qmult_assoc, <- p2_plus. replace (e' - e + e)%Z with e' by lia. reflexivity. Qed.
Lemma whole_units m' e' e : (e <= e')%Z -> inject_Z m' * 2 ^ (e' - e) == inject_Z (m' * 2 ^ (e' - e)).
Proof. intros H. rewrite inject_Z_mult, p2_Z by lia. reflexivity. Qed.
(** Numbers with a smaller exponent are below all normal numbers with exponent e. *)
Lemma below_units m' e' e : (m' < 2 ^ p)%Z -> (e' < e)%Z -> (0 <= m')%Z -> inject_Z m' * 2 ^ (e' - e) < inject_Z (2 ^ (p - 1)).
Proof.
  intros M E M0. pose proof half as H. assert (2 ^ (e' - e) <= 1 # 2) as B by (change (1 # 2) with (2 ^ (-1)); apply p2_le; lia).
  pose proof (p2_pos (e' - e)) as B0. apply inj_lt in M. rewrite H in M. rewrite inject_Z_mult in M. change (inject_Z 2) with 2 in M.
  apply (inj_le 0) in M0. change (inject_Z 0) with 0 in M0. nra.
Qed.
Lemma normal_unique m e m' e' : normal p emin m e -> normal p emin m' e' -> scaled2 m e == scaled2 m' e' -> m = m' /\ e = e'.
Proof.
  assert (G : forall m e m' e', normal p emin m e -> normal p emin m' e' -> scaled2 m e == scaled2 m' e' -> (e' <= e)%Z).
  { clear m e m' e'. intros m e m' e' (A1 & A2 & A3) (B1 & B2 & B3) E. destruct (Z.le_gt_cases e' e) as [|L]; [assumption|exfalso].
    rewrite (in_units m e e') in E. unfold scaled2 in E. apply Qmult_inj_r in E; [|pose proof (p2_pos e'); lra].
    pose proof (below_units m e e' ltac:(lia) L ltac:(lia)) as Y. rewrite E in Y. apply inj_lt_inv in Y. lia. }
  intros A B E. assert (e = e') as <- by (apply Z.le_antisymm; eapply G; try eassumption; symmetry; assumption).
  split; [|reflexivity]. unfold scaled2 in E. apply Qmult_inj_r in E; [|pose proof (p2_pos e); lra]. now apply inject_Z_injective.
Qed.

Lemma nearest_other w q k : Qabs (w - inject_Z q) <= 1 # 2 -> (Qabs (w - inject_Z q) == 1 # 2 -> Z.even q = true) -> k <> q ->
  Qabs (w - inject_Z q) < Qabs (w - inject_Z k) \/ Qabs (w - inject_Z q) == Qabs (w - inject_Z k) /\ Z.even q = true.
Proof.
  intros N T NE. destruct (Qlt_le_dec (Qabs (w - inject_Z q)) (Qabs (w - inject_Z k))) as [|L]; [now left|right].
  assert (D : 1 <= Qabs (w - inject_Z q) + Qabs (w - inject_Z k)).
  { apply Qle_trans with (Qabs (inject_Z q - inject_Z k)).
    - unfold Qminus. rewrite <- inject_Z_opp, <- inject_Z_plus. change (Qabs (inject_Z (q + - k))) with (inject_Z (Z.abs (q + - k))). apply (inj_le 1). lia.
    - assert (inject_Z q - inject_Z k == (inject_Z q - w) + (w - inject_Z k)) as -> by ring. eapply Qle_trans; [apply Qabs_triangle|].
      rewrite (Qabs_Qminus (inject_Z q) w). apply Qle_refl. }
  assert (E : Qabs (w - inject_Z q) == 1 # 2) by lra. split; [lra|now apply T].
Qed.

Lemma round_rounded a b : (0 < a)%Z -> (0 < b)%Z -> let (m, e) := round_binary p emin a b in rounded p emin (frac a b) m e.
Proof.
  intros A B. pose proof half as HF. pose proof half_pos as HP. pose proof half_even as HE.
  unfold round_binary. set (e := Z.max (log2_floor a b - (p - 1)) emin).
  pose proof (scaled_spec 2 eq_refl a b (- e) B) as S. destruct (scaled 2 a b (- e)) as [n d]. destruct S as (D & E & Pn). specialize (Pn A).
  change (inject_Z 2 ^ (- e)) with (2 ^ (- e)) in E. pose proof (nearest_spec n d D) as N. cbv zeta in N. destruct N as [N T].
  set (q := nearest_even n d) in *. pose proof (p2_pos e) as P0. pose proof (p2_inv e) as I.
  assert (V : frac a b == frac n d * 2 ^ e). { rewrite E, <- Qmult_assoc, (Qmult_comm (2 ^ (- e))), I. ring. }
  set (w := frac n d) in *. destruct (log2_spec a b A B) as [LL LH].
  assert (Q0 : (0 <= q)%Z). { pose proof (nearest_rounds n d D) as [R _]. fold q in R. nia. }
  clearbody w q. assert (N' := N). apply Qabs_Qle_condition in N'.
  assert (Q1 : (q <= 2 ^ p)%Z).
  { assert (w < 2 ^ p) as Y.
    { apply (Qmult_lt_r _ _ (2 ^ e) P0). rewrite <- V, <- p2_plus. eapply Qlt_le_trans; [exact LH|]. apply p2_le. lia. }
    rewrite p2_Z in Y by lia.
    assert (inject_Z q < inject_Z (2 ^ p + 1)) as Z by (rewrite inject_Z_plus; change (inject_Z 1) with 1; lra). apply inj_lt_inv in Z. lia. }
  assert (W : (emin < e)%Z -> inject_Z (2 ^ (p - 1)) <= w).
  { intros X. rewrite <- p2_Z by lia. apply (Qmult_le_r _ _ (2 ^ e) P0). rewrite <- V, <- p2_plus. eapply Qle_trans; [|exact LL]. apply p2_le. lia. }
  assert (Q2 : (emin < e)%Z -> (2 ^ (p - 1) <= q)%Z).
  { intros X. specialize (W X). assert (inject_Z (2 ^ (p - 1) - 1) < inject_Z q) as Z by (replace (2 ^ (p - 1) - 1)%Z with (2 ^ (p - 1) + -1)%Z by lia; rewrite inject_Z_plus; change (inject_Z (-1)) with (-1); lra).
    apply inj_lt_inv in Z. lia. }
  (* every other number is farther *)
  assert (F : forall m' e', normal p emin m' e' -> ~ scaled2 m' e' == scaled2 q e ->
    Qabs (frac a b - scaled2 q e) < Qabs (frac a b - scaled2 m' e') \/ Qabs (frac a b - scaled2 q e) == Qabs (frac a b - scaled2 m' e') /\ Z.even q = true).
  { intros m' e' (M1 & M2 & M3) NE. rewrite (in_units m' e' e) in *. unfold scaled2 in *. rewrite V, !scale_abs by assumption.
    assert (G : Qabs (w - inject_Z q) < Qabs (w - inject_Z m' * 2 ^ (e' - e)) \/ Qabs (w - inject_Z q) == Qabs (w - inject_Z m' * 2 ^ (e' - e)) /\ Z.even q = true).
    { destruct (Z.le_gt_cases e e') as [X|X].
      - rewrite (whole_units m' e' e X) in *. apply nearest_other; try assumption. intros Y. apply NE. now rewrite Y.
      - pose proof (below_units m' e' e ltac:(lia) X ltac:(lia)) as Y. specialize (W ltac:(lia)). left.
        assert (Z : Qabs (w - inject_Z q) <= Qabs (w - inject_Z (2 ^ (p - 1)))).
        { destruct (Z.eq_dec (2 ^ (p - 1)) q) as [->|NQ]; [apply Qle_refl|]. destruct (nearest_other w q _ N T NQ) as [L|[L _]]; lra. }
        eapply Qle_lt_trans; [exact Z|]. rewrite !Qabs_pos by lra. lra. }
    destruct G as [G|[G Ev]]; [left|right]; [now apply Qmult_lt_r|]. split; [now rewrite G|assumption]. }
  destruct (Z.eqb_spec q (2 ^ p)) as [Q|Q].
  - assert (Nn : normal p emin (2 ^ (p - 1)) (e + 1)) by (unfold normal; lia). split; [exact Nn|]. intros m' e' Nm NE.
    assert (X : scaled2 (2 ^ (p - 1)) (e + 1) == scaled2 q e).
    { unfold scaled2. rewrite Q, HF, p2_plus, inject_Z_mult. change (2 ^ 1) with 2. change (inject_Z 2) with 2. ring. }
    rewrite X. destruct (F m' e' Nm) as [L|[L _]]; [|now left|right; now split].
    rewrite <- X. intros Y. destruct (normal_unique _ _ _ _ Nm Nn Y) as [-> ->]. now apply NE.
  - assert (Nn : normal p emin q e). { unfold normal. split; [lia|]. split; [lia|]. destruct (Z.eq_dec e emin); [now left|right]. apply Q2. lia. }
    split; [exact Nn|]. intros m' e' Nm NE. apply F; [exact Nm|]. intros Y. destruct (normal_unique _ _ _ _ Nm Nn Y) as [-> ->]. now apply NE.
Qed.

Lemma rounded_unique u v m e m' e' : u == v -> rounded p emin u m e -> rounded p emin v m' e' -> m = m' /\ e = e'.
Proof.
  intros UV. assert (G : forall m e m' e', rounded p emin u m e -> rounded p emin v m' e' -> scaled2 m e < scaled2 m' e' -> False).
  { clear m e m' e'. intros m e m' e' [A C] [A' C'] L.
    assert (NE : (m', e') <> (m, e)) by (intros [= -> ->]; lra).
    assert (X : Qabs (u - scaled2 m e) == Qabs (u - scaled2 m' e') /\ Z.even m = true /\ Z.even m' = true).
    { specialize (C m' e' A' NE). specialize (C' m e A (not_eq_sym NE)). rewrite <- UV in C'.
      destruct C as [C|[C E1]], C' as [C'|[C' E2]]; try lra. auto. }
    destruct X as (X & E1 & E2).
    assert (M : u - scaled2 m e == scaled2 m' e' - u).
    { revert X. apply (Qabs_case (u - scaled2 m e)); intros ?; apply (Qabs_case (u - scaled2 m' e')); intros ? ?; lra. }
    pose proof half as HF. destruct A as (A1 & A2 & A3). destruct A' as (B1 & B2 & B3).
    assert (A4 : (m + 1 < 2 ^ p)%Z).
    { destruct (Z.eq_dec (m + 1) (2 ^ p)) as [Y|]; [|lia]. exfalso. assert (Z.even (m + 1) = true) by (rewrite Y, HF, Z.even_mul; reflexivity).
      rewrite Z.even_add, E1 in H. discriminate H. }
    assert (NS : normal p emin (m + 1) e) by (unfold normal; lia).
    pose proof (p2_pos e) as P0. assert (SV : scaled2 (m + 1) e == scaled2 m e + 2 ^ e) by (unfold scaled2; rewrite inject_Z_plus; change (inject_Z 1) with 1; ring).
    assert (D : Qabs (u - scaled2 m e) <= Qabs (u - scaled2 (m + 1) e)).
    { destruct (C (m + 1)%Z e NS) as [Y|[Y _]]; [intros [= Y]; lia|lra..]. }
    assert (NL : scaled2 m' e' <= scaled2 (m + 1) e).
    { destruct (Qlt_le_dec (scaled2 (m + 1) e) (scaled2 m' e')) as [Y|]; [exfalso|assumption]. revert D. rewrite (Qabs_pos (u - scaled2 m e)) by lra.
      apply (Qabs_case (u - scaled2 (m + 1) e)); intros; lra. }
    destruct (Z.le_gt_cases e e') as [Y|Y].
    - rewrite (in_units m' e' e), (whole_units m' e' e Y) in L, NL. unfold scaled2 in L, NL. apply Qmult_lt_r in L; [|assumption]. apply Qmult_le_r in NL; [|assumption].
      apply inj_lt_inv in L. apply inj_le_inv in NL. assert (Z : (m' * 2 ^ (e' - e) = m + 1)%Z) by lia.
      destruct (normal_unique m' e' (m + 1) e) as [-> ->]; [unfold normal; lia|assumption| |].
      { rewrite (in_units m' e' e), (whole_units m' e' e Y), Z. reflexivity. }
      rewrite Z.even_add, E1 in E2. discriminate E2.
    - pose proof (below_units m' e' e ltac:(lia) Y ltac:(lia)) as Z. rewrite (in_units m' e' e) in L. unfold scaled2 in L. apply Qmult_lt_r in L; [|assumption].
      assert (inject_Z (2 ^ (p - 1)) <= inject_Z m) by (apply inj_le; lia). lra. }
  intros R R'. destruct (Q_dec (scaled2 m e) (scaled2 m' e')) as [[L|L]|L].
  - exfalso. eapply (G m e m' e'); eassumption.
  - exfalso. assert (G' : forall m e m' e', rounded p emin v m e -> rounded p emin u m' e' -> scaled2 m e < scaled2 m' e' -> False).
    { intros m0 e0 m1 e1 [A C] [A' C']. apply G; (split; [assumption|]); intros m2 e2 N2 E2; [rewrite UV|rewrite <- UV]; auto. }
    eapply (G' m' e' m e); eassumption.
  - destruct R as [R _], R' as [R' _]. now apply normal_unique.
Qed.
Lemma rounded_Qeq u v m e : u == v -> rounded p emin u m e -> rounded p emin v m e.
Proof. intros E [N C]. split; [exact N|]. intros m' e' Nm NE. rewrite <- E. auto. Qed.
End Round.

(** ** Double and float *)
Lemma magnitude_scaled m e : (0 <= m)%Z -> let (c, d) := magnitude (Z.to_N m) e in (0 < d)%Z /\ frac c d == scaled2 m e /\ (0 <= c)%Z.
Proof.
  intros M. pose proof (frac_magnitude (Z.to_N m) e) as G. assert (C : let (c, d) := magnitude (Z.to_N m) e in (0 <= c)%Z).
  { unfold magnitude. destruct (0 <=? e)%Z eqn:Q; [|lia]. apply Z.leb_le in Q. pose proof (Z.pow_pos_nonneg 2 e ltac:(lia) Q). nia. }
  destruct (magnitude (Z.to_N m) e) as [c d]. destruct G as [D G]. split; [exact D|]. split; [|exact C]. rewrite G. unfold binary, scaled2. now rewrite Z2N.id.
Qed.
Lemma above_test k c d : (0 <= k)%Z -> (0 < d)%Z -> (2 ^ k * d <=? c)%Z = true <-> 2 ^ k <= frac c d.
Proof.
  intros K D. rewrite Z.leb_le. pose proof (inj_pos d D) as D'. pose proof (frac_mul c d D) as F. rewrite p2_Z by assumption. split; intros H.
  - apply frac_ge; [assumption|]. rewrite <- inject_Z_mult. now apply inj_le.
  - apply inj_le_inv. rewrite inject_Z_mult, <- F. apply Qmult_le_r; assumption.
Qed.
Lemma below_test k a b : (0 <= k)%Z -> (0 < b)%Z -> (a * 2 ^ k <? b)%Z = true <-> frac a b < 2 ^ (- k).
Proof.
  intros K B. rewrite Z.ltb_lt. pose proof (inj_pos b B) as B'. pose proof (frac_mul a b B) as F. pose proof (p2_inv k) as I. pose proof (p2_pos k) as P.
  rewrite <- (Qmult_lt_r _ _ (2 ^ k) P), (Qmult_comm (2 ^ (- k))), I, <- (Qmult_lt_r _ _ (inject_Z b) B').
  assert (E : frac a b * 2 ^ k * inject_Z b == inject_Z (a * 2 ^ k)) by (rewrite inject_Z_mult, <- (p2_Z k K), <- F; ring).
  rewrite E, Qmult_1_l. now rewrite <- Zlt_Qlt.
Qed.
Lemma equal_test a b c d : (0 < b)%Z -> (0 < d)%Z -> (a * d =? c * b)%Z = true <-> frac c d == frac a b.
Proof.
  intros B D. rewrite Z.eqb_eq. pose proof (inj_pos b B) as B'. pose proof (inj_pos d D) as D'. unfold frac.
  split; intros H.
  - assert (inject_Z a * inject_Z d == inject_Z c * inject_Z b) as E by (rewrite <- !inject_Z_mult, H; reflexivity).
    apply (Qmult_inj_r _ _ (inject_Z b * inject_Z d)); [intros X; nra|].
    transitivity (inject_Z c * inject_Z b); [field; lra|]. rewrite <- E. field. lra.
  - apply inject_Z_injective. rewrite !inject_Z_mult. transitivity (inject_Z a / inject_Z b * (inject_Z b * inject_Z d)); [field; lra|]. rewrite <- H. field. lra.
Qed.

Lemma narrowed_exact neg c d u v m1 e1 : (0 < c)%Z -> (0 < d)%Z -> frac c d == scaled2 m1 e1 -> u == v -> 0 < v -> rounded 53 (-1074) v m1 e1 -> in_range v m1 e1 ->
  float_value neg v (narrowed neg c d).
Proof.
  intros C D E UV V R I. unfold narrowed. pose proof (round_rounded 24 (-149) ltac:(lia) c d C D) as R2. destruct (round_binary 24 (-149) c d) as [m e].
  apply (rounded_Qeq 24 (-149) _ _ m e E) in R2. assert (M : (0 <= m)%Z) by (destruct R2 as [(? & _) _]; lia).
  pose proof (magnitude_scaled m e M) as G. destruct (magnitude (Z.to_N m) e) as [n d2]. destruct G as (D2 & G & _).
  pose proof (above_test 128 n d2 ltac:(lia) D2) as T. rewrite G in T. destruct (Z.ltb_spec n (2 ^ 128 * d2)) as [L|L].
  - apply (fv_finite _ _ m1 e1 m e); try assumption. destruct (Qlt_le_dec (scaled2 m e) (2 ^ 128)) as [|X]; [assumption|exfalso]. apply T in X. apply Z.leb_le in X. lia.
  - apply (fv_infinite _ _ m1 e1 m e); try assumption. apply T. now apply Z.leb_le.
Qed.

Lemma to_float_exact neg a b v : (0 < a)%Z -> (0 < b)%Z -> frac a b == v -> exists m e, rounded 53 (-1074) v m e /\
  (in_range v m e /\ (exists x, to_float neg a b = Converted x /\ float_value neg v x) \/ ~ in_range v m e /\ to_float neg a b = ConvRange).
Proof.
  intros A B V. unfold to_float. pose proof (round_rounded 53 (-1074) ltac:(lia) a b A B) as R. destruct (round_binary 53 (-1074) a b) as [m e].
  apply (rounded_Qeq 53 (-1074) _ _ m e V) in R. exists m, e. split; [exact R|]. assert (M : (0 <= m)%Z) by (destruct R as [(? & _) _]; lia).
  pose proof (magnitude_scaled m e M) as G. destruct (magnitude (Z.to_N m) e) as [c d]. destruct G as (D & G & C).
  pose proof (above_test 1024 c d ltac:(lia) D) as T1. pose proof (below_test 1022 a b ltac:(lia) B) as T2. pose proof (equal_test a b c d B D) as T3.
  change (- (1022))%Z with (-1022)%Z in T2. rewrite G in T1, T3. rewrite V in T2, T3.
  assert (V0 : 0 < v) by (rewrite <- V; now apply frac_pos).
  assert (IR : (2 ^ 1024 * d <=? c)%Z || ((a * 2 ^ 1022 <? b)%Z && negb (a * d =? c * b)%Z) = false <-> in_range v m e).
  { unfold in_range. destruct (2 ^ 1024 * d <=? c)%Z; cbn [orb].
    - split; [discriminate|]. intros [X _]. pose proof (proj1 T1 eq_refl). lra.
    - assert (H1 : scaled2 m e < 2 ^ 1024). { destruct (Qlt_le_dec (scaled2 m e) (2 ^ 1024)) as [|X]; [assumption|]. apply T1 in X. discriminate X. }
      destruct (a * 2 ^ 1022 <? b)%Z; cbn [andb].
      + destruct (a * d =? c * b)%Z; cbn [negb]; split; intros X; try discriminate X; try reflexivity.
        * split; [exact H1|]. right. now apply T3.
        * destruct X as [_ [X|X]]; [pose proof (proj1 T2 eq_refl); lra|]. apply T3 in X. discriminate X.
      + split; [|reflexivity]. intros _. split; [exact H1|]. left. destruct (Qlt_le_dec v (2 ^ (-1022))) as [X|]; [|assumption]. apply T2 in X. discriminate X. }
  destruct ((2 ^ 1024 * d <=? c)%Z || ((a * 2 ^ 1022 <? b)%Z && negb (a * d =? c * b)%Z)).
  - right. split; [|reflexivity]. intros X. apply IR in X. discriminate X.
  - left. assert (I : in_range v m e) by now apply IR. split; [exact I|]. eexists. split; [reflexivity|].
    assert (C0 : (0 < c)%Z).
    { destruct (Z.eq_dec c 0) as [->|]; [exfalso|lia]. assert (Z0 : scaled2 m e == 0) by (rewrite <- G; unfold frac; change (inject_Z 0) with 0; field; pose proof (inj_pos d D); lra).
      destruct I as [_ [I|I]]; [|rewrite Z0 in I; lra]. destruct R as [_ R].
      assert (N : normal 53 (-1074) (2 ^ 52) (-1074)) by (unfold normal; lia).
      assert (S : scaled2 (2 ^ 52) (-1074) == 2 ^ (-1022)) by reflexivity.
      pose proof (p2_pos (-1022)) as P. destruct (R _ _ N) as [X|[X _]].
      - intros [= <- <-]. rewrite S in Z0. lra.
      - rewrite Z0, S, !Qabs_pos in X by lra. lra.
      - rewrite Z0, S, !Qabs_pos in X by lra. lra. }
    now apply (narrowed_exact neg c d v v m e).
Qed.

(** ** The text *)
Lemma split_digits s : exists ds r, s = ds ++ r /\ Forall ascii_digit ds /\ no_digit r /\ take_digits s = (ds, r).
Proof.
  induction s as [|b s (ds & r & E & F & N & T)]; [exists [], []; repeat split; [constructor|discriminate]|]. cbn [take_digits].
  destruct ((48 <=? b)%N && (b <=? 57)%N) eqn:B.
  - rewrite T. exists (b :: ds), r. rewrite E. repeat split; [|exact N]. constructor; [|exact F]. unfold ascii_digit. apply andb_prop in B as [B1 B2].
    apply N.leb_le in B1, B2. lia.
  - exists [], (b :: s). repeat split; [constructor|]. intros d r' [= <- <-] D. unfold ascii_digit in D.
    apply andb_false_iff in B as [B|B]; apply N.leb_gt in B; lia.
Qed.
Lemma take_digits_no ds r : Forall ascii_digit ds -> no_digit r -> take_digits (ds ++ r) = (ds, r).
Proof. intros F N. apply take_digits_app; [exact F|]. destruct r; [exact I|]. eapply N. reflexivity. Qed.

Definition signs (s : list N) : bool * list N := match s with 45%N :: r => (true, r) | 43%N :: r => (false, r) | _ => (false, s) end.
Lemma signs_cases s : (exists r, s = 45%N :: r /\ signs s = (true, r)) \/ (exists r, s = 43%N :: r /\ signs s = (false, r)) \/
  ((forall r, s <> 45%N :: r) /\ (forall r, s <> 43%N :: r) /\ signs s = (false, s)).
Proof.
  destruct s as [|b r]; [right; right; repeat split; congruence|]. destruct (N.eq_dec b 45) as [->|N1]; [left; now exists r|].
  destruct (N.eq_dec b 43) as [->|N2]; [right; left; now exists r|]. right. right. split; [congruence|]. split; [congruence|]. now apply no_sign.
Qed.
Lemma signs_app sg neg d r : c_sign sg neg -> d <> 45%N -> d <> 43%N -> signs (sg ++ d :: r) = (neg, d :: r).
Proof. intros C N1 N2. destruct C; [now apply no_sign|reflexivity..]. Qed.

Lemma exponent_exact s x : c_exponent s x <-> take_exponent s = x.
Proof.
  assert (F : forall x, c_exponent s x -> take_exponent s = x).
  { intros y [c sg ds r neg C S N F Nr|s' H].
    - destruct ds as [|d ds]; [now elim N|]. assert (D : ascii_digit d) by now inversion F. unfold ascii_digit in D.
      cbn [take_exponent]. replace ((c =? 101)%N || (c =? 69)%N) with true by (destruct C as [-> | ->]; reflexivity).
      fold (signs (sg ++ (d :: ds) ++ r)). cbn [app]. rewrite (signs_app sg neg) by (assumption || lia).
      change (d :: ds ++ r) with ((d :: ds) ++ r). rewrite take_digits_no by assumption. reflexivity.
    - destruct s' as [|c r]; [reflexivity|]. cbn [take_exponent]. destruct ((c =? 101)%N || (c =? 69)%N) eqn:C; [|reflexivity]. fold (signs r).
      assert (C' : c = 101%N \/ c = 69%N) by (apply orb_true_iff in C as [C|C]; apply N.eqb_eq in C; auto).
      assert (K : exists sg neg t, c_sign sg neg /\ r = sg ++ t /\ signs r = (neg, t)).
      { destruct (signs_cases r) as [(t & -> & E)|[(t & -> & E)|(_ & _ & E)]]; [exists [45%N], true, t|exists [43%N], false, t|exists [], false, r]; (split; [constructor|]); split; auto. }
      destruct K as (sg & neg & t & K & Er & ->). destruct (split_digits t) as (ds & u & E & F & Nu & ->). destruct ds as [|d ds]; [destruct neg; reflexivity|].
      exfalso. apply (H c sg neg d (ds ++ u) C' K); [now inversion F|]. now rewrite Er, E. }
  split; [apply F|]. intros <-.
  destruct s as [|c r]; [apply ce_none; intros; discriminate|].
  destruct ((c =? 101)%N || (c =? 69)%N) eqn:C.
  - assert (C' : c = 101%N \/ c = 69%N) by (apply orb_true_iff in C as [C|C]; apply N.eqb_eq in C; auto).
    assert (K : exists sg neg t, c_sign sg neg /\ r = sg ++ t /\ signs r = (neg, t)).
    { destruct (signs_cases r) as [(t & -> & E)|[(t & -> & E)|(_ & _ & E)]]; [exists [45%N], true, t|exists [43%N], false, t|exists [], false, r]; (split; [constructor|]); split; auto. }
    destruct K as (sg & neg & t & K & Er & Es). destruct (split_digits t) as (ds & u & E & Fd & Nu & T).
    cbn [take_exponent]. rewrite C. fold (signs r). rewrite Es, T. destruct ds as [|d ds].
    + replace (if neg then (- number_of [])%Z else number_of []) with 0%Z by (destruct neg; reflexivity).
      cbn [app] in E. subst u. apply ce_none. intros c' sg' neg' d r' _ S' D [= <- Y]. unfold ascii_digit in D.
      assert (Z := Es). rewrite Y in Z. rewrite (signs_app sg' neg') in Z by (assumption || lia). injection Z as _ Z. subst t. now apply (Nu d r').
    + rewrite Er, E. change (number_of (d :: ds)) with (digits_value (d :: ds)). now apply ce_some.
  - cbn [take_exponent]. rewrite C. apply ce_none. intros c' sg' neg' d r' C' _ _ [= <- _]. destruct C' as [-> | ->]; discriminate C.
Qed.

Definition points (s : list N) : list N * list N := match s with 46%N :: r => take_digits r | _ => ([], s) end.
Lemma points_none r : (forall r', r <> 46%N :: r') -> points r = ([], r).
Proof. destruct r as [|b r]; [reflexivity|]. intros H. apply no_point. intros ->. now apply (H r). Qed.
Lemma stod_float_eq s : stod_float s =
  let '(neg, s) := signs (skip_cspace s) in
  let (ip, s) := take_digits s in
  let '(fp, s) := points s in
  match ip ++ fp with
  | [] => ConvInvalid
  | ds => if (number_of ds =? 0)%Z then Converted (Finite neg 0 0)
          else let (a, b) := scaled 10 (number_of ds) 1 (take_exponent s - Z.of_nat (length fp)) in to_float neg a b
  end.
Proof. reflexivity. Qed.

(** What a text is read as *)
Definition read_as (s : list N) (neg : bool) (v : Q) : Prop :=
  v == 0 /\ stod_float s = Converted (Finite neg 0 0) \/
  exists a b, (0 < a)%Z /\ (0 < b)%Z /\ frac a b == v /\ stod_float s = to_float neg a b.
Lemma digits_nonneg ds : Forall ascii_digit ds -> (0 <= digits_value ds)%Z.
Proof. intros F. induction F as [|b ds B F IH]; [cbn; lia|]. rewrite digits_value_cons. unfold ascii_digit in B. pose proof (Z.pow_pos_nonneg 10 (Z.of_nat (length ds))). nia. Qed.
Lemma read_value s neg n k v : (0 <= n)%Z -> v == inject_Z n * 10 ^ k ->
  stod_float s = (if (n =? 0)%Z then Converted (Finite neg 0 0) else let (a, b) := scaled 10 n 1 k in to_float neg a b) -> read_as s neg v.
Proof.
  intros N V E. destruct (Z.eqb_spec n 0) as [->|NZ].
  - left. split; [|exact E]. rewrite V. change (inject_Z 0) with 0. ring.
  - right. pose proof (scaled_spec 10 eq_refl n 1 k ltac:(lia)) as SC. destruct (scaled 10 n 1 k) as [a b]. destruct SC as (B & F & A).
    exists a, b. split; [apply A; lia|]. split; [exact B|]. split; [|exact E]. rewrite F, V. change (inject_Z 10) with 10. unfold frac. change (inject_Z 1) with 1. field.
Qed.
Lemma read_decimal s neg v : c_decimal s neg v -> read_as s neg v.
Proof.
  intros [ws sg i p f r g x u Fw S I Np Pt NE Ex V]. apply exponent_exact in Ex.
  assert (F : Forall ascii_digit f) by (destruct Pt as [(_ & -> & _)|(_ & F & _)]; [constructor|exact F]).
  apply (read_value _ g (digits_value (i ++ f)) (x - Z.of_nat (length f)) u); [apply digits_nonneg, Forall_app; auto|exact V|].
  rewrite stod_float_eq.
  assert (K : exists d t, i ++ p ++ r = d :: t /\ (ascii_digit d \/ d = 46%N)).
  { destruct i as [|d i]; [|exists d, (i ++ p ++ r); split; [reflexivity|]; left; now inversion I].
    destruct Pt as [(-> & -> & _)|(-> & _)]; [now elim NE|]. cbn [app]. eauto. }
  destruct K as (d & t & K & D). assert (Dn : d <> 45%N /\ d <> 43%N) by (unfold ascii_digit in D; destruct D; lia).
  rewrite skip_app; [|exact Fw|].
  2:{ intros b r0 H. rewrite K in H. unfold c_space. unfold ascii_digit in D. destruct S; injection H as <- _; destruct D; lia. }
  rewrite K. rewrite (signs_app sg g) by tauto. rewrite <- K. rewrite take_digits_no by assumption.
  assert (Pp : points (p ++ r) = (f, r)).
  { destruct Pt as [(-> & -> & H)|(-> & _ & H)]; [now apply points_none|]. cbn [app points]. now apply take_digits_no. }
  rewrite Pp. destruct (i ++ f) as [|h l] eqn:E; [now elim NE|]. rewrite Ex. reflexivity.
Qed.
Lemma decimal_or_not s : stod_float s = ConvInvalid \/ exists neg v, c_decimal s neg v.
Proof.
  rewrite stod_float_eq. destruct (skip_split s) as (ws & Fw & E & NS). set (t := skip_cspace s) in *.
  assert (K : exists sg neg t', c_sign sg neg /\ t = sg ++ t' /\ signs t = (neg, t')).
  { destruct (signs_cases t) as [(t' & -> & Et)|[(t' & -> & Et)|(_ & _ & Et)]]; [exists [45%N], true, t'|exists [43%N], false, t'|exists [], false, t]; (split; [constructor|]); split; auto. }
  destruct K as (sg & neg & t' & K & Er & ->). destruct (split_digits t') as (i & u & Ei & Fi & Nu & ->).
  assert (L : exists p f r, u = p ++ r /\ points u = (f, r) /\ (p = [] /\ f = [] /\ (forall r', r <> 46%N :: r') \/ p = 46%N :: f /\ Forall ascii_digit f /\ no_digit r)).
  { destruct u as [|b u]; [exists [], [], []; repeat split; left; repeat split; congruence|]. destruct (N.eq_dec b 46) as [->|NB].
    - destruct (split_digits u) as (f & r & Eu & Ff & Nr & T). exists (46%N :: f), f, r. rewrite Eu at 1. split; [reflexivity|]. cbn [points]. rewrite T. auto.
    - exists [], [], (b :: u). split; [reflexivity|]. split; [apply points_none; congruence|]. left. repeat split. congruence. }
  destruct L as (p & f & r & -> & -> & Pt). destruct (i ++ f) as [|h l] eqn:IF; [now left|right].
  exists neg. eexists. rewrite E, Er, Ei. eapply (c_decimal_text ws sg i p f r neg); try eassumption; [now rewrite IF|now apply exponent_exact|reflexivity].
Qed.

Lemma float_value_det neg u v x y : u == v -> float_value neg u x -> float_value neg v y -> x = y.
Proof.
  intros UV [Z|m1 e1 m e V R I R2 L|m1 e1 m e V R I R2 L] [Z'|m1' e1' m' e' V' R' I' R2' L'|m1' e1' m' e' V' R' I' R2' L']; try reflexivity; try lra;
    destruct (rounded_unique 53 (-1074) ltac:(lia) u v m1 e1 m1' e1' UV R R') as [-> ->];
    destruct (rounded_unique 24 (-149) ltac:(lia) _ _ m e m' e' (Qeq_refl _) R2 R2') as [-> ->]; try reflexivity; lra.
Qed.
Lemma float_value_range neg v x : float_value neg v x -> 0 < v -> exists m e, rounded 53 (-1074) v m e /\ in_range v m e.
Proof. intros [Z|m1 e1 m e V R I R2 L|m1 e1 m e V R I R2 L] H; [lra|eauto..]. Qed.

Theorem stod_exact s x : stod_float s = Converted x <-> exists neg v, c_decimal s neg v /\ float_value neg v x.
Proof.
  split.
  - intros H. destruct (decimal_or_not s) as [E|(neg & v & D)]; [congruence|]. exists neg, v. split; [exact D|].
    destruct (read_decimal s neg v D) as [[Z E]|(a & b & A & B & F & E)].
    + rewrite E in H. injection H as <-. now constructor.
    + destruct (to_float_exact neg a b v A B F) as (m & e & _ & [[_ (y & Y & V)]|[_ Y]]); [|congruence]. assert (x = y) as -> by congruence. exact V.
  - intros (neg & v & D & V). destruct (read_decimal s neg v D) as [[Z E]|(a & b & A & B & F & E)].
    + rewrite E. f_equal. eapply float_value_det; [reflexivity| |exact V]. now constructor.
    + pose proof (frac_pos a b A B) as P. rewrite F in P. destruct (to_float_exact neg a b v A B F) as (m & e & R & [[_ (y & Y & W)]|[I Y]]).
      * rewrite E, Y. f_equal. eapply float_value_det; [reflexivity|exact W|exact V].
      * exfalso. destruct (float_value_range neg v x V P) as (m' & e' & R' & I'). destruct (rounded_unique 53 (-1074) ltac:(lia) v v m e m' e' (Qeq_refl _) R R') as [-> ->]. contradiction.
Qed.
Theorem stod_refused s : (stod_float s = ConvInvalid <-> forall neg v, ~ c_decimal s neg v) /\
  (stod_float s = ConvRange <-> exists neg v m e, c_decimal s neg v /\ 0 < v /\ rounded 53 (-1074) v m e /\ ~ in_range v m e).
Proof.
  split; split.
  - intros H neg v D. destruct (read_decimal s neg v D) as [[Z E]|(a & b & A & B & F & E)]; [congruence|].
    destruct (to_float_exact neg a b v A B F) as (m & e & _ & [[_ (y & Y & V)]|[_ Y]]); congruence.
  - intros H. destruct (decimal_or_not s) as [E|(neg & v & D)]; [exact E|now elim (H neg v)].
  - intros H. destruct (decimal_or_not s) as [E|(neg & v & D)]; [congruence|]. destruct (read_decimal s neg v D) as [[Z E]|(a & b & A & B & F & E)]; [congruence|].
    pose proof (frac_pos a b A B) as P. rewrite F in P. destruct (to_float_exact neg a b v A B F) as (m & e & R & [[_ (y & Y & V)]|[I Y]]); [congruence|]. exists neg, v, m, e. auto.
  - intros (neg & v & m & e & D & P & R & I). destruct (read_decimal s neg v D) as [[Z E]|(a & b & A & B & F & E)]; [lra|].
    destruct (to_float_exact neg a b v A B F) as (m' & e' & R' & [[I' _]|[_ Y]]); [|congruence].
    destruct (rounded_unique 53 (-1074) ltac:(lia) v v m e m' e' (Qeq_refl _) R R') as [-> ->]. contradiction.
Qed.
