(** Saving and loading floating-point numbers in JSON documents. *)
From Coq Require Import String List NArith ZArith QArith Qabs Qpower Qfield Lqa Lia Bool.
From Verif Require Import Outcome CharModel StrModel SpecInt SpecStr SpecUtf8 SpecChar SpecJson SpecJsonText Dec DecProofs Double DoubleProps JsonData StrUtil JsonParse
  JsonDataProofs JsonParseProofs JsonGrammar JsonPrintProofs FloatText SpecFloatText SpecFloatJson FloatQ FloatTextProofs FloatRead.
Import ListNotations.
Local Open Scope list_scope.
Local Open Scope Q_scope.

(** ** The notation that is chosen *)
Lemma best_le v d x d' x' : best_six v d x -> six_digits d' -> Qabs (v - six d x) <= Qabs (v - six d' x').
Proof.
  intros [_ B] D. destruct (Z.eq_dec d' d) as [->|N]; [destruct (Z.eq_dec x' x) as [->|N]; [lra|]|].
  - destruct (B d x' D) as [H|[H _]]; [congruence|lra|lra].
  - destruct (B d' x' D) as [H|[H _]]; [congruence|lra|lra].
Qed.
Lemma six_bounds d x : six_digits d -> 10 ^ x <= six d x /\ six d x <= 999999 * 10 ^ (x - 5).
Proof.
  intros [L H]. assert (100000 <= inject_Z d) by (apply (inj_le 100000); lia). assert (inject_Z d <= 999999) by (apply (inj_le d 999999); lia).
  pose proof (p10_pos (x - 5)) as P. unfold six. split; [|nra].
  replace x with (5 + (x - 5))%Z at 1 by lia. rewrite p10_plus. change (10 ^ 5) with 100000. nra.
Qed.
Lemma above_range v d x : best_six v d x -> v < 9999995 # 10 -> (x < 6)%Z.
Proof.
  intros B V. destruct (Z.lt_ge_cases x 6) as [|X]; [assumption|exfalso].
  pose proof (best_le v d x 999999 5 B ltac:(unfold six_digits; lia)) as L. change (six 999999 5) with 999999 in L.
  destruct (six_bounds d x (proj1 B)) as [G _]. pose proof (p10_le 6 x X) as P. change (10 ^ 6) with 1000000 in P.
  rewrite (Qabs_neg (v - six d x)) in L by lra. revert L. apply Qabs_case; intros; lra.
Qed.
Lemma below_range v d x : best_six v d x -> v < 9999995 # 100000000000 -> (x < -4)%Z.
Proof.
  intros B V. destruct (Z.lt_ge_cases x (-4)) as [|X]; [assumption|exfalso].
  pose proof (best_le v d x 999999 (-5) B ltac:(unfold six_digits; lia)) as L. change (six 999999 (-5)) with (999999 # 10000000000) in L.
  destruct (six_bounds d x (proj1 B)) as [G _]. pose proof (p10_le (-4) x X) as P. change (10 ^ (-4)) with (1 # 10000) in P.
  rewrite (Qabs_neg (v - six d x)) in L by lra. revert L. apply Qabs_case; intros; lra.
Qed.
Lemma six_top d x y : six_digits d -> (x <= y)%Z -> six d x <= six 999999 y /\ (six d x == six 999999 y -> (d, x) = (999999, y)%Z).
Proof.
  intros D X. destruct (six_bounds d x D) as [L H]. change (six 999999 y) with (999999 * 10 ^ (y - 5)). pose proof (p10_pos (y - 5)) as P. pose proof (p10_pos (x - 5)) as P'.
  destruct (Z.eq_dec x y) as [->|N].
  - split; [lra|]. intro E. unfold six in E. apply Qmult_inj_r in E; [|lra]. change 999999 with (inject_Z 999999) in E. apply (proj1 (inject_Z_injective _ _)) in E. now subst.
  - pose proof (p10_le (x - 5 + 1) (y - 5) ltac:(lia)) as Q. rewrite p10_plus in Q. change (10 ^ 1) with 10 in Q. split; [lra|]. intro E. lra.
Qed.
Lemma from_million v d x : best_six v d x -> 9999995 # 10 <= v -> (6 <= x)%Z.
Proof.
  intros B V. destruct (Z.le_gt_cases 6 x) as [|X]; [assumption|exfalso].
  destruct (six_top d x 5 (proj1 B) ltac:(lia)) as [T1 T2]. change (six 999999 5) with 999999 in *.
  destruct (proj2 B 100000%Z 6%Z ltac:(unfold six_digits; lia)) as [L|[L E]]; [intros [= <- <-]; lia| |]; change (six 100000 6) with 1000000 in L;
    rewrite (Qabs_pos (v - six d x)) in L by lra; revert L; apply Qabs_case; intros C L; try lra.
  assert (six d x == 999999) as S by lra. apply T2 in S. injection S as -> ->. discriminate E.
Qed.
Lemma from_tenthousandth v d x : best_six v d x -> 9999995 # 100000000000 <= v -> (-4 <= x)%Z.
Proof.
  intros B V. destruct (Z.le_gt_cases (-4) x) as [|X]; [assumption|exfalso].
  destruct (six_top d x (-5) (proj1 B) ltac:(lia)) as [T1 T2]. change (six 999999 (-5)) with (999999 # 10000000000) in *.
  destruct (proj2 B 100000%Z (-4)%Z ltac:(unfold six_digits; lia)) as [L|[L E]]; [intros [= <- <-]; lia| |]; change (six 100000 (-4)) with (100000 # 1000000000) in L;
    rewrite (Qabs_pos (v - six d x)) in L by lra; revert L; apply Qabs_case; intros C L; try lra.
  assert (six d x == 999999 # 10000000000) as S by lra. apply T2 in S. injection S as -> ->. discriminate E.
Qed.
(** An exponent is written exactly from 999999.5 and below 0.00009999995. *)
Lemma notation_chosen v d x : best_six v d x -> (with_exponent v <-> ~ (-4 <= x < 6)%Z).
Proof.
  intro B. unfold with_exponent. split.
  - intros [V|V]; [pose proof (below_range v d x B V)|pose proof (from_million v d x B V)]; lia.
  - intro X. destruct (Qlt_le_dec v (9999995 # 100000000000)) as [V|V]; [now left|right].
    destruct (Qlt_le_dec v (9999995 # 10)) as [W|W]; [|assumption].
    pose proof (from_tenthousandth v d x B V). pose proof (above_range v d x B W). lia.
Qed.
Lemma best_Qeq u v d x : u == v -> best_six u d x -> best_six v d x.
Proof. intros E [D B]. split; [assumption|]. intros d' x' D' N. destruct (B d' x' D' N) as [H|[H K]]; rewrite E in H; [left|right]; auto. Qed.

(** ** The text of a number that is not zero *)
Lemma text_of neg m e : m <> 0%N -> exists d x t, best_six (binary m e) d x /\ float_to_stream (Finite neg m e) = sgn neg ++ t /\
  ((-4 <= x < 6)%Z /\ decimal_text t (six d x) \/ ~ (-4 <= x < 6)%Z /\ exponent_text t d x) /\
  Qabs (binary m e * 10 ^ (5 - x) - inject_Z d) <= 1 # 2 /\ exists a b, frac a b == binary m e /\ six_significant a b = (d, x) /\ t = g_text a b.
Proof.
  intro M. cbn [float_to_stream]. destruct (N.eqb_spec m 0); [contradiction|]. pose proof (frac_magnitude m e) as G.
  assert (A : let (a, b) := magnitude m e in (0 < a)%Z).
  { unfold magnitude. destruct (0 <=? e)%Z eqn:E; [|lia]. apply Z.leb_le in E. pose proof (Z.pow_pos_nonneg 2 e ltac:(lia) E). nia. }
  destruct (magnitude m e) as [a b]. destruct G as [B G]. pose proof (six_best a b A B) as S. destruct (six_significant a b) as [d x] eqn:E.
  destruct S as [S1 S2]. exists d, x, (g_text a b). split; [now apply (best_Qeq (frac a b))|]. split; [reflexivity|]. split; [|split; [now rewrite <- G|]].
  - destruct (Z.le_gt_cases (-4) x); [destruct (Z.lt_ge_cases x 6)|].
    + left. split; [lia|]. apply plain_shape; [assumption|apply S1|lia].
    + right. split; [lia|]. apply exponent_shape; [assumption|apply S1|lia].
    + right. split; [lia|]. apply exponent_shape; [assumption|apply S1|lia].
  - exists a, b. auto.
Qed.

(** ** Reading back *)
Lemma float_max m e : float32 m e -> binary m e <= inject_Z (2 ^ 24 - 1) * 2 ^ 104.
Proof.
  intros (M & E & B). unfold binary in *. destruct (Z.le_gt_cases e 104) as [H|H].
  - pose proof (p2_le e 104 H) as P. pose proof (p2_pos e). assert (inject_Z (Z.of_N m) <= inject_Z (2 ^ 24 - 1)) as I by (apply inj_le; lia).
    assert (0 <= inject_Z (Z.of_N m)) as I0 by (apply (inj_le 0); lia). nra.
  - replace e with (e - 104 + 104)%Z in * by lia. rewrite p2_plus in *. change 128%Z with (24 + 104)%Z in B. rewrite p2_plus in B.
    rewrite Qmult_assoc in *. pose proof (p2_pos 104) as P. apply Qmult_lt_r in B; [|assumption]. apply Qmult_le_r; [assumption|].
    rewrite (p2_Z (e - 104)) in * by lia. rewrite p2_Z in B by lia. rewrite <- inject_Z_mult in *. apply inj_lt_inv in B. apply inj_le. lia.
Qed.
(** Six digits of a float and the float that they are read as *)
Lemma six_near v d x : best_six v d x -> Qabs (v * 10 ^ (5 - x) - inject_Z d) <= 1 # 2 -> Qabs (six d x - v) <= v * (5 # 999995).
Proof.
  intros [[D1 D2] _] N. assert (100000 <= inject_Z d) by (apply (inj_le 100000); lia).
  pose proof (p10_pos (x - 5)) as P.
  assert (V : v == (v * 10 ^ (5 - x)) * 10 ^ (x - 5)).
  { rewrite <- Qmult_assoc, <- p10_plus. replace (5 - x + (x - 5))%Z with 0%Z by lia. change (10 ^ 0) with 1. ring. }
  set (w := v * 10 ^ (5 - x)) in *. unfold six. apply Qabs_Qle_condition in N. rewrite V. rewrite scale_abs by assumption.
  rewrite <- Qmult_assoc, (Qmult_comm (10 ^ (x - 5))), Qmult_assoc. apply Qmult_le_r; [assumption|]. apply Qabs_Qle_condition. lra.
Qed.
Lemma read_back neg m e : float32 m e -> 2 ^ (-126) <= binary m e -> with_exponent (binary m e) ->
  exists m' e', stod_float (float_to_stream (Finite neg m e)) = Converted (Finite neg m' e') /\ float32 m' e' /\
  Qabs (binary m' e' - binary m e) <= binary m e * (6 # 1000000) /\
  float_to_stream (Finite neg m' e') = float_to_stream (Finite neg m e) /\ m' <> 0%N /\ with_exponent (binary m' e').
Proof.
  intros F L W. pose proof (p2_pos (-126)) as P126.
  assert (M : m <> 0%N) by (intros ->; unfold binary in L; change (inject_Z (Z.of_N 0)) with 0 in L; lra).
  destruct (text_of neg m e M) as (d & x & t & B & T & S & N & a & b & Eab & Eq & Et).
  destruct S as [[X _]|[X S]]; [now apply (notation_chosen _ _ _ B) in W|]. rewrite T.
  destruct (stod_exponent neg t d x S (proj1 B)) as (a1 & b1 & A1 & B1 & E1 & ->).
  pose proof (six_near _ _ _ B N) as NR. apply Qabs_Qle_condition in NR. set (v := binary m e) in *.
  assert (LO : 2 ^ (-127) <= frac a1 b1).
  { rewrite E1. change (-126)%Z with (-127 + 1)%Z in L. rewrite p2_plus in L. change (2 ^ 1) with 2 in L. pose proof (p2_pos (-127)). lra. }
  assert (HI : frac a1 b1 <= six 340282 38).
  { rewrite E1. pose proof (float_max m e F) as MX. fold v in MX. destruct (Z.le_gt_cases x 38) as [X1|X1].
    - destruct (Z.eq_dec x 38) as [->|X2].
      + unfold six. change (38 - 5)%Z with 33%Z. apply Qmult_le_r; [apply p10_pos|]. apply inj_le. apply Qabs_Qle_condition in N. change (5 - 38)%Z with (-33)%Z in N.
        assert (v * 10 ^ (-33) <= 340282 + (4 # 10)) as K.
        { eapply Qle_trans; [apply Qmult_le_r; [apply p10_pos|exact MX]|]. vm_compute. discriminate. }
        assert (inject_Z d < inject_Z 340283) as Z by (change (inject_Z 340283) with 340283; lra). apply inj_lt_inv in Z. lia.
      + destruct (six_bounds d x (proj1 B)) as [_ U]. pose proof (p10_le (x - 5) 32 ltac:(lia)) as K.
        assert (999999 * 10 ^ 32 <= six 340282 38) as K2 by (vm_compute; discriminate). lra.
    - exfalso. destruct (six_bounds d x (proj1 B)) as [U _]. pose proof (p10_le 39 x ltac:(lia)) as K.
      assert (inject_Z (2 ^ 24 - 1) * 2 ^ 104 * 2 < 10 ^ 39) as K2 by reflexivity. lra. }
  destruct (to_float_spec neg a1 b1 A1 B1 LO HI) as (m' & e' & -> & M' & E' & B' & C'). rewrite E1 in C'. exists m', e'. split; [reflexivity|].
  split; [now split|]. pose proof C' as C. apply Qabs_Qle_condition in C'. split; [apply Qabs_Qle_condition; lra|].
  rewrite <- T. assert (M2 : m' <> 0%N).
  { intros ->. unfold binary in C'. change (inject_Z (Z.of_N 0)) with 0 in C'. pose proof (p2_pos (-127)). rewrite E1 in LO. lra. }
  cbn [float_to_stream]. destruct (N.eqb_spec m' 0); [contradiction|]. destruct (N.eqb_spec m 0); [contradiction|].
  pose proof (frac_magnitude m' e') as G. assert (A : let (a, b) := magnitude m' e' in (0 < a)%Z).
  { unfold magnitude. destruct (0 <=? e')%Z eqn:Q; [|lia]. apply Z.leb_le in Q. pose proof (Z.pow_pos_nonneg 2 e' ltac:(lia) Q). nia. }
  destruct (magnitude m' e') as [a2 b2]. destruct G as [Bp G].
  assert (six_significant a2 b2 = (d, x)) as E2.
  { apply six_unique; [assumption|assumption|apply B|]. rewrite G. exact C. }
  split; [|split; [assumption|]].
  - f_equal. cbn [float_to_stream] in T. destruct (N.eqb_spec m 0); [contradiction|]. apply app_inv_head in T. rewrite T, Et. unfold g_text. now rewrite Eq, E2.
  - pose proof (six_best a2 b2 A Bp) as S2. rewrite E2 in S2. destruct S2 as [S2 _]. apply (notation_chosen _ d x); [|assumption]. now apply (best_Qeq (frac a2 b2)).
Qed.
(** ** Numbers in documents *)
Lemma digit_num b : ascii_digit b -> lib_num_char (ch b).
Proof. intro D. left. exists (b - 48)%N. rewrite ascii_value by (unfold ascii_digit in D; lia). unfold ascii_digit in D. split; [lia|]. exists 48%N. split; [now left|lia]. Qed.
Lemma digit_begin b : ascii_digit b -> lib_num_start (ch b).
Proof. intro D. left. exists (b - 48)%N. rewrite ascii_value by (unfold ascii_digit in D; lia). unfold ascii_digit in D. split; [lia|]. exists 48%N. split; [now left|lia]. Qed.
(** A digit, an optional sign before it, characters of numbers after it *)
Lemma number_chars neg c t : ascii_digit c -> Forall (fun b => ascii_digit b \/ In b [46; 101; 69; 45; 43]%N) t ->
  exists c' t', chars_of (sgn neg ++ c :: t) = c' :: t' /\ lib_num_start c' /\ Forall lib_num_char (c' :: t') /\ Forall (fun b => b < 128)%N (sgn neg ++ c :: t).
Proof.
  intros C T.
  assert (N : Forall lib_num_char (chars_of (c :: t))).
  { constructor; [now apply digit_num|]. apply Forall_map. eapply Forall_impl; [|exact T]. intros b [B|B]; [now apply digit_num|]. right. cbn in *. intuition (subst; auto 8). }
  assert (A : Forall (fun b => b < 128)%N (c :: t)).
  { constructor; [unfold ascii_digit in C; lia|]. eapply Forall_impl; [|exact T]. intros b [B|B]; [unfold ascii_digit in B; lia|]. cbn in B. intuition (subst; lia). }
  destruct neg; cbn [sgn app]; eexists _, _; (split; [reflexivity|]).
  - split; [right; now left|]. split; [constructor; [right; cbn; auto 6|exact N]|constructor; [lia|exact A]].
  - split; [now apply digit_begin|]. split; [exact N|exact A].
Qed.
Lemma digits_ok ds : Forall ascii_digit ds -> Forall (fun b => ascii_digit b \/ In b [46; 101; 69; 45; 43]%N) ds.
Proof. intro D. eapply Forall_impl; [|exact D]. now left. Qed.
Lemma decimal_chars t v : decimal_text t v -> exists c r, t = c :: r /\ ascii_digit c /\ Forall (fun b => ascii_digit b \/ In b [46; 101; 69; 45; 43]%N) r /\
  ~ In 43%N t /\ ~ In 101%N t /\ ~ In 69%N t.
Proof.
  intros (i & f & N & I & _ & F & T & _). destruct i as [|c i]; [now elim N|].
  assert (K : forall b, In b t -> ascii_digit b \/ b = 46%N).
  { intros b H. rewrite Forall_forall in I, F. destruct T as [[_ ->]|[_ ->]]; [left; now apply I|].
    apply in_app_or in H as [H|[<-|H]]; [left; now apply I|now right|left; now apply F]. }
  assert (X : ~ In 43%N t /\ ~ In 101%N t /\ ~ In 69%N t).
  { repeat split; intro H; apply K in H; unfold ascii_digit in H; lia. }
  inversion I as [|? ? C I']; subst. destruct T as [[_ ->]|[_ ->]].
  - exists c, i. split; [reflexivity|]. split; [assumption|]. split; [now apply digits_ok|exact X].
  - exists c, (i ++ 46%N :: f). split; [reflexivity|]. split; [assumption|]. split; [|exact X]. apply Forall_app. split; [now apply digits_ok|].
    constructor; [right; cbn; auto|now apply digits_ok].
Qed.
Lemma in_chars b t : In (ch b) (chars_of t) -> In b t.
Proof. intro H. apply in_map_iff in H as (x & [= ->] & H). assumption. Qed.
Lemma plain_no_exponent neg t v : decimal_text t v -> ~ has_exponent (chars_of (sgn neg ++ t)).
Proof.
  intro D. destruct (decimal_chars t v D) as (c & r & _ & _ & _ & N1 & N2 & N3). intros [H|[H|H]]; apply in_chars in H; apply in_app_or in H as [H|H]; try contradiction;
    destruct neg; cbn in H; intuition discriminate.
Qed.
Lemma plain_integer neg t v : decimal_text t v -> exists z, (inject_Z z <= v < inject_Z (z + 1)) /\ lib_integer (chars_of (sgn neg ++ t)) (if neg then - z else z)%Z.
Proof.
  intros (i & f & N & I & _ & F & T & V). exists (digits_value i). split.
  - rewrite V, inject_Z_plus. change (inject_Z 1) with 1. pose proof (digits_value_bound f F) as [L H]. pose proof (p10_pos (Z.of_nat (length f))) as P.
    assert (0 <= inject_Z (digits_value f) / 10 ^ Z.of_nat (length f)) by (apply Qle_shift_div_l; [assumption|]; rewrite Qmult_0_l; now apply (inj_le 0)).
    assert (inject_Z (digits_value f) / 10 ^ Z.of_nat (length f) < 1).
    { apply Qlt_shift_div_r; [assumption|]. rewrite Qmult_1_l, <- p10_nat. now apply inj_lt. }
    lra.
  - assert (D : Forall digit_char (chars_of i)) by (apply Forall_map; eapply Forall_impl; [|exact I]; intros b B; now exists b).
    assert (exists r, chars_of t = chars_of i ++ r /\ (forall d r', r = d :: r' -> ~ digit_char d)) as (r & E & R).
    { destruct T as [[_ ->]|[_ ->]]; [exists []; split; [now rewrite app_nil_r|discriminate]|]. exists (chars_of (46%N :: f)). split; [apply map_app|].
      intros d r' [= <- _] (b & [= <-] & B). unfold ascii_digit in B. lia. }
    assert (NI : chars_of i <> []) by (destruct i; [now elim N|discriminate]). unfold chars_of. rewrite map_app. fold (chars_of t). rewrite E.
    assert (VE : digits_value i = digits_value (concat (chars_of i))) by (now rewrite concat_chars). rewrite VE.
    destruct neg; cbn [sgn map app]; [now apply li_neg|now apply li_pos].
Qed.
Lemma exponent_chars neg t d x : exponent_text t d x -> exists c r, chars_of (sgn neg ++ t) = c :: r /\ lib_num_start c /\ Forall lib_num_char (c :: r) /\
  has_exponent (c :: r) /\ Forall (fun b => b < 128)%N (sgn neg ++ t).
Proof.
  intros (u & s & ds & -> & U & S & D & _). destruct (decimal_chars _ _ U) as (c & r & -> & C & R & _). cbn [app].
  destruct (number_chars neg c (r ++ 101%N :: s :: ds) C) as (c' & t' & E & H1 & H2 & H3).
  - apply Forall_app. split; [assumption|]. constructor; [right; cbn; auto|]. constructor; [right; cbn; intuition (subst; auto 8)|now apply digits_ok].
  - exists c', t'. split; [exact E|]. split; [assumption|]. split; [assumption|]. split; [|assumption]. rewrite <- E. right; left.
    apply in_map_iff. exists 101%N. split; [reflexivity|]. apply in_or_app. right. right. apply in_or_app. right. now left.
Qed.
