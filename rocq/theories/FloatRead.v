(** The shape of the text of a floating-point number, and reading it. *)
From Coq Require Import List NArith ZArith QArith Qabs Qpower Qfield Lqa Lia Bool.
From Verif Require Import SpecInt SpecStr Dec DecProofs Double DoubleProps JsonData StrUtil JsonParse FloatText SpecFloatText FloatQ FloatTextProofs.
Import ListNotations.
Local Open Scope Q_scope.

(** ** Digits *)
Lemma digits_of_spec k : forall n, (0 <= n < 10 ^ Z.of_nat k)%Z ->
  Forall ascii_digit (digits_of k n) /\ length (digits_of k n) = k /\ digits_value (digits_of k n) = n.
Proof.
  induction k as [|k IH]; intros n R.
  - cbn in R. replace n with 0%Z by lia. repeat split; constructor.
  - cbn [digits_of]. rewrite Nat2Z.inj_succ, Z.pow_succ_r in R by lia.
    pose proof (Z.mod_pos_bound n 10 ltac:(lia)) as M. pose proof (Z.div_mod n 10 ltac:(lia)) as D.
    destruct (IH (n / 10)%Z) as (F & L & V). { split; [apply Z.div_pos; lia|apply Z.div_lt_upper_bound; lia]. }
    split; [|split].
    + apply Forall_app. split; [assumption|]. constructor; [|constructor]. unfold ascii_digit. lia.
    + rewrite app_length, L. cbn. lia.
    + rewrite digits_value_app, V. cbn [length]. unfold digits_value. cbn [fold_left]. rewrite Z2N.id by lia. change (10 ^ Z.of_nat 1)%Z with 10%Z. lia.
Qed.
Lemma strip_spec l : exists j, l = strip_zeros l ++ repeat 48%N j.
Proof.
  induction l as [|b r [j IH]]; [now exists O|]. cbn [strip_zeros]. destruct (strip_zeros r) as [|c s] eqn:E.
  - destruct (N.eqb_spec b 48) as [->|]; [exists (S j); cbn in IH |- *; now rewrite IH at 1|]. exists j. cbn in IH |- *. now rewrite IH at 1.
  - exists j. rewrite IH at 1. reflexivity.
Qed.
Lemma strip_last l : strip_zeros l <> [] -> last (strip_zeros l) 48%N <> 48%N.
Proof.
  induction l as [|b r IH]; intro H; [now elim H|]. cbn [strip_zeros] in *. destruct (strip_zeros r) as [|c s] eqn:E.
  - destruct (N.eqb_spec b 48) as [->|]; [now elim H|]. assumption.
  - change (last (c :: s) 48%N <> 48%N). apply IH. discriminate.
Qed.
Lemma value_zeros j : digits_value (repeat 48%N j) = 0%Z.
Proof. induction j as [|j IH]; [reflexivity|]. cbn [repeat]. rewrite digits_value_cons, IH. lia. Qed.
Lemma p10_nat k : inject_Z (10 ^ Z.of_nat k) == 10 ^ Z.of_nat k. Proof. symmetry. apply p10_Z. lia. Qed.
Lemma frac_strip f : inject_Z (digits_value f) / 10 ^ Z.of_nat (length f) ==
  inject_Z (digits_value (strip_zeros f)) / 10 ^ Z.of_nat (length (strip_zeros f)).
Proof.
  destruct (strip_spec f) as [j E]. rewrite E at 1 2. rewrite digits_value_app, value_zeros, app_length, repeat_length, Z.add_0_r.
  rewrite inject_Z_mult, p10_nat, Nat2Z.inj_add, p10_plus. pose proof (p10_pos (Z.of_nat j)). pose proof (p10_pos (Z.of_nat (length (strip_zeros f)))).
  field. split; lra.
Qed.
Lemma dec_digits i : (0 <= i)%Z -> dec_of_Z i <> [] /\ Forall ascii_digit (dec_of_Z i) /\ (dec_of_Z i = [48%N] \/ hd 0%N (dec_of_Z i) <> 48%N) /\
  digits_value (dec_of_Z i) = i.
Proof.
  intro P. pose proof (dec_of_Z_canonical i) as C. remember (dec_of_Z i) as t eqn:T. clear T. destruct C as [|ds d r -> E2 E3|ds d r -> E2 E3].
  - split; [discriminate|]. split; [constructor; [unfold ascii_digit; lia|constructor]|]. split; [now left|reflexivity].
  - split; [discriminate|]. split; [assumption|]. split; [now right|reflexivity].
  - pose proof (digits_value_lead d r E3 E2). pose proof (Z.pow_pos_nonneg 10 (Z.of_nat (length r)) ltac:(lia) ltac:(lia)). lia.
Qed.
Lemma decimal_spec i f : (0 <= i)%Z -> Forall ascii_digit f ->
  decimal_text (decimal i f) (inject_Z i + inject_Z (digits_value f) / 10 ^ Z.of_nat (length f)).
Proof.
  intros I F. destruct (dec_digits i I) as (N & D & L & V). unfold decimal. exists (dec_of_Z i), (strip_zeros f).
  split; [assumption|]. split; [assumption|]. split; [assumption|]. split.
  { destruct (strip_spec f) as [j E]. rewrite E in F. now apply Forall_app in F. }
  split; [|rewrite V, frac_strip; reflexivity].
  destruct (strip_zeros f) eqn:E; [left; split; [reflexivity|apply app_nil_r]|right]. split; [|reflexivity]. rewrite <- E. apply strip_last. congruence.
Qed.
Lemma decimal_Qeq t u v : u == v -> decimal_text t u -> decimal_text t v.
Proof. intros E (i & f & H1 & H2 & H3 & H4 & H5 & H6). exists i, f. rewrite <- E. auto 8. Qed.

(** ** The text *)
Definition sgn (neg : bool) : list N := if neg then [45%N] else [].
Lemma plain_shape a b d x : six_significant a b = (d, x) -> six_digits d -> (-4 <= x < 6)%Z -> decimal_text (g_text a b) (six d x).
Proof.
  intros E D X. unfold g_text. rewrite E.
  replace ((-4 <=? x)%Z && (x <? 6)%Z) with true by (symmetry; rewrite andb_true_iff, Z.leb_le, Z.ltb_lt; lia).
  set (k := (5 - x)%Z). pose proof (Z.pow_pos_nonneg 10 k ltac:(lia) ltac:(lia)) as P.
  pose proof (Z.mod_pos_bound d (10 ^ k) P) as M. unfold six_digits in D.
  destruct (digits_of_spec (Z.to_nat k) (d mod 10 ^ k)) as (F & L & V); [rewrite Z2Nat.id by lia; assumption|].
  eapply decimal_Qeq; [|apply decimal_spec; [apply Z.div_pos; lia|exact F]].
  rewrite V, L, Z2Nat.id by lia. unfold six. replace (x - 5)%Z with (- k)%Z by lia.
  rewrite (Z.div_mod d (10 ^ k)) at 3 by lia. rewrite inject_Z_plus, inject_Z_mult, <- p10_Z by lia.
  pose proof (p10_inv k) as I. pose proof (p10_pos k). rewrite Qpower_opp. field. lra.
Qed.
Lemma exponent_shape a b d x : six_significant a b = (d, x) -> six_digits d -> ~ (-4 <= x < 6)%Z -> exponent_text (g_text a b) d x.
Proof.
  intros E D X. unfold g_text. rewrite E.
  replace ((-4 <=? x)%Z && (x <? 6)%Z) with false by (symmetry; rewrite andb_false_iff, Z.leb_gt, Z.ltb_ge; lia).
  pose proof (Z.mod_pos_bound d (10 ^ 5) ltac:(lia)) as M. unfold six_digits in D.
  destruct (digits_of_spec 5 (d mod 10 ^ 5)) as (F & L & V); [assumption|].
  eexists _, _, _. split; [reflexivity|]. split.
  { eapply decimal_Qeq; [|apply decimal_spec; [apply Z.div_pos; lia|exact F]]. rewrite V, L.
    rewrite (Z.div_mod d (10 ^ 5)) at 3 by lia. rewrite inject_Z_plus, inject_Z_mult. change (10 ^ Z.of_nat 5) with 100000.
    change (inject_Z (10 ^ 5)) with 100000. change (inject_Z 100000) with 100000. field. }
  split. { destruct (Z.ltb_spec x 0); [left|right]; auto. }
  destruct (dec_digits (Z.abs x) ltac:(lia)) as (N & G & H & W).
  assert (C : (length (dec_of_Z (Z.abs x)) = 1%nat /\ Z.abs x < 10 \/ (1 < length (dec_of_Z (Z.abs x)))%nat /\ 10 <= Z.abs x)%Z).
  { pose proof (digit_count_spec (Z.abs x) ltac:(lia)) as [Y1 Y2]. unfold digit_count in *. set (l := length (dec_of_Z (Z.abs x))) in *.
    destruct (Nat.eq_dec l 1) as [->|]; [left; cbn in Y1; lia|right]. split; [lia|].
    pose proof (Z.pow_le_mono_r 10 1 (Z.of_nat l - 1) ltac:(lia) ltac:(lia)). lia. }
  destruct C as [[C1 C2]|[C1 C2]].
  - replace (Z.abs x <? 10)%Z with true by (symmetry; apply Z.ltb_lt; lia). cbn [app].
    split; [constructor; [unfold ascii_digit; lia|assumption]|]. split; [rewrite digits_value_cons, W; lia|]. left. cbn [length]. now rewrite C1.
  - replace (Z.abs x <? 10)%Z with false by (symmetry; apply Z.ltb_ge; lia). cbn [app]. split; [assumption|]. split; [assumption|].
    destruct (Nat.eq_dec (length (dec_of_Z (Z.abs x))) 2) as [|]; [now left|right]. split; [lia|]. destruct H as [H|H]; [rewrite H in C1; cbn in C1; lia|assumption].
Qed.

(** ** Reading *)
Lemma take_digits_app ds r : Forall ascii_digit ds -> match r with [] => True | b :: _ => ~ ascii_digit b end -> take_digits (ds ++ r) = (ds, r).
Proof.
  intros F R. induction F as [|b ds B F IH]; cbn [app take_digits].
  - destruct r as [|b r]; [reflexivity|]. cbn [take_digits]. unfold ascii_digit in R.
    destruct (N.leb_spec 48 b), (N.leb_spec b 57); cbn [andb]; try reflexivity. lia.
  - unfold ascii_digit in B. destruct (N.leb_spec 48 b), (N.leb_spec b 57); cbn [andb]; try lia. now rewrite IH.
Qed.
Lemma skip_digit b r : ascii_digit b -> skip_cspace (b :: r) = b :: r.
Proof.
  intro D. cbn [skip_cspace]. replace (c_isspace b) with false; [reflexivity|]. symmetry. unfold c_isspace. unfold ascii_digit in D.
  repeat match goal with |- context [(?x =? ?y)%N] => destruct (N.eqb_spec x y); [lia|] end.
  repeat match goal with |- context [(?x <=? ?y)%N] => destruct (N.leb_spec x y); try lia end; reflexivity.
Qed.
(** [stod_float] after the sign *)
Definition stod_rest (neg : bool) (s : list N) : conversion dbl :=
  let (ip, s) := take_digits s in
  let '(fp, s) := match s with 46%N :: r => take_digits r | _ => ([], s) end in
  match ip ++ fp with
  | [] => ConvInvalid
  | ds =>
      let n := number_of ds in
      if (n =? 0)%Z then Converted (Finite neg 0 0)
      else let (a, b) := scaled 10 n 1 (take_exponent s - Z.of_nat (length fp)) in to_float neg a b
  end.
Lemma no_sign b r : (b <> 45 -> b <> 43 -> match b :: r with 45 :: r' => (true, r') | 43 :: r' => (false, r') | _ => (false, b :: r) end = (false, b :: r))%N.
Proof.
  intros N1 N2. destruct b as [|p]; [reflexivity|].
  do 6 (destruct p as [p|p|]; try reflexivity); (now elim N1) || (now elim N2).
Qed.
Lemma no_point (b : N) r : b <> 46%N -> match b :: r with 46%N :: r' => take_digits r' | _ => ([], b :: r) end = ([], b :: r).
Proof. intros N1. destruct b as [|p]; [reflexivity|]. do 6 (destruct p as [p|p|]; try reflexivity). now elim N1. Qed.
Lemma stod_signed neg b r : ascii_digit b -> stod_float (sgn neg ++ b :: r) = stod_rest neg (b :: r).
Proof.
  intro D. unfold stod_float. destruct neg; cbn [sgn app]; [reflexivity|].
  rewrite skip_digit by assumption. cbv zeta. unfold ascii_digit in D. rewrite no_sign by lia. reflexivity.
Qed.
Lemma stod_digits neg i f t e : i <> [] -> Forall ascii_digit i -> Forall ascii_digit f -> (f = [] /\ t = i \/ f <> [] /\ t = i ++ 46%N :: f) ->
  digits_value (i ++ f) <> 0%Z -> match e with [] => True | b :: _ => ~ ascii_digit b /\ b <> 46%N end ->
  stod_float (sgn neg ++ t ++ e) =
  let (a, b) := scaled 10 (digits_value (i ++ f)) 1 (take_exponent e - Z.of_nat (length f)) in to_float neg a b.
Proof.
  intros NI I F T NZ E. destruct i as [|c i]; [now elim NI|]. clear NI.
  assert (C : ascii_digit c) by (now inversion I).
  assert (E0 : match e with [] => True | b :: _ => ~ ascii_digit b end) by (destruct e; tauto).
  assert (X : stod_float (sgn neg ++ t ++ e) = stod_rest neg (t ++ e)).
  { destruct T as [[_ ->]|[_ ->]]; cbn [app]; now apply stod_signed. }
  rewrite X. unfold stod_rest. clear X. change (number_of ((c :: i) ++ f)) with (digits_value ((c :: i) ++ f)).
  assert (NN : exists h r, (c :: i) ++ f = h :: r) by (eexists _, _; reflexivity).
  destruct T as [[-> ->]|[NF ->]].
  - rewrite take_digits_app by assumption.
    assert (X : (match e with 46%N :: r => take_digits r | _ => ([], e) end) = ([], e)).
    { destruct e as [|b e]; [reflexivity|]. apply no_point. tauto. }
    rewrite X. rewrite app_nil_r in *. change (number_of (c :: i)) with (digits_value (c :: i)).
    destruct (Z.eqb_spec (digits_value (c :: i)) 0); [contradiction|reflexivity].
  - rewrite <- app_assoc. rewrite take_digits_app; [|assumption|cbn; unfold ascii_digit; lia]. cbn [app].
    rewrite take_digits_app by assumption. change (number_of (c :: i ++ f)) with (digits_value (c :: i ++ f)).
    cbn [app] in NZ. destruct (Z.eqb_spec (digits_value (c :: i ++ f)) 0); [contradiction|reflexivity].
Qed.
Lemma take_exponent_digits s ds x : (x < 0)%Z /\ s = 45%N \/ (0 <= x)%Z /\ s = 43%N -> Forall ascii_digit ds -> digits_value ds = Z.abs x ->
  take_exponent (101%N :: s :: ds) = x.
Proof.
  intros S D V. unfold take_exponent. cbn [N.eqb Pos.eqb orb].
  assert (T : take_digits ds = (ds, [])) by (rewrite <- (app_nil_r ds) at 1; now apply take_digits_app).
  destruct S as [[X ->]|[X ->]]; rewrite T; change (number_of ds) with (digits_value ds); rewrite V; lia.
Qed.
Lemma stod_exponent neg t d x : exponent_text t d x -> six_digits d ->
  exists a b, (0 < a)%Z /\ (0 < b)%Z /\ frac a b == six d x /\ stod_float (sgn neg ++ t) = to_float neg a b.
Proof.
  intros (u & s & ds & -> & (i & f & NI & I & L & F & T & V) & S & D & W & _) SD.
  assert (D0 : 100000 <= inject_Z d) by (apply (inj_le 100000); unfold six_digits in SD; lia).
  pose proof (p10_pos (Z.of_nat (length f))) as P.
  assert (N : inject_Z (digits_value (i ++ f)) == inject_Z d / 100000 * 10 ^ Z.of_nat (length f)).
  { change (inject_Z 100000) with 100000 in V. rewrite V, digits_value_app, inject_Z_plus, inject_Z_mult, p10_nat. field. lra. }
  assert (N0 : (0 < digits_value (i ++ f))%Z).
  { apply inj_lt_inv. rewrite N. change (inject_Z 0) with 0. change (inject_Z d / 100000) with (inject_Z d * (1 # 100000)). nra. }
  pose proof (scaled_spec 10 eq_refl (digits_value (i ++ f)) 1 (take_exponent (101%N :: s :: ds) - Z.of_nat (length f)) ltac:(lia)) as SC.
  rewrite (stod_digits neg i f u (101%N :: s :: ds)); [|assumption|assumption|assumption| |lia|unfold ascii_digit; lia].
  2: { destruct T as [[-> ->]|[T ->]]; [now left|right]. split; [|reflexivity]. intros ->. now elim T. }
  rewrite (take_exponent_digits s ds x) in * by assumption. destruct (scaled _ _ _ _) as [a b]. destruct SC as (B & E & A).
  exists a, b. split; [now apply A|]. split; [assumption|]. split; [|reflexivity]. rewrite E. change (inject_Z 10) with 10.
  unfold frac. rewrite N. change (inject_Z 1) with 1. unfold six. replace (x - Z.of_nat (length f))%Z with ((x - 5) + (5 - Z.of_nat (length f)))%Z by lia.
  rewrite (p10_plus (x - 5)). unfold Zminus at 2. rewrite (p10_plus 5), Qpower_opp. change (10 ^ 5) with 100000. field. lra.
Qed.
Lemma to_float_spec neg a b : (0 < a)%Z -> (0 < b)%Z -> let v := frac a b in 2 ^ (-127) <= v -> v <= six 340282 38 ->
  exists m e, to_float neg a b = Converted (Finite neg m e) /\ (m < 2 ^ 24)%N /\ (-149 <= e)%Z /\ binary m e < 2 ^ 128 /\
  Qabs (binary m e - v) <= v * (4 # 10000000).
Proof.
  intros A B v L H. unfold to_float. pose proof (round_spec 53 (-1074) a b ltac:(lia) A B) as R. destruct (round_binary 53 (-1074) a b) as [m1 e1].
  destruct R as (M1 & E1 & R). fold v in R. pose proof (frac_magnitude (Z.to_N m1) e1) as G. destruct (magnitude (Z.to_N m1) e1) as [c d].
  destruct G as [D G]. unfold binary in G. rewrite Z2N.id in G by lia. set (y1 := frac c d) in *. rewrite <- G in R.
  assert (R1 : Qabs (v - y1) <= v * 2 ^ (-53)).
  { destruct R as [R|R]; [exact R|]. eapply Qle_trans; [exact R|]. eapply Qle_trans; [apply (p2_le (-1074 - 1) (-127 + -53)); lia|].
    rewrite p2_plus. apply Qmult_le_r; [apply p2_pos|assumption]. }
  change (2 ^ (-53)) with (1 # 9007199254740992) in R1. apply Qabs_Qle_condition in R1. pose proof (p2_pos (-127)) as P127.
  assert (Y0 : 0 < y1) by lra. assert (C0 : (0 < c)%Z).
  { apply inj_lt_inv. rewrite <- (frac_mul c d D). fold y1. apply inj_pos in D. change (inject_Z 0) with 0. nra. }
  assert (H' : v <= 340282 * 10 ^ 33) by exact H. clear H.
  assert (BIG : 340282 * 10 ^ 33 * (1 + (3 # 10000000)) < 2 ^ 128) by reflexivity.
  replace (2 ^ 1024 * d <=? c)%Z with false.
  2: { symmetry. apply Z.leb_gt. apply inj_lt_inv. rewrite inject_Z_mult. rewrite <- (frac_mul c d D). fold y1. apply Qmult_lt_r; [now apply inj_pos|].
       rewrite <- p2_Z by lia. pose proof (p2_le 128 1024 ltac:(lia)). lra. }
  replace (a * 2 ^ 1022 <? b)%Z with false.
  2: { symmetry. apply Z.ltb_ge. apply inj_le_inv. rewrite inject_Z_mult. rewrite <- p2_Z by lia. rewrite <- (frac_mul a b B). fold v.
       pose proof (inj_pos b B) as B'. pose proof (p2_inv 1022) as I. pose proof (p2_le (-1022) (-127) ltac:(lia)). pose proof (p2_pos 1022).
       change (- (1022))%Z with (-1022)%Z in I. nra. }
  cbn [orb andb]. unfold narrowed. pose proof (round_spec 24 (-149) c d ltac:(lia) C0 D) as R'. destruct (round_binary 24 (-149) c d) as [m e].
  destruct R' as (M & E & R'). fold y1 in R'. pose proof (frac_magnitude (Z.to_N m) e) as G'. destruct (magnitude (Z.to_N m) e) as [c' d'].
  destruct G' as [D' G']. set (y := binary (Z.to_N m) e) in *.
  assert (Y : inject_Z m * 2 ^ e == y) by (unfold y, binary; rewrite Z2N.id by lia; reflexivity). rewrite Y in R'.
  assert (R2 : Qabs (y1 - y) <= y1 * 2 ^ (-22)).
  { destruct R' as [R'|R']; [eapply Qle_trans; [exact R'|]; apply Qmult_le_l; [assumption|]; apply p2_le; lia|].
    eapply Qle_trans; [exact R'|]. change (-149 - 1)%Z with (-128 + -22)%Z. rewrite p2_plus. apply Qmult_le_r; [apply p2_pos|].
    change (-127)%Z with (-128 + 1)%Z in L. rewrite p2_plus in L. change (2 ^ 1) with 2 in L. lra. }
  change (2 ^ (-22)) with (1 # 4194304) in R2. apply Qabs_Qle_condition in R2.
  assert (YB : y < 2 ^ 128) by lra.
  replace (c' <? 2 ^ 128 * d')%Z with true.
  2: { symmetry. apply Z.ltb_lt. apply inj_lt_inv. rewrite inject_Z_mult. rewrite <- (frac_mul c' d' D'), <- p2_Z by lia. apply Qmult_lt_r; [now apply inj_pos|].
       rewrite G'. assumption. }
  exists (Z.to_N m), e. split; [reflexivity|]. split; [lia|]. split; [assumption|]. split; [exact YB|].
  fold y. apply Qabs_Qle_condition. lra.
Qed.
