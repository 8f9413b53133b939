(** Proofs about decimal printing (Dec.v) and numerals (SpecInt.v). *)
From Coq Require Import List NArith ZArith Bool Lia ZifyBool ZifyN ZifyNat.
From Verif Require Import Dec SpecInt.
Import ListNotations.
Local Open Scope N_scope.

Ltac Zify.zify_post_hook ::= Z.div_mod_to_equations.

Lemma digits_value_acc ds : forall acc,
  fold_left (fun acc b => 10 * acc + (Z.of_N b - 48))%Z ds acc =
  (acc * 10 ^ Z.of_nat (length ds) + digits_value ds)%Z.
Proof.
  unfold digits_value. induction ds as [|d ds IH]; intros acc.
  - cbn [fold_left length]. change (Z.of_nat 0) with 0%Z. rewrite Z.pow_0_r. lia.
  - cbn [fold_left length]. rewrite IH, (IH (10 * 0 + _)%Z). rewrite Nat2Z.inj_succ, Z.pow_succ_r by lia. lia.
Qed.

Lemma digits_value_nil : digits_value [] = 0%Z.
Proof. reflexivity. Qed.

Lemma digits_value_cons d ds :
  digits_value (d :: ds) = ((Z.of_N d - 48) * 10 ^ Z.of_nat (length ds) + digits_value ds)%Z.
Proof. unfold digits_value at 1. cbn [fold_left]. rewrite digits_value_acc. lia. Qed.

Lemma digits_value_app a b :
  digits_value (a ++ b) = (digits_value a * 10 ^ Z.of_nat (length b) + digits_value b)%Z.
Proof. unfold digits_value at 1. rewrite fold_left_app, digits_value_acc. reflexivity. Qed.

Lemma digits_value_bound ds : Forall ascii_digit ds -> (0 <= digits_value ds < 10 ^ Z.of_nat (length ds))%Z.
Proof.
  induction 1 as [|d ds H _ IH].
  - rewrite digits_value_nil. cbn. lia.
  - rewrite digits_value_cons. cbn [length]. rewrite Nat2Z.inj_succ, Z.pow_succ_r by lia.
    unfold ascii_digit in H. nia.
Qed.

Lemma digits_value_lead d ds : Forall ascii_digit (d :: ds) -> d <> 48 ->
  (10 ^ Z.of_nat (length ds) <= digits_value (d :: ds))%Z.
Proof.
  intros H Hd. inversion H; subst. rewrite digits_value_cons.
  pose proof (digits_value_bound ds H3). unfold ascii_digit in H2. nia.
Qed.

Lemma dec_loop_spec fuel : forall n acc, (N.size_nat n < fuel)%nat ->
  exists ds, dec_loop fuel n acc = ds ++ acc /\ Forall ascii_digit ds /\ ds <> [] /\
    digits_value ds = Z.of_N n /\ (n <> 0 -> hd 48 ds <> 48) /\ (n = 0 -> ds = [48]).
Proof.
  induction fuel as [|f IH]; intros n acc Hf; [lia|].
  cbn [dec_loop]. destruct (n <? 10) eqn:E.
  - exists [48 + n mod 10]. replace (n mod 10) with n by lia. split; [reflexivity|].
    split; [constructor; [unfold ascii_digit; lia|constructor]|]. split; [discriminate|].
    split; [unfold digits_value; cbn [fold_left]; lia|]. split; [cbn [hd]; lia|]. intros ->. reflexivity.
  - destruct (IH (n / 10) ((48 + n mod 10) :: acc)) as (ds & E1 & F & Nn & V & L & _).
    { clear IH. assert (Hn : n <> 0) by lia. assert (Hq : n / 10 <> 0) by lia.
      assert (N.size (n / 10) < N.size n).
      { rewrite !N.size_log2 by assumption. apply -> N.succ_lt_mono.
        apply N.log2_lt_pow2; [lia|].
        pose proof (N.log2_spec n ltac:(lia)) as [H1 H2].
        assert (n / 10 < 2 ^ N.log2 n); [|lia].
        rewrite N.pow_succ_r' in H2. lia. }
      assert (forall m, N.size m = N.of_nat (N.size_nat m)) as Hs.
      { intros [|p]; [reflexivity|]. cbn. induction p; cbn; rewrite ?IHp; lia. }
      rewrite !Hs in H. lia. }
    exists (ds ++ [48 + n mod 10]). rewrite E1, <- app_assoc. split; [reflexivity|].
    split; [apply Forall_app; split; [assumption|constructor; [unfold ascii_digit; lia|constructor]]|].
    split; [destruct ds; discriminate|].
    split.
    { rewrite digits_value_app, V. cbn [length]. unfold digits_value. cbn [fold_left]. lia. }
    split; [|intros ->; discriminate].
    intros _. destruct ds as [|d ds]; [congruence|]. cbn [hd app]. apply L. lia.
Qed.

Lemma dec_of_N_spec n : Forall ascii_digit (dec_of_N n) /\ dec_of_N n <> [] /\
  digits_value (dec_of_N n) = Z.of_N n /\ (n <> 0 -> hd 48 (dec_of_N n) <> 48) /\ (n = 0 -> dec_of_N n = [48]).
Proof.
  unfold dec_of_N. destruct (dec_loop_spec (S (N.size_nat n)) n [] ltac:(lia)) as (ds & E & H).
  rewrite app_nil_r in E. rewrite E. exact H.
Qed.

Lemma dec_of_Z_canonical z : canonical_numeral (dec_of_Z z) z.
Proof.
  unfold dec_of_Z. destruct (z <? 0)%Z eqn:E.
  - destruct (dec_of_N_spec (Z.to_N (- z))) as (F & Nn & V & L & _).
    specialize (L ltac:(lia)). destruct (dec_of_N (Z.to_N (- z))) as [|d ds] eqn:Ed; [congruence|].
    cbn [hd] in L. replace z with (- digits_value (d :: ds))%Z by lia. now eapply can_neg.
  - destruct (dec_of_N_spec (Z.to_N z)) as (F & Nn & V & L & Z0).
    destruct (N.eq_dec (Z.to_N z) 0) as [E0|E0].
    + rewrite (Z0 E0). replace z with 0%Z by lia. constructor.
    + specialize (L E0). destruct (dec_of_N (Z.to_N z)) as [|d ds] eqn:Ed; [congruence|].
      cbn [hd] in L. replace z with (digits_value (d :: ds))%Z by lia. now eapply can_pos.
Qed.

Lemma canonical_is_numeral t z : canonical_numeral t z -> int_numeral t z.
Proof.
  intros [|ds d r -> Hd F|ds d r -> Hd F].
  - apply (num_plain [48]); [discriminate|]. constructor; [unfold ascii_digit; lia|constructor].
  - apply num_plain; [discriminate|assumption].
  - apply num_minus; [discriminate|assumption].
Qed.

Lemma ascii_digit_not_sign b ds : Forall ascii_digit (b :: ds) -> b <> 45 /\ b <> 43.
Proof. inversion 1; subst. unfold ascii_digit in *. lia. Qed.

(** A numeral denotes one number. *)
Lemma int_numeral_fun t z z' : int_numeral t z -> int_numeral t z' -> z = z'.
Proof.
  intros H H'. inversion H as [ds N1 F1 E1|ds N1 F1 E1|ds N1 F1 E1]; subst;
    inversion H' as [ds' N2 F2 E2|ds' N2 F2 E2|ds' N2 F2 E2]; subst; try reflexivity;
    try (apply ascii_digit_not_sign in F1; lia); try (apply ascii_digit_not_sign in F2; lia).
Qed.

(** A number has one canonical numeral. *)
Lemma lead_digits_inj ds : forall ds', Forall ascii_digit ds -> Forall ascii_digit ds' ->
  length ds = length ds' -> digits_value ds = digits_value ds' -> ds = ds'.
Proof.
  induction ds as [|d ds IH]; intros [|d' ds'] F F' L V; try discriminate; [reflexivity|].
  injection L as L. inversion F; subst. inversion F'; subst.
  rewrite !digits_value_cons, <- L in V.
  pose proof (digits_value_bound _ H2). pose proof (digits_value_bound _ H4). rewrite <- L in H0.
  unfold ascii_digit in *.
  assert (d = d').
  { set (p := (10 ^ Z.of_nat (length ds))%Z) in *. assert (0 < p)%Z by (apply Z.pow_pos_nonneg; lia).
    assert (Z.of_N d = Z.of_N d')%Z by nia. lia. }
  subst. f_equal. apply IH; auto. lia.
Qed.

Lemma lead_length d ds d' ds' : Forall ascii_digit (d :: ds) -> Forall ascii_digit (d' :: ds') ->
  d <> 48 -> d' <> 48 -> digits_value (d :: ds) = digits_value (d' :: ds') -> length ds = length ds'.
Proof.
  intros F F' Hd Hd' V.
  pose proof (digits_value_lead _ _ F Hd). pose proof (digits_value_lead _ _ F' Hd').
  pose proof (digits_value_bound _ F). pose proof (digits_value_bound _ F').
  cbn [length] in *. 
  destruct (Nat.lt_trichotomy (length ds) (length ds')) as [L|[L|L]]; [|assumption|].
  - pose proof (Z.pow_le_mono_r 10 (Z.of_nat (S (length ds))) (Z.of_nat (length ds')) ltac:(lia) ltac:(lia)). lia.
  - pose proof (Z.pow_le_mono_r 10 (Z.of_nat (S (length ds'))) (Z.of_nat (length ds)) ltac:(lia) ltac:(lia)). lia.
Qed.

Lemma canonical_numeral_inj t t' z : canonical_numeral t z -> canonical_numeral t' z -> t = t'.
Proof.
  intros H H'. inversion H as [|ds d r E Hd F|ds d r E Hd F]; subst; inversion H' as [|ds' d' r' E' Hd' F' V|ds' d' r' E' Hd' F' V]; subst; try reflexivity;
  repeat match goal with
  | F : Forall ascii_digit (?d :: ?r), Hd : ?d <> 48 |- _ =>
      pose proof (digits_value_lead _ _ F Hd);
      assert (0 < 10 ^ Z.of_nat (length r))%Z by (apply Z.pow_pos_nonneg; lia); revert F
  end; intros; try lia.
  - apply lead_digits_inj; try assumption; [|now symmetry]. cbn [length]. f_equal. now apply lead_length with d d'.
  - f_equal. apply lead_digits_inj; try assumption; [|lia]. cbn [length]. f_equal. apply lead_length with d d'; try assumption; lia.
Qed.
