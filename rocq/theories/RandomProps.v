(** Properties C130, C131: random numbers. *)
From Coq Require Import List NArith ZArith Bool Lia QArith Qpower.
From Verif Require Import Outcome CxxTypes Double DoubleProps Random.
Import ListNotations.
Local Open Scope N_scope.

(** The engine is the one the C++ standard describes: the 10000th word with the default seed is 9981545732273789042
    ([rand.predef]). *)
Example C130_engine : output 5489 (N.to_nat 9999) = 9981545732273789042.
Proof. vm_compute. reflexivity. Qed.

(** ** The words of the engine have 64 bits *)
Definition small (x : N) : Prop := x < two64.
Lemma small_bits x : small x <-> forall i, 64 <= i -> N.testbit x i = false.
Proof.
  unfold small, two64. split.
  - intros H i L. destruct (N.eq_dec x 0) as [->|Z]; [apply N.bits_0|]. apply N.bits_above_log2.
    apply N.log2_lt_pow2 in H; lia.
  - intros H. rewrite <- (N.mod_small_iff x (2 ^ 64)) by discriminate.
    apply N.bits_inj. intros i. destruct (N.lt_ge_cases i 64) as [L|L].
    + now apply N.mod_pow2_bits_low.
    + rewrite N.mod_pow2_bits_high by exact L. symmetry. now apply H.
Qed.
Lemma small_lxor x y : small x -> small y -> small (N.lxor x y).
Proof. rewrite !small_bits. intros A B i L. rewrite N.lxor_spec, A, B by exact L. reflexivity. Qed.
Lemma small_land x y : small x -> small (N.land x y).
Proof. rewrite !small_bits. intros A i L. rewrite N.land_spec, A by exact L. reflexivity. Qed.
Lemma small_shiftr x n : small x -> small (N.shiftr x n).
Proof. rewrite !small_bits. intros A i L. rewrite N.shiftr_spec by lia. apply A. lia. Qed.
Lemma small_mod x : small (x mod two64). Proof. apply N.mod_lt. discriminate. Qed.
Lemma small_temper z : small z -> small (temper z).
Proof.
  intros H. unfold temper. cbv zeta.
  repeat first [exact H | apply small_mod | apply small_lxor | apply small_land | apply small_shiftr].
Qed.
Lemma small_high x : small x -> small (N.shiftl (N.shiftr x 31) 31).
Proof.
  rewrite !small_bits. intros A i L. rewrite N.shiftl_spec_high by lia. rewrite N.shiftr_spec by lia. apply A. lia.
Qed.
Lemma small_twist x y f : small x -> small f -> small (twist x y f).
Proof.
  intros X F. unfold twist. cbv zeta.
  assert (Y : small (N.lxor (N.shiftl (N.shiftr x 31) 31) (N.land y low31))).
  { apply small_lxor; [now apply small_high|]. rewrite N.land_comm. apply small_land. reflexivity. }
  apply small_lxor; [exact F|]. apply small_lxor; [now apply small_shiftr|]. destruct (N.odd _); reflexivity.
Qed.
Lemma small_twist3 xs ys fs : Forall small xs -> Forall small fs -> Forall small (twist3 xs ys fs).
Proof.
  revert ys fs. induction xs as [|x xs IH]; intros [|y ys] [|f fs] X F; cbn; constructor.
  - inversion_clear X. inversion_clear F. now apply small_twist.
  - inversion_clear X. inversion_clear F. now apply IH.
Qed.
Lemma Forall_firstn {A} (P : A -> Prop) n l : Forall P l -> Forall P (firstn n l).
Proof. intros H. rewrite <- (firstn_skipn n l), Forall_app in H. apply H. Qed.
Lemma Forall_skipn {A} (P : A -> Prop) n l : Forall P l -> Forall P (skipn n l).
Proof. intros H. rewrite <- (firstn_skipn n l), Forall_app in H. apply H. Qed.
Lemma small_refill x : Forall small x -> Forall small (refill x).
Proof.
  intros H. unfold refill. cbv zeta.
  assert (L : Forall small (twist3 (firstn 156 x) (tl x) (skipn 156 x))) by (apply small_twist3; [now apply Forall_firstn|now apply Forall_skipn]).
  rewrite Forall_app. split; [exact L|]. apply small_twist3; [now apply Forall_skipn|exact L].
Qed.
Lemma small_block b x : Forall small x -> Forall small (block b x).
Proof. revert x. induction b as [|b IH]; intros x H; cbn [block]; [now apply small_refill|]. now apply IH, small_refill. Qed.
Lemma small_seed n i x : small x -> Forall small (seed_words n i x).
Proof. revert i x. induction n as [|n IH]; intros i x H; cbn [seed_words]; constructor; auto. apply IH, small_mod. Qed.
Lemma small_output s i : small (output s i).
Proof.
  unfold output. apply small_temper. destruct (nth_in_or_default (i mod 312) (block (i / 312) (seeded s)) 0) as [I| ->]; [|reflexivity].
  revert I. apply Forall_forall, small_block, small_seed, small_mod.
Qed.

(** ** Lemire's method *)
Local Open Scope Z_scope.
(** Multiples of r in [k * m + m mod r, (k+1) * m): a run of exactly m / r factors *)
Lemma lemire_run m r k : 0 < r <= m -> 0 <= k < r ->
  exists first, 0 <= first /\ first + m / r <= m /\
    forall w, 0 <= w -> (m mod r <= (w * r) mod m /\ (w * r) / m = k <-> first <= w < first + m / r).
Proof.
  intros R K. pose proof (Z.div_mod m r ltac:(lia)) as D. pose proof (Z.mod_pos_bound m r ltac:(lia)) as B.
  set (t := m mod r) in *. set (q := m / r) in *.
  assert (q1 : 1 <= q) by (unfold q; apply Z.div_le_lower_bound; lia).
  (* first = ceil ((k * m + t) / r) *)
  exists ((k * m + t + r - 1) / r).
  set (f := (k * m + t + r - 1) / r).
  pose proof (Z.div_mod (k * m + t + r - 1) r ltac:(lia)) as Df. pose proof (Z.mod_pos_bound (k * m + t + r - 1) r ltac:(lia)) as Bf. fold f in Df.
  assert (F : k * m + t <= f * r < k * m + t + r) by nia.
  assert (E : (k + 1) * m = k * m + t + q * r) by nia.
  split; [nia|]. split; [nia|]. intros w W.
  pose proof (Z.div_mod (w * r) m ltac:(lia)) as Dw. pose proof (Z.mod_pos_bound (w * r) m ltac:(lia)) as Bw.
  split.
  - intros [A Q]. rewrite Q in Dw. nia.
  - intros [A Q]. assert (X : (w * r) / m = k).
    { symmetry. apply (Z.div_unique_pos _ _ k (w * r - m * k)); nia. }
    split; [|exact X]. rewrite X in Dw. nia.
Qed.

Definition width (min max : Z) : Z := max - min + 1.
Lemma rtype_width t : rmax t - rmin t + 1 = 2 ^ 16 \/ rmax t - rmin t + 1 = 2 ^ 32 \/ rmax t - rmin t + 1 = 2 ^ 64.
Proof. destruct t; cbn; auto. Qed.
Lemma to_type t x : rmin t <= x <= rmax t -> rconv t (Z.of_N (u64 x)) = x.
Proof.
  intros H. unfold rconv, u64. rewrite Z2N.id by (apply Z.mod_pos_bound; reflexivity).
  assert (D : exists c, 2 ^ 64 = c * (rmax t - rmin t + 1)).
  { destruct t; cbn; [exists (2 ^ 48)|exists (2 ^ 48)|exists (2 ^ 32)|exists (2 ^ 32)|exists 1|exists 1]; reflexivity. }
  destruct D as (c & D). pose proof (Z.div_mod x (2 ^ 64) ltac:(discriminate)) as M.
  replace (x mod 2 ^ 64 - rmin t) with (x - rmin t + (- (x / 2 ^ 64) * c) * (rmax t - rmin t + 1))
    by (rewrite <- Z.mul_assoc, <- D; lia).
  rewrite Z.mod_add by lia. rewrite Z.mod_small by lia. lia.
Qed.
Lemma range_of t min max : rmin t <= min -> min <= max -> max <= rmax t ->
  Z.of_N (u64 (Z.of_N (u64 max) - Z.of_N (u64 min))) = max - min /\ 0 <= max - min < 2 ^ 64.
Proof.
  intros A B C. assert (W : 0 <= max - min < 2 ^ 64) by (destruct t; cbn in *; lia). split; [|exact W].
  unfold u64. rewrite !Z2N.id by (apply Z.mod_pos_bound; reflexivity). rewrite <- Zminus_mod. now rewrite Z.mod_small.
Qed.

(** What one word does to a draw *)
Definition accepted (min max : Z) (w : N) : Prop := 2 ^ 64 mod width min max <= (Z.of_N w * width min max) mod 2 ^ 64.
Definition value_of (min max : Z) (w : N) : Z := min + (Z.of_N w * width min max) / 2 ^ 64.
Lemma reject_step f g i r : (0 < r < two64)%N -> 
  reject (S f) g i r = (if (g i * r) mod two64 <? two64 mod r then reject f g (S i) r else Ok (g i * r / two64))%N.
Proof.
  intros R. cbn [reject]. cbv zeta. rewrite (N.mod_small (two64 - r) two64) by lia.
  replace ((two64 - r) mod r)%N with (two64 mod r)%N.
  2:{ replace two64 with (two64 - r + 1 * r)%N at 1 by lia. apply N.mod_add. lia. }
  pose proof (N.mod_lt two64 r ltac:(lia)) as L.
  destruct (N.ltb_spec ((g i * r) mod two64) (two64 mod r)) as [A|A].
  - destruct (N.ltb_spec ((g i * r) mod two64) r); [reflexivity|lia].
  - now rewrite andb_false_r.
Qed.
Lemma uniform_step f t g min max : rmin t <= min -> min <= max -> max <= rmax t -> (forall i, small (g i)) ->
  (accepted min max (g O) -> uniform_int (S f) t g min max = Ok (value_of min max (g O))) /\
  (~ accepted min max (g O) -> uniform_int (S f) t g min max = uniform_int f t (fun i => g (S i)) min max) /\
  min <= value_of min max (g O) <= max.
Proof.
  intros A B C G. destruct (range_of t min max A B C) as [R W].
  pose proof (G O) as S0. unfold small, two64 in S0.
  assert (V : min <= value_of min max (g O) <= max).
  { unfold value_of, width. assert (0 <= (Z.of_N (g O) * (max - min + 1)) / 2 ^ 64 <= max - min); [|lia].
    split; [apply Z.div_pos; nia|]. apply Z.lt_succ_r. apply Z.div_lt_upper_bound; [reflexivity|].
    assert (Z.of_N (g O) < 2 ^ 64) by lia. nia. }
  unfold uniform_int. rewrite (proj2 (Z.ltb_ge max min) B). cbv zeta. set (u := u64 (Z.of_N (u64 max) - Z.of_N (u64 min))) in *.
  unfold accepted, width. unfold value_of, width in V |- *.
  destruct (N.ltb_spec u (two64 - 1)) as [L|L].
  - assert (U : Z.of_N (u + 1) = max - min + 1) by lia.
    assert (T : Z.of_N two64 = 2 ^ 64) by reflexivity.
    rewrite reject_step by lia.
    assert (M1 : Z.of_N ((g O * (u + 1)) mod two64) = (Z.of_N (g O) * (max - min + 1)) mod 2 ^ 64) by (rewrite N2Z.inj_mod, N2Z.inj_mul, U, T; reflexivity).
    assert (M2 : Z.of_N (two64 mod (u + 1)) = 2 ^ 64 mod (max - min + 1)) by (rewrite N2Z.inj_mod, U, T; reflexivity).
    assert (M3 : Z.of_N (g O * (u + 1) / two64) = (Z.of_N (g O) * (max - min + 1)) / 2 ^ 64) by (rewrite N2Z.inj_div, N2Z.inj_mul, U, T; reflexivity).
    split; [|split; [|exact V]].
    + intros Ac. destruct (N.ltb_spec ((g O * (u + 1)) mod two64) (two64 mod (u + 1))) as [X|X]; [lia|].
      cbn [bind]. f_equal. rewrite M3. rewrite to_type; lia.
    + intros Ac. destruct (N.ltb_spec ((g O * (u + 1)) mod two64) (two64 mod (u + 1))) as [X|X]; [|lia].
      assert (Sh : forall n i, reject n g (S i) (u + 1) = reject n (fun i => g (S i)) i (u + 1)).
      { induction n as [|n IH]; intros i; cbn [reject]; [reflexivity|]. now rewrite IH. }
      now rewrite Sh.
  - assert (U : max - min + 1 = 2 ^ 64) by (unfold two64 in L; lia).
    rewrite U in V |- *. rewrite Z.div_mul in V |- * by discriminate.
    split; [|split; [|exact V]].
    + intros _. cbn [bind]. f_equal. replace (Z.of_N (g O) + min) with (min + Z.of_N (g O)) by lia. apply to_type. lia.
    + intros Ac. exfalso. apply Ac. rewrite Z.mod_mul by discriminate. rewrite Z.mod_same by discriminate. lia.
Qed.

(** C130.  Random<T>(min, max) with min <= max, both of the type T, returns a number from min to max. *)
Theorem C130_in_range_partial : forall fuel t now min max,
  rmin t <= min -> min <= max -> max <= rmax t ->
  random_int fuel t now min max = NoFuel \/ exists v, random_int fuel t now min max = Ok v /\ min <= v <= max.
Proof.
  intros fuel t now min max A B C. unfold random_int.
  assert (G : forall i, small (output (u64 now) i)) by (intros i; apply small_output).
  revert G. generalize (output (u64 now)). induction fuel as [|f IH]; intros g G.
  - unfold uniform_int. rewrite (proj2 (Z.ltb_ge max min) B). cbv zeta. destruct (range_of t min max A B C) as [R W].
    set (u := u64 (Z.of_N (u64 max) - Z.of_N (u64 min))) in *.
    destruct (N.ltb_spec u (two64 - 1)) as [L|L]; cbn [reject bind]; [now left|].
    right. eexists. split; [reflexivity|]. pose proof (G O) as S0. unfold small, two64 in *.
    rewrite to_type; lia.
  - destruct (uniform_step f t g min max A B C G) as (S1 & S2 & V).
    destruct (Z_le_dec (2 ^ 64 mod width min max) ((Z.of_N (g O) * width min max) mod 2 ^ 64)) as [Y|N].
    + right. eexists. split; [now apply S1|exact V].
    + rewrite S2 by exact N. apply IH. intros i. apply G.
Qed.
Print Assumptions C130_in_range_partial.
(** Every value has the same number of words, a run of 2^64 / (max - min + 1) of them, that give it at once; any other
    word is passed over, and these are less than half of all. *)
Theorem C130_uniform : forall t min max v, rmin t <= min -> max <= rmax t -> min <= v <= max ->
  exists first, 0 <= first /\ first + 2 ^ 64 / (max - min + 1) <= 2 ^ 64 /\
    2 ^ 63 < (max - min + 1) * (2 ^ 64 / (max - min + 1)) /\
    forall fuel g, (forall i, g i < two64)%N ->
      (first <= Z.of_N (g O) < first + 2 ^ 64 / (max - min + 1) -> uniform_int (S fuel) t g min max = Ok v) /\
      (uniform_int 1 t g min max = Ok v -> first <= Z.of_N (g O) < first + 2 ^ 64 / (max - min + 1)) /\
      (uniform_int 1 t g min max = NoFuel -> uniform_int (S fuel) t g min max = uniform_int fuel t (fun i => g (S i)) min max).
Proof.
  intros t min max v A C V. assert (B : min <= max) by lia. destruct (range_of t min max A B C) as [_ W].
  destruct (lemire_run (2 ^ 64) (max - min + 1) (v - min)) as (first & F0 & F1 & Fw); [lia|lia|].
  exists first. split; [exact F0|]. split; [exact F1|]. split.
  { pose proof (Z.div_mod (2 ^ 64) (max - min + 1) ltac:(lia)) as D. pose proof (Z.mod_pos_bound (2 ^ 64) (max - min + 1) ltac:(lia)) as M.
    assert (1 <= 2 ^ 64 / (max - min + 1)) by (apply Z.div_le_lower_bound; lia). 
    set (q := 2 ^ 64 / (max - min + 1)) in *. set (r := 2 ^ 64 mod (max - min + 1)) in *. change (2 ^ 64) with (2 * 2 ^ 63) in D. nia. }
  intros fuel g G. destruct (uniform_step fuel t g min max A B C G) as (S1 & S2 & _).
  destruct (uniform_step 0 t g min max A B C G) as (T1 & T2 & _).
  pose proof (Fw (Z.of_N (g O)) ltac:(lia)) as Fw0.
  assert (K : accepted min max (g O) \/ ~ accepted min max (g O)) by (unfold accepted; lia).
  split; [|split].
  - intros I. apply Fw0 in I as [I1 I2]. rewrite S1 by exact I1. f_equal. unfold value_of, width. rewrite I2. lia.
  - intros H. apply Fw0. destruct K as [K|K].
    + rewrite T1 in H by exact K. injection H as H. split; [exact K|]. unfold value_of, width in H. lia.
    + exfalso. rewrite T2 in H by exact K. unfold uniform_int in H. rewrite (proj2 (Z.ltb_ge max min) B) in H. cbv zeta in H.
      destruct (range_of t min max A B C) as [R _]. set (u := u64 (Z.of_N (u64 max) - Z.of_N (u64 min))) in *.
      destruct (N.ltb_spec u (two64 - 1)) as [L|L]; [discriminate H|]. apply K. unfold accepted, width.
      assert (U : max - min + 1 = 2 ^ 64) by (unfold two64 in L; lia). rewrite U.
      rewrite Z.mod_mul by discriminate. rewrite Z.mod_same by discriminate. lia.
  - intros H. destruct K as [K|K]; [rewrite T1 in H by exact K; discriminate H|now apply S2].
Qed.
Print Assumptions C130_uniform.
(** If the number of values is a power of two, one word is enough. *)
Theorem C130_one_word : forall fuel t now min max n, rmin t <= min -> max <= rmax t -> 0 <= n -> max - min + 1 = 2 ^ n ->
  exists v, random_int (S fuel) t now min max = Ok v /\ min <= v <= max.
Proof.
  intros fuel t now min max n A C P E. pose proof (Z.pow_pos_nonneg 2 n ltac:(lia) P) as Q. assert (B : min <= max) by lia.
  assert (G : forall i, small (output (u64 now) i)) by (intros i; apply small_output).
  destruct (uniform_step fuel t _ min max A B C G) as (S1 & _ & V). destruct (range_of t min max A B C) as [_ W].
  unfold random_int. rewrite S1; [eexists; split; [reflexivity|exact V]|].
  unfold accepted, width. rewrite E. assert (n <= 64) by (apply (Z.pow_le_mono_r_iff 2); lia).
  assert (X : 2 ^ 64 = 2 ^ (64 - n) * 2 ^ n) by (rewrite <- Z.pow_add_r by lia; f_equal; lia).
  rewrite X at 1. rewrite Z.mod_mul by lia. apply Z.mod_pos_bound. reflexivity.
Qed.
Print Assumptions C130_one_word.
(** With min > max the call is undefined. *)
Theorem C130_order_refuted : forall fuel t now min max, max < min -> random_int fuel t now min max = UB.
Proof. intros fuel t now min max H. unfold random_int, uniform_int. now rewrite (proj2 (Z.ltb_lt max min) H). Qed.
Print Assumptions C130_order_refuted.
(** Random(Int32{1}, Int32{6}) with the clock at 5489 ns; a word that is passed over *)
Example C130_ex : rmin RI32 <= 1 /\ 6 <= rmax RI32 /\ random_int 9 RI32 5489 1 6 = Ok 5 /\
  random_int 9 RI64 5489 (- 2 ^ 63) (2 ^ 63 - 1) = Ok (14514284786278117030 - 2 ^ 63) /\
  uniform_int 1 RI32 (fun _ => 0%N) 1 6 = NoFuel /\ uniform_int 2 RI32 (fun i => N.of_nat i) 1 6 = Ok 1.
Proof. split; [discriminate|]. split; [discriminate|]. repeat split; vm_compute; reflexivity. Qed.

(** ** RandomBoolean *)
(** The number a finite double stands for *)
Definition number_q (m : N) (e : Z) : Q := (inject_Z (Z.of_N m) * inject_Z 2 ^ e)%Q.
Lemma pow2_q n : 0 <= n -> (inject_Z 2 ^ n == inject_Z (2 ^ n))%Q.
Proof. intros H. symmetry. now apply Zpower_Qpower. Qed.
Lemma two_q : ~ (inject_Z 2 == 0)%Q. Proof. intros H. discriminate H. Qed.
(** Scaling by a power of two makes everything whole. *)
Lemma lt_scaled (x y : Q) (n a b : Z) : 0 <= n -> (x * inject_Z 2 ^ n == inject_Z a)%Q -> (y * inject_Z 2 ^ n == inject_Z b)%Q -> ((x < y)%Q <-> a < b).
Proof.
  intros N X Y. assert (P : (0 < inject_Z 2 ^ n)%Q) by (rewrite pow2_q by exact N; change 0%Q with (inject_Z 0); rewrite <- Zlt_Qlt; now apply Z.pow_pos_nonneg).
  rewrite <- (Qmult_lt_r x y _ P), X, Y. now rewrite <- Zlt_Qlt.
Qed.
Lemma above_one_ok m e : above_one m e = true <-> (1 < number_q m e)%Q.
Proof.
  unfold above_one, number_q. destruct (Z.leb_spec 0 e) as [E|E].
  - rewrite Z.ltb_lt. symmetry. apply (lt_scaled _ _ 0); [lia|reflexivity|]. rewrite pow2_q by exact E. rewrite inject_Z_mult. apply Qmult_1_r.
  - rewrite Z.ltb_lt. symmetry. apply (lt_scaled _ _ (- e)); [lia| |].
    + rewrite pow2_q by lia. apply Qmult_1_l.
    + rewrite <- Qmult_assoc, <- Qpower_plus by apply two_q. replace (e + - e) with 0 by lia. apply Qmult_1_r.
Qed.
Lemma below_ok c m e : below c m e = true <-> (inject_Z c < number_q m e * inject_Z (2 ^ 64))%Q.
Proof.
  unfold below, number_q. destruct (Z.leb_spec (-64) e) as [E|E]; rewrite Z.ltb_lt; symmetry.
  - apply (lt_scaled _ _ 0); [lia|apply Qmult_1_r|]. rewrite <- (pow2_q 64) by lia. rewrite <- !Qmult_assoc, <- !Qpower_plus by apply two_q.
    rewrite pow2_q by lia. now rewrite inject_Z_mult.
  - apply (lt_scaled _ _ (- (e + 64))); [lia| |].
    + rewrite pow2_q by lia. now rewrite inject_Z_mult.
    + rewrite <- (pow2_q 64) by lia. rewrite <- !Qmult_assoc, <- !Qpower_plus by apply two_q. replace (e + (64 + - (e + 64))) with 0 by lia. apply Qmult_1_r.
Qed.
Lemma canonical_close w : (w < two64)%N -> 0 <= canonical w < 2 ^ 64 /\ Z.abs (canonical w - Z.of_N w) <= 2 ^ 11 /\ (canonical w <= Z.of_N w + 2 ^ 10 /\ Z.of_N w - 2 ^ 11 <= canonical w).
Proof.
  intros W. assert (Wz : 0 <= Z.of_N w < 2 ^ 64) by (unfold two64 in W; lia).
  unfold canonical, word_to_double. cbv zeta. set (z := Z.of_N w) in *. set (s := Z.max 0 (Z.log2 z - 52)).
  assert (L : Z.log2 z <= 63). { destruct (Z.eq_dec z 0) as [->|N]; [cbn; lia|]. apply Z.lt_succ_r. apply Z.log2_lt_pow2; lia. }
  assert (S : 0 <= s <= 11) by lia. assert (P : 0 < 2 ^ s <= 2 ^ 11) by (split; [apply Z.pow_pos_nonneg; lia|apply Z.pow_le_mono_r; lia]).
  destruct (nearest_rounds z (2 ^ s)) as [R _]; [lia|].
  set (q := nearest_even z (2 ^ s)) in *.
  assert (Q0 : 0 <= q) by nia.
  destruct (Z.leb_spec (2 ^ 64) (q * 2 ^ s)) as [X|X]; lia.
Qed.

(** C131.  RandomBoolean(p) refuses p < 0 and p > 1 with invalid_argument. *)
Theorem C131_refused_partial : forall now p,
  (random_boolean now p = Throw EInvalidArgument <->
   match p with
   | Finite false m e => (1 < number_q m e)%Q
   | Finite true m e => m <> 0%N
   | Infinite _ => True
   | NotANumber _ => False
   end).
Proof.
  intros now p. unfold random_boolean. destruct p as [neg m e|neg|neg]; cbn [outside].
  - destruct neg.
    + destruct (N.eqb_spec m 0) as [->|M]; cbn [negb bernoulli]; split; try easy.
    + destruct (above_one m e) eqn:E.
      * split; [intros _; now apply above_one_ok|reflexivity].
      * split; [cbn [bernoulli]; discriminate|]. intros H. apply above_one_ok in H. congruence.
  - easy.
  - easy.
Qed.
Print Assumptions C131_refused_partial.
(** Otherwise the probability is p up to 2^-53: true for every word of the engine below p * 2^64 - 1024, false for every word
    from p * 2^64 + 2048 on; 0 is always false and 1 always true. *)
Theorem C131_probability : forall now m e, ~ (1 < number_q m e)%Q ->
  exists r, random_boolean now (Finite false m e) = Ok r /\
    ((inject_Z (Z.of_N (output (u64 now) 0)) < number_q m e * inject_Z (2 ^ 64) - inject_Z (2 ^ 10))%Q -> r = true) /\
    ((number_q m e * inject_Z (2 ^ 64) + inject_Z (2 ^ 11) <= inject_Z (Z.of_N (output (u64 now) 0)))%Q -> r = false) /\
    (m = 0%N -> r = false) /\ ((number_q m e == 1)%Q -> r = true).
Proof.
  intros now m e H. unfold random_boolean. cbn [outside]. destruct (above_one m e) eqn:E; [apply above_one_ok in E; contradiction|].
  cbn [bernoulli]. eexists. split; [reflexivity|]. set (w := output (u64 now) 0).
  destruct (canonical_close w (small_output _ _)) as (C & _ & U & L).
  split; [|split; [|split]].
  - intros X. apply below_ok. rewrite <- (Qplus_lt_l _ _ (- inject_Z (2 ^ 10))). refine (Qle_lt_trans _ (inject_Z (Z.of_N w)) _ _ X).
    rewrite <- inject_Z_opp, <- inject_Z_plus, <- Zle_Qle. lia.
  - intros X. apply not_true_is_false. intros Y. apply below_ok in Y. 
    assert (Z1 : (inject_Z (canonical w) + inject_Z (2 ^ 11) < inject_Z (Z.of_N w))%Q) by (refine (Qlt_le_trans _ _ _ _ X); now apply Qplus_lt_l).
    rewrite <- inject_Z_plus, <- Zlt_Qlt in Z1. lia.
  - intros ->. apply not_true_is_false. intros Y. apply below_ok in Y. unfold number_q in Y. rewrite Qmult_0_l, Qmult_0_l in Y.
    change 0%Q with (inject_Z 0) in Y. rewrite <- Zlt_Qlt in Y. lia.
  - intros X. apply below_ok. rewrite X, Qmult_1_l, <- Zlt_Qlt. lia.
Qed.
Print Assumptions C131_probability.
(** A NaN is not refused: the call is undefined. *)
Theorem C131_nan_refuted : forall now neg, random_boolean now (NotANumber neg) = UB.
Proof. reflexivity. Qed.
Print Assumptions C131_nan_refuted.
(** RandomBoolean() (p = 0.5), RandomBoolean(1.5), RandomBoolean(0.9) = 8106479329266893 * 2^-53 *)
Example C131_ex : random_boolean 5489 (Finite false 1 (-1)) = Ok false /\ random_boolean 5489 (Finite false 3 (-1)) = Throw EInvalidArgument /\
  random_boolean 5489 (Finite false 8106479329266893 (-53)) = Ok true /\ ~ (1 < number_q 8106479329266893 (-53))%Q.
Proof. repeat split; try (vm_compute; reflexivity). intros H. vm_compute in H. discriminate H. Qed.
