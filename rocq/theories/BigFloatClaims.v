(** The statements of BigFloatProps.v, from the facts about [fl x p]. *)
From Coq Require Import List NArith ZArith Bool Arith Lia ZifyBool ZifyN ZifyNat.
From Verif Require Import Outcome CharModel CharUtil StrModel StrUtil Dec BigInt SpecUtf8 SpecChar SpecStr SpecInt
  CharProofs CharUtilProofs StrProofs DecProofs BigIntProofs BigIntStates BigIntFacts BigFloat SpecFloat BigFloatProofs
  BigFloatOps BigFloatStates BigFloatFacts.
Import ListNotations.
Local Open Scope Z_scope.

(** ** C51 *)
Lemma digits_no_dot ds : Forall ascii_digit ds -> ~ In 46%N ds.
Proof. intros F I. rewrite Forall_forall in F. specialize (F _ I). unfold ascii_digit in F. lia. Qed.

Lemma reads_whole t z : int_numeral t z -> exists f, bf_of_string (ascii_chars t) = Ok f /\ fshows f z 0.
Proof.
  intros H. exists (fl z 0). split; [|apply fl_shows].
  assert (t <> []) by (intros ->; inversion H; congruence).
  rewrite of_string_nodot; [|assumption|eapply numeral_no_dot; eauto]. rewrite (num_of_string _ _ H). reflexivity.
Qed.
Lemma reads_plain_fl ds fs : Forall ascii_digit ds -> Forall ascii_digit fs ->
  bf_of_string (ascii_chars (ds ++ 46%N :: fs)) = Ok (fl (digits_value ds) (digits_value fs)).
Proof.
  intros F G. rewrite of_string_dot by now apply digits_no_dot. now rewrite !or_zero_digits by assumption.
Qed.
Lemma reads_minus_fl ds fs : ds <> [] -> Forall ascii_digit ds -> Forall ascii_digit fs ->
  bf_of_string (ascii_chars (45%N :: ds ++ 46%N :: fs)) = Ok (fl (- digits_value ds) (digits_value fs)).
Proof.
  intros N F G. change (45%N :: ds ++ 46%N :: fs) with ((45%N :: ds) ++ 46%N :: fs).
  rewrite of_string_dot. 2: { intros [E|I]; [discriminate|]. now apply (digits_no_dot ds). }
  cbn [or_zero]. rewrite (num_of_string (45%N :: ds) (- digits_value ds)) by now constructor.
  cbn [bind]. now rewrite or_zero_digits by assumption.
Qed.
Lemma reads_fraction ds fs : Forall ascii_digit ds -> Forall ascii_digit fs ->
  (exists f, bf_of_string (ascii_chars (ds ++ 46%N :: fs)) = Ok f /\ fshows f (digits_value ds) (digits_value fs)) /\
  (ds <> [] -> exists f, bf_of_string (ascii_chars (45%N :: ds ++ 46%N :: fs)) = Ok f /\
    fshows f (- digits_value ds) (digits_value fs)).
Proof.
  intros F G. split.
  - rewrite reads_plain_fl by assumption. eexists. split; [reflexivity|apply fl_shows].
  - intros N. rewrite reads_minus_fl by assumption. eexists. split; [reflexivity|apply fl_shows].
Qed.


Lemma pow10_inj a b : 10 ^ Z.of_nat a = 10 ^ Z.of_nat b -> a = b.
Proof. intros E. apply Nat2Z.inj. eapply Z.pow_inj_r; [| | |exact E]; lia. Qed.

(** fl x p denotes x.(k digits of p) exactly when no zero is lost. *)
Lemma denotes_iff x p k : 0 <= x -> 0 <= p < 10 ^ Z.of_nat k ->
  (denotes (fl x p) (x * 10 ^ Z.of_nat k + p) k <-> no_lost_zero p k).
Proof.
  intros Hx Hp. split.
  - intros D. destruct (num_digits_exists p ltac:(lia)) as [[E _]|N]; [now left|].
    pose proof (num_digits_exists p ltac:(lia)) as ND. set (j := bi_size (num p)) in *.
    pose proof (denotes_fun _ _ _ _ _ D (fl_denotes x p j ltac:(lia) ND)) as S. unfold same_number, joined in S.
    replace (x <? 0) with false in S by lia.
    assert (p * 10 ^ Z.of_nat j = p * 10 ^ Z.of_nat k) by nia.
    right. destruct (Z.eq_dec p 0) as [->|NZ].
    + destruct N as [_ N]. pose proof (p10 (j - 1)). lia.
    + assert (10 ^ Z.of_nat j = 10 ^ Z.of_nat k) as E by nia. apply pow10_inj in E. rewrite <- E. lia.
  - intros N. pose proof (fl_denotes' x p k Hp N) as D. unfold joined in D. now replace (x <? 0) with false in D by lia.
Qed.
Lemma denotes_neg_iff x p k : 0 <= x -> 0 <= p < 10 ^ Z.of_nat k ->
  (denotes (fl (- x) p) (- (x * 10 ^ Z.of_nat k + p)) k <-> no_lost_zero p k /\ (x = 0 -> p = 0)).
Proof.
  intros Hx Hp. destruct (Z.eq_dec x 0) as [->|NX].
  - change (- 0) with 0. replace (- (0 * 10 ^ Z.of_nat k + p)) with (- p) by lia. split.
    + intros D. pose proof (num_digits_exists p ltac:(lia)) as ND. set (j := bi_size (num p)) in *.
      pose proof (denotes_fun _ _ _ _ _ D (fl_denotes 0 p j ltac:(lia) ND)) as S. unfold same_number, joined in S.
      change (0 <? 0) with false in S. cbv iota in S. pose proof (p10 j). pose proof (p10 k).
      assert (p = 0) by nia. split; [now left|auto].
    + intros [N Z]. specialize (Z eq_refl). subst p. change (- 0) with 0.
      pose proof (fl_denotes' 0 0 k ltac:(pose proof (p10 k); lia) (or_introl eq_refl)) as D.
      unfold joined in D. change (0 <? 0) with false in D. cbv iota in D. now replace (0 * 10 ^ Z.of_nat k + 0) with 0 in D by lia.
  - split.
    + intros D. split; [|lia]. destruct (num_digits_exists p ltac:(lia)) as [[E _]|N]; [now left|].
      pose proof (num_digits_exists p ltac:(lia)) as ND. set (j := bi_size (num p)) in *.
      pose proof (denotes_fun _ _ _ _ _ D (fl_denotes (- x) p j ltac:(lia) ND)) as S. unfold same_number, joined in S.
      replace (- x <? 0) with true in S by lia.
      assert (p * 10 ^ Z.of_nat j = p * 10 ^ Z.of_nat k) by nia.
      right. destruct (Z.eq_dec p 0) as [->|NZ].
      * destruct N as [_ N]. pose proof (p10 (j - 1)). lia.
      * assert (10 ^ Z.of_nat j = 10 ^ Z.of_nat k) as E by nia. apply pow10_inj in E. rewrite <- E. lia.
    + intros [N _]. pose proof (fl_denotes' (- x) p k Hp N) as D. unfold joined in D. replace (- x <? 0) with true in D by lia.
      now replace (- (x * 10 ^ Z.of_nat k + p)) with (- x * 10 ^ Z.of_nat k - p) by lia.
Qed.
Lemma keeps_iff ds fs : Forall ascii_digit ds -> Forall ascii_digit fs ->
  (forall f, bf_of_string (ascii_chars (ds ++ 46%N :: fs)) = Ok f ->
    (denotes f (digits_value (ds ++ fs)) (length fs) <-> no_lost_zero (digits_value fs) (length fs))) /\
  (forall f, ds <> [] -> bf_of_string (ascii_chars (45%N :: ds ++ 46%N :: fs)) = Ok f ->
    (denotes f (- digits_value (ds ++ fs)) (length fs) <->
     no_lost_zero (digits_value fs) (length fs) /\ (digits_value ds = 0 -> digits_value fs = 0))).
Proof.
  intros F G. pose proof (digits_value_bound _ F). pose proof (digits_value_bound _ G). rewrite digits_value_app. split.
  - intros f E. rewrite reads_plain_fl in E by assumption. injection E as <-. apply denotes_iff; lia.
  - intros f N E. rewrite reads_minus_fl in E by assumption. injection E as <-. apply denotes_neg_iff; lia.
Qed.
Lemma round_trip f : bf_built f -> exists s, bf_to_string f = Ok s /\ bf_of_string s = Ok f.
Proof.
  intros B. apply bf_built_fl in B as (x & p & ->). exists (ascii_chars (print x p)). split; [apply to_string_fl|].
  unfold print. destruct (p =? 0) eqn:E; [|apply of_dotted]. assert (p = 0) as -> by lia.
  rewrite of_string_nodot by (auto using dec_nonempty, dec_no_dot). rewrite num_of_dec. reflexivity.
Qed.

Lemma keeps_wrong : exists t t' m m' k k' f, decimal t m k /\ decimal t' m' k' /\ ~ same_number m k m' k' /\
  bf_of_string (ascii_chars t) = Ok f /\ bf_of_string (ascii_chars t') = Ok f.
Proof.
  exists [49; 46; 48; 53]%N, [49; 46; 53]%N, 105, 15, 2%nat, 1%nat, (fl 1 5).
  split; [apply (dec_plain [49%N] [48; 53]%N); try discriminate; repeat constructor; unfold ascii_digit; lia|].
  split; [apply (dec_plain [49%N] [53]%N); try discriminate; repeat constructor; unfold ascii_digit; lia|].
  split; [discriminate|]. split; reflexivity.
Qed.
Lemma sign_wrong : exists t m k f, decimal t m k /\ m < 0 /\ bf_of_string (ascii_chars t) = Ok f /\ denotes f (- m) k.
Proof.
  exists [45; 48; 46; 53]%N, (-5), 1%nat, (fl 0 5).
  split; [apply (dec_minus [48%N] [53]%N); try discriminate; repeat constructor; unfold ascii_digit; lia|].
  split; [lia|]. split; [reflexivity|]. apply (fl_denotes 0 5 1); [lia|]. right. cbn. lia.
Qed.

(** ** C52 *)
Lemma align_any : forall d fuel p n, p <> 0 -> d = (n - bi_size (num p))%nat -> (d <= fuel)%nat ->
  exists z, bf_align fuel (num p) n = Ok (num z) /\ bi_size (num z) = Nat.max n (bi_size (num p)).
Proof.
  induction d as [|d IH]; intros fuel p n P D L.
  - exists p. rewrite align_done by lia. split; [reflexivity|lia].
  - destruct fuel as [|f]; [lia|]. cbn [bf_align]. replace (Nat.ltb (bi_size (num p)) n) with true by lia.
    rewrite <- num_10, num_mul. cbn [bind].
    assert (S : bi_size (num (p * 10)) = S (bi_size (num p))).
    { pose proof (size_digits p) as A. pose proof (size_digits (p * 10)) as B.
      pose proof (digits_mul10 (Z.abs p) _ 1 ltac:(lia) A) as C. change (10 ^ Z.of_nat 1) with 10 in C.
      rewrite Z.abs_mul in B. change (Z.abs 10) with 10 in B. rewrite (num_digits_fun _ _ _ B C). lia. }
    destruct (IH f (p * 10) n ltac:(lia) ltac:(lia) ltac:(lia)) as (z & E & SZ). exists z. split; [exact E|lia].
Qed.
Lemma align_both fuel p q : (p = 0 <-> q = 0) -> (Nat.max (bi_size (num p)) (bi_size (num q)) <= fuel)%nat ->
  exists z z', bf_align fuel (num p) (bi_size (num q)) = Ok (num z) /\ bf_align fuel (num q) (bi_size (num z)) = Ok (num z').
Proof.
  intros H L. destruct (Z.eq_dec p 0) as [->|P].
  - assert (q = 0) as -> by tauto. exists 0, 0. now rewrite !align_done by lia.
  - destruct (align_any _ fuel p (bi_size (num q)) P eq_refl ltac:(lia)) as (z & E & S).
    destruct (align_any _ fuel q (bi_size (num z)) ltac:(tauto) eq_refl ltac:(lia)) as (z' & E' & _). eauto.
Qed.
Lemma add_ok a b : bi_wf a -> bi_wf b -> exists r, bi_add a b = Ok r /\ bi_wf r.
Proof. intros A B. destruct (bi_add_spec a b A B) as (r & E & W & _). eauto. Qed.
Lemma sub_ok a b : bi_wf a -> bi_wf b -> exists r, bi_sub a b = Ok r /\ bi_wf r.
Proof. intros A B. destruct (bi_sub_spec a b A B) as (r & E & W & _). eauto. Qed.
Lemma add_terminates fuel x p y q : (p = 0 <-> q = 0) -> (Nat.max (bi_size (num p)) (bi_size (num q)) <= fuel)%nat ->
  (exists r, bf_add fuel (fl x p) (fl y q) = Ok r) /\ (exists r, bf_sub fuel (fl x p) (fl y q) = Ok r).
Proof.
  intros H L. destruct (align_both fuel p q H L) as (z & z' & E & E'). unfold bf_add, bf_sub, fl. cbn [bf_int bf_frac].
  rewrite E. cbn [bind]. rewrite E'. cbn [bind]. rewrite !num_of_int. cbn [bind]. rewrite <- num_10, num_mul, <- num_1. cbn [bind].
  split.
  - destruct (add_ok (num z) (num z') (num_wf _) (num_wf _)) as (r & -> & W). cbn [bind].
    destruct (add_ok (num x) (num y) (num_wf _) (num_wf _)) as (i & -> & Wi). cbn [bind].
    destruct (Nat.ltb _ _).
    + destruct (sub_ok r (num (10 * Z.of_nat (bi_size (num z)))) W (num_wf _)) as (r' & -> & W'). cbn [bind].
      destruct (add_ok i (num 1) Wi (num_wf _)) as (i' & -> & Wi'). cbn [bind]. rewrite of_dotted_wf by assumption. eauto.
    + cbn [bind]. rewrite of_dotted_wf by assumption. eauto.
  - destruct (sub_ok (num x) (num y) (num_wf _) (num_wf _)) as (i & Ei & Wi).
    destruct (bi_lt _ _).
    + destruct (add_ok (num z) (num (10 * Z.of_nat (bi_size (num z)))) (num_wf _) (num_wf _)) as (r & -> & W). cbn [bind].
      destruct (sub_ok r (num z') W (num_wf _)) as (r' & -> & W'). cbn [bind]. rewrite Ei. cbn [bind].
      destruct (sub_ok i (num 1) Wi (num_wf _)) as (i' & -> & Wi'). cbn [bind]. rewrite of_dotted_wf by assumption. eauto.
    + cbn [bind]. destruct (sub_ok (num z) (num z') (num_wf _) (num_wf _)) as (r' & -> & W'). cbn [bind]. rewrite Ei. cbn [bind].
      rewrite of_dotted_wf by assumption. eauto.
Qed.
Lemma diverges_any fuel x p y q : (p = 0 <-> q <> 0) ->
  bf_add fuel (fl x p) (fl y q) = NoFuel /\ bf_sub fuel (fl x p) (fl y q) = NoFuel.
Proof.
  intros H. unfold bf_add, bf_sub, fl. cbn [bf_int bf_frac].
  assert (SS : forall z, z <> 0 -> (0 < bi_size (num z))%nat).
  { intros z Hz. pose proof (size_digits z) as D. apply digits_range in D; lia. }
  destruct (Z.eq_dec p 0) as [->|N].
  - rewrite align_zero; [auto|]. apply SS. lia.
  - assert (q = 0) as -> by lia. rewrite align_done by (rewrite size_zero; lia). cbn [bind].
    rewrite align_zero; [auto|]. apply SS. lia.
Qed.
Lemma terminates a b x p y q : bf_built a -> bf_built b -> fshows a x p -> fshows b y q ->
  ((p = 0 <-> q = 0) -> exists steps, forall fuel, (steps <= fuel)%nat ->
     (exists r, bf_add fuel a b = Ok r) /\ (exists r, bf_sub fuel a b = Ok r)) /\
  ((p = 0 <-> q <> 0) -> forall fuel, bf_add fuel a b = NoFuel /\ bf_sub fuel a b = NoFuel).
Proof.
  intros A B Sa Sb. rewrite (fshows_fl _ _ _ A Sa), (fshows_fl _ _ _ B Sb). split.
  - intros H. exists (Nat.max (bi_size (num p)) (bi_size (num q))). intros fuel L. now apply add_terminates.
  - intros H fuel. now apply diverges_any.
Qed.
Lemma diverges_ex : exists a b, bf_of_string (ascii_chars [49; 46; 53]%N) = Ok a /\ bf_of_string (ascii_chars [50%N]) = Ok b /\
  forall fuel, bf_add fuel a b = NoFuel /\ bf_sub fuel a b = NoFuel.
Proof.
  exists (fl 1 5), (fl 2 0). split; [reflexivity|]. split; [reflexivity|]. intros fuel. apply diverges_any. lia.
Qed.

(** ** C53 *)
Lemma add_whole_shows a b x y : bf_built a -> bf_built b -> fshows a x 0 -> fshows b y 0 -> 0 <= x -> 0 <= y ->
  forall fuel, (exists r, bf_add fuel a b = Ok r /\ fshows r (x + y) 0) /\ (exists r, bf_sub fuel a b = Ok r /\ fshows r (x - y) 0).
Proof.
  intros A B Sa Sb Hx Hy fuel. rewrite (fshows_fl _ _ _ A Sa), (fshows_fl _ _ _ B Sb).
  rewrite add_whole, sub_whole by assumption. split; eexists; (split; [reflexivity|apply fl_shows]).
Qed.
Lemma add_fraction a b x p k y q j : bf_built a -> bf_built b -> fshows a x p -> fshows b y q -> 0 <= x -> 0 <= y ->
  0 < p -> 0 < q -> num_digits p k -> num_digits q j ->
  let K := Nat.max k j in
  let s := p * 10 ^ Z.of_nat (K - k) + q * 10 ^ Z.of_nat (K - j) in
  forall fuel, (K <= fuel)%nat -> exists r, bf_add fuel a b = Ok r /\
    if s <? 10 ^ Z.of_nat K then fshows r (x + y) s else fshows r (x + y + 1) (s - 10 * Z.of_nat K).
Proof.
  intros A B Sa Sb Hx Hy Hp Hq Dp Dq K s fuel L. rewrite (fshows_fl _ _ _ A Sa), (fshows_fl _ _ _ B Sb).
  rewrite (add_frac fuel x p k y q j) by assumption. fold K. fold s. eexists. split; [reflexivity|].
  destruct (s <? _); apply fl_shows.
Qed.
Lemma add_exact a b x p k y q j : bf_built a -> bf_built b -> fshows a x p -> fshows b y q -> 0 <= x -> 0 <= y ->
  0 < p -> 0 < q -> num_digits p k -> num_digits q j ->
  let K := Nat.max k j in
  p * 10 ^ Z.of_nat (K - k) + q * 10 ^ Z.of_nat (K - j) < 10 ^ Z.of_nat K \/ K = 1%nat ->
  forall fuel, (K <= fuel)%nat -> exists r, bf_add fuel a b = Ok r /\
    denotes r ((x * 10 ^ Z.of_nat k + p) * 10 ^ Z.of_nat (K - k) + (y * 10 ^ Z.of_nat j + q) * 10 ^ Z.of_nat (K - j)) K.
Proof.
  intros A B Sa Sb Hx Hy Hp Hq Dp Dq K C fuel L. rewrite (fshows_fl _ _ _ A Sa), (fshows_fl _ _ _ B Sb).
  rewrite (add_frac fuel x p k y q j) by assumption. fold K.
  set (s := p * 10 ^ Z.of_nat (K - k) + q * 10 ^ Z.of_nat (K - j)) in *.
  eexists. split; [reflexivity|].
  assert (EK : forall i, (i <= K)%nat -> 10 ^ Z.of_nat i * 10 ^ Z.of_nat (K - i) = 10 ^ Z.of_nat K).
  { intros i Hi. rewrite <- Z.pow_add_r by lia. f_equal. lia. }
  replace ((x * 10 ^ Z.of_nat k + p) * 10 ^ Z.of_nat (K - k) + (y * 10 ^ Z.of_nat j + q) * 10 ^ Z.of_nat (K - j))
    with ((x + y) * 10 ^ Z.of_nat K + s).
  2: { rewrite !Z.mul_add_distr_r, <- !(Z.mul_assoc _ (10 ^ Z.of_nat _) (10 ^ Z.of_nat _)), !EK by lia. unfold s. lia. }
  assert (Lo : 10 ^ Z.of_nat (K - 1) <= p * 10 ^ Z.of_nat (K - k)).
  { destruct (digits_range p k Hp Dp) as [K1 R]. replace (Z.of_nat (K - 1)) with (Z.of_nat (k - 1) + Z.of_nat (K - k)) by lia.
    rewrite Z.pow_add_r by lia. pose proof (p10 (K - k)). nia. }
  assert (0 < q * 10 ^ Z.of_nat (K - j)) by (pose proof (p10 (K - j)); nia).
  destruct (s <? 10 ^ Z.of_nat K) eqn:Cs.
  - apply denotes_iff; [lia|unfold s in *; lia|]. right. unfold s. lia.
  - assert (K = 1%nat) as EK1 by lia. assert (Hs : s < 20).
    { destruct (digits_range p k Hp Dp) as [K1 R]. destruct (digits_range q j Hq Dq) as [J1 R'].
      assert (k = 1%nat) as -> by lia. assert (j = 1%nat) as -> by lia. cbn in R, R'. unfold s. rewrite EK1. cbn. lia. }
    rewrite EK1 in *. change (10 ^ Z.of_nat 1) with 10 in *. change (10 * Z.of_nat 1) with 10.
    replace ((x + y) * 10 + s) with ((x + y + 1) * 10 ^ Z.of_nat 1 + (s - 10)) by (change (10 ^ Z.of_nat 1) with 10; lia).
    apply denotes_iff; [lia|change (10 ^ Z.of_nat 1) with 10; lia|].
    unfold no_lost_zero. change (10 ^ Z.of_nat (1 - 1)) with 1. lia.
Qed.
Lemma sub_exact a b x p k y q j : bf_built a -> bf_built b -> fshows a x p -> fshows b y q -> 0 <= y <= x ->
  0 < p -> 0 < q -> num_digits p k -> num_digits q j ->
  let K := Nat.max k j in
  let d := p * 10 ^ Z.of_nat (K - k) - q * 10 ^ Z.of_nat (K - j) in
  0 <= d -> no_lost_zero d K ->
  forall fuel, (K <= fuel)%nat -> exists r, bf_sub fuel a b = Ok r /\
    denotes r ((x * 10 ^ Z.of_nat k + p) * 10 ^ Z.of_nat (K - k) - (y * 10 ^ Z.of_nat j + q) * 10 ^ Z.of_nat (K - j)) K.
Proof.
  intros A B Sa Sb Hy Hp Hq Dp Dq K d Hd N fuel L. rewrite (fshows_fl _ _ _ A Sa), (fshows_fl _ _ _ B Sb).
  rewrite (sub_frac fuel x p k y q j) by (assumption || lia). fold K. fold d. replace (0 <=? d) with true by lia.
  eexists. split; [reflexivity|].
  assert (EK : forall i, (i <= K)%nat -> 10 ^ Z.of_nat i * 10 ^ Z.of_nat (K - i) = 10 ^ Z.of_nat K).
  { intros i Hi. rewrite <- Z.pow_add_r by lia. f_equal. lia. }
  replace ((x * 10 ^ Z.of_nat k + p) * 10 ^ Z.of_nat (K - k) - (y * 10 ^ Z.of_nat j + q) * 10 ^ Z.of_nat (K - j))
    with ((x - y) * 10 ^ Z.of_nat K + d).
  2: { rewrite !Z.mul_add_distr_r, <- !(Z.mul_assoc _ (10 ^ Z.of_nat _) (10 ^ Z.of_nat _)), !EK by lia. unfold d. lia. }
  assert (p * 10 ^ Z.of_nat (K - k) < 10 ^ Z.of_nat K).
  { destruct (digits_range p k Hp Dp) as [K1 R]. rewrite <- (EK k) by lia. pose proof (p10 (K - k)). nia. }
  assert (0 < q * 10 ^ Z.of_nat (K - j)) by (pose proof (p10 (K - j)); nia).
  apply denotes_iff; [lia|unfold d in *; lia|exact N].
Qed.
Lemma sub_fraction a b x p k y q j : bf_built a -> bf_built b -> fshows a x p -> fshows b y q -> 0 <= x -> 0 <= y ->
  0 < p -> 0 < q -> num_digits p k -> num_digits q j ->
  let K := Nat.max k j in
  let d := p * 10 ^ Z.of_nat (K - k) - q * 10 ^ Z.of_nat (K - j) in
  forall fuel, (K <= fuel)%nat -> exists r, bf_sub fuel a b = Ok r /\
    if 0 <=? d then fshows r (x - y) d
    else fshows r (if x <? y then x - y + 1 else x - y - 1) (d + 10 * Z.of_nat K).
Proof.
  intros A B Sa Sb Hx Hy Hp Hq Dp Dq K d fuel L. rewrite (fshows_fl _ _ _ A Sa), (fshows_fl _ _ _ B Sb).
  rewrite (sub_frac fuel x p k y q j) by assumption. fold K. fold d. eexists. split; [reflexivity|].
  replace (x <? y) with (x - y <? 0) by lia. destruct (0 <=? d); apply fl_shows.
Qed.
Lemma add_wrong : exists a b r, bf_of_string (ascii_chars [49; 46; 53; 53]%N) = Ok a /\
  bf_of_string (ascii_chars [50; 46; 54; 54]%N) = Ok b /\ bf_add 2 a b = Ok r /\ ~ denotes r 421 2.
Proof.
  exists (fl 1 55), (fl 2 66), (fl 4 101). split; [reflexivity|]. split; [reflexivity|]. split; [reflexivity|].
  intros D. pose proof (denotes_fun _ _ _ _ _ D (fl_denotes 4 101 3 ltac:(lia) ltac:(right; cbn; lia))). discriminate.
Qed.

(** ** C54 *)
Lemma mul_shows a b x p k y q j : bf_built a -> bf_built b -> fshows a x p -> fshows b y q ->
  k = O /\ j = O \/ small p /\ small q -> 0 <= p -> 0 <= q -> num_digits p k -> num_digits q j ->
  let M := joined x p (Nat.max 1 k) * joined y q (Nat.max 1 j) in
  exists r, bf_mul a b = Ok r /\ fshows r (Z.quot M (10 ^ Z.of_nat (k + j))) (Z.abs M mod 10 ^ Z.of_nat (k + j)).
Proof.
  intros A B Sa Sb H Hp Hq Dp Dq M. rewrite (fshows_fl _ _ _ A Sa), (fshows_fl _ _ _ B Sb).
  eexists. split; [apply (mul_fl x p k y q j); assumption|apply fl_shows].
Qed.
Lemma joined_quot M T : M < 0 -> 10 ^ Z.of_nat T <= - M ->
  joined (Z.quot M (10 ^ Z.of_nat T)) (Z.abs M mod 10 ^ Z.of_nat T) T = M.
Proof.
  intros N L. pose proof (p10 T) as P. set (D := 10 ^ Z.of_nat T) in *.
  replace M with (- (- M)) at 1 3 by lia. rewrite Z.quot_opp_l, Z.quot_div_nonneg by lia.
  replace (Z.abs M) with (- M) by lia. set (m := - M) in *.
  assert (1 <= m / D) by (apply Z.div_le_lower_bound; lia).
  unfold joined. replace (- (m / D) <? 0) with true by lia. fold D. pose proof (Z.div_mod m D ltac:(lia)). lia.
Qed.
Lemma joined_quot_pos M T : 0 <= M -> joined (Z.quot M (10 ^ Z.of_nat T)) (Z.abs M mod 10 ^ Z.of_nat T) T = M.
Proof.
  intros N. pose proof (p10 T) as P. set (D := 10 ^ Z.of_nat T) in *.
  rewrite Z.quot_div_nonneg by lia. rewrite Z.abs_eq by lia.
  assert (0 <= M / D) by (apply Z.div_pos; lia).
  unfold joined. replace (M / D <? 0) with false by lia. fold D. pose proof (Z.div_mod M D ltac:(lia)). lia.
Qed.
Lemma joined_back M T : 0 <= M \/ 10 ^ Z.of_nat T <= - M ->
  joined (Z.quot M (10 ^ Z.of_nat T)) (Z.abs M mod 10 ^ Z.of_nat T) T = M.
Proof. intros [H|H]; [now apply joined_quot_pos|apply joined_quot; pose proof (p10 T); lia]. Qed.
Lemma quot_denotes M T : 0 <= M \/ 10 ^ Z.of_nat T <= - M -> no_lost_zero (Z.abs M mod 10 ^ Z.of_nat T) T ->
  denotes (fl (Z.quot M (10 ^ Z.of_nat T)) (Z.abs M mod 10 ^ Z.of_nat T)) M T.
Proof.
  intros H N. rewrite <- (joined_back M T H) at 3. apply fl_denotes'; [|exact N].
  apply Z.mod_pos_bound, p10.
Qed.
Lemma mul_exact a b x p k y q j : bf_built a -> bf_built b -> fshows a x p -> fshows b y q ->
  small p -> small q -> 0 < p -> 0 < q -> num_digits p k -> num_digits q j ->
  let M := joined x p k * joined y q j in
  0 <= M \/ 10 ^ Z.of_nat (k + j) <= - M -> no_lost_zero (Z.abs M mod 10 ^ Z.of_nat (k + j)) (k + j) ->
  exists r, bf_mul a b = Ok r /\ denotes r M (k + j).
Proof.
  intros A B Sa Sb Sp Sq Hp Hq Dp Dq M H N. rewrite (fshows_fl _ _ _ A Sa), (fshows_fl _ _ _ B Sb).
  destruct (digits_range p k Hp Dp) as [K1 _]. destruct (digits_range q j Hq Dq) as [J1 _].
  eexists. split; [apply (mul_fl x p k y q j); auto; lia|].
  replace (Nat.max 1 k) with k by lia. replace (Nat.max 1 j) with j by lia. now apply quot_denotes.
Qed.
Lemma mul_whole_shows a b x y : bf_built a -> bf_built b -> fshows a x 0 -> fshows b y 0 ->
  exists r, bf_mul a b = Ok r /\ fshows r (100 * x * y) 0.
Proof.
  intros A B Sa Sb. rewrite (fshows_fl _ _ _ A Sa), (fshows_fl _ _ _ B Sb). rewrite mul_whole. eexists. split; [reflexivity|apply fl_shows].
Qed.

(** ** C55 *)
Lemma div_by_zero a b : bf_built a -> bf_built b -> fshows b 0 0 -> bf_div a b = Throw EInvalidArgument.
Proof.
  intros A B Sb. rewrite (fshows_fl _ _ _ B Sb). unfold bf_div. rewrite fl_zero, equal_fl. reflexivity.
Qed.
Lemma div_shows a b x p k y q j : bf_built a -> bf_built b -> fshows a x p -> fshows b y q -> k = O \/ small p ->
  0 <= p -> 0 <= q -> num_digits p k -> num_digits q j -> (y <> 0 \/ q <> 0) -> (j <= k)%nat ->
  let R := Z.quot (joined x p (Nat.max 1 k)) (joined y q (Nat.max 1 j)) in
  0 <= R \/ 10 ^ Z.of_nat (k - j - 1) <= - R ->
  exists r, bf_div a b = Ok r /\ fshows r (Z.quot R (10 ^ Z.of_nat (k - j))) (Z.abs R mod 10 ^ Z.of_nat (k - j)).
Proof.
  intros A B Sa Sb S Hp Hq Dp Dq N L R H. rewrite (fshows_fl _ _ _ A Sa), (fshows_fl _ _ _ B Sb).
  eexists. split; [apply (div_fl x p k y q j); assumption|apply fl_shows].
Qed.
Lemma div_exact a b x p k y q j : bf_built a -> bf_built b -> fshows a x p -> fshows b y q -> small p ->
  0 < p -> 0 < q -> num_digits p k -> num_digits q j -> (j <= k)%nat ->
  let R := Z.quot (joined x p k) (joined y q j) in
  0 <= R \/ 10 ^ Z.of_nat (k - j) <= - R -> no_lost_zero (Z.abs R mod 10 ^ Z.of_nat (k - j)) (k - j) ->
  exists r, bf_div a b = Ok r /\ denotes r R (k - j).
Proof.
  intros A B Sa Sb S Hp Hq Dp Dq L R H N. rewrite (fshows_fl _ _ _ A Sa), (fshows_fl _ _ _ B Sb).
  destruct (digits_range p k Hp Dp) as [K1 _]. destruct (digits_range q j Hq Dq) as [J1 _].
  pose proof (div_fl x p k y q j (or_intror S) (Z.lt_le_incl _ _ Hp) (Z.lt_le_incl _ _ Hq) Dp Dq) as D.
  replace (Nat.max 1 k) with k in D by (clear - K1; lia). replace (Nat.max 1 j) with j in D by (clear - J1; lia).
  cbv zeta in D. fold R in D.
  eexists. split; [apply D; [right; clear - Hq; lia|exact L|]|now apply quot_denotes].
  destruct H as [H|H]; [left; exact H|right]. clear - H. apply Z.le_trans with (10 ^ Z.of_nat (k - j)); [apply Z.pow_le_mono_r; lia|exact H].
Qed.
Lemma div_whole_shows a b x y : bf_built a -> bf_built b -> fshows a x 0 -> fshows b y 0 -> y <> 0 ->
  exists r, bf_div a b = Ok r /\ fshows r (Z.quot x y) 0.
Proof.
  intros A B Sa Sb N. rewrite (fshows_fl _ _ _ A Sa), (fshows_fl _ _ _ B Sb). rewrite div_whole by exact N.
  eexists. split; [reflexivity|apply fl_shows].
Qed.
Lemma div_longer_throws a b x p k y q j : bf_built a -> bf_built b -> fshows a x p -> fshows b y q ->
  small x -> small p -> small q -> 0 <= p -> 0 <= q -> num_digits p k -> num_digits q j -> (y <> 0 \/ q <> 0) -> (k < j)%nat ->
  bf_div a b = Throw ELengthError.
Proof.
  intros A B Sa Sb Sx Sp Sq Hp Hq Dp Dq N L. rewrite (fshows_fl _ _ _ A Sa), (fshows_fl _ _ _ B Sb).
  now apply (div_wraps x p k y q j).
Qed.
Lemma div_wrong : exists a b, bf_of_string (ascii_chars [49; 46; 53]%N) = Ok a /\ bf_of_string (ascii_chars [50%N]) = Ok b /\
  exists r, bf_div a b = Ok r /\ denotes r 0 0.
Proof.
  exists (fl 1 5), (fl 2 0). split; [reflexivity|]. split; [reflexivity|]. exists (fl 0 0). split; [reflexivity|].
  apply (fl_denotes 0 0 0); [lia|apply digits_0].
Qed.
Lemma div_throws_ex : exists a b, bf_of_string (ascii_chars [49%N]) = Ok a /\ bf_of_string (ascii_chars [48; 46; 53]%N) = Ok b /\
  bf_div a b = Throw ELengthError.
Proof. exists (fl 1 0), (fl 0 5). split; [reflexivity|]. split; [reflexivity|]. vm_compute. reflexivity. Qed.

(** ** C56 *)
Lemma equal_shows a b x p y q : bf_built a -> bf_built b -> fshows a x p -> fshows b y q ->
  (bf_equal a b = true <-> bf_to_string a = bf_to_string b) /\ bf_equal a b = (x =? y) && (p =? q).
Proof.
  intros A B Sa Sb. rewrite (fshows_fl _ _ _ A Sa), (fshows_fl _ _ _ B Sb). rewrite equal_fl, !to_string_fl.
  split; [|reflexivity]. split.
  - intros H. assert (x = y /\ p = q) as [-> ->] by lia. reflexivity.
  - intros E. injection E as E. apply ascii_chars_inj, print_inj in E as [-> ->]. lia.
Qed.
Lemma lt_exact a b x p k y q j : bf_built a -> bf_built b -> fshows a x p -> fshows b y q -> 0 <= x -> 0 <= y ->
  0 <= p -> 0 <= q -> num_digits p k -> num_digits q j -> p = 0 \/ q = 0 \/ k = j ->
  let m := (x * 10 ^ Z.of_nat k + p) * 10 ^ Z.of_nat j in
  let n := (y * 10 ^ Z.of_nat j + q) * 10 ^ Z.of_nat k in
  bf_lt a b = (m <? n) /\ bf_gt a b = (n <? m) /\ bf_equal a b = (m =? n).
Proof.
  intros A B Sa Sb Hx Hy Hp Hq Dp Dq C m n. rewrite (fshows_fl _ _ _ A Sa), (fshows_fl _ _ _ B Sb).
  pose proof (p10 k) as Pk. pose proof (p10 j) as Pj.
  assert (Bp : p < 10 ^ Z.of_nat k) by (destruct Dp as [[-> ->]|D]; lia).
  assert (Bq : q < 10 ^ Z.of_nat j) by (destruct Dq as [[-> ->]|D]; lia).
  assert (LT : bf_lt (fl x p) (fl y q) = (m <? n)).
  { rewrite lt_fl. unfold int_lt. replace (x <? 0) with false by lia. replace (y <? 0) with false by lia.
    replace (p <? 0) with false by lia. cbn [andb].
    subst m n. set (u := 10 ^ Z.of_nat k) in *. set (v := 10 ^ Z.of_nat j) in *.
    assert (UV : p = 0 \/ q = 0 \/ u = v) by (unfold u, v; destruct C as [C|[C|C]]; auto; subst; auto). clearbody u v.
    destruct (x <? y) eqn:L1; [|destruct (y <? x) eqn:L2].
    - assert ((x * u + p) * v < (y * v + q) * u); [|lia]. assert (x * u + p < (x + 1) * u) by lia.
      assert ((x + 1) * v <= y * v + q) by nia. nia.
    - assert ((y * v + q) * u < (x * u + p) * v); [|lia]. assert (y * v + q < (y + 1) * v) by lia.
      assert ((y + 1) * u <= x * u + p) by nia. nia.
    - assert (x = y) as -> by lia. destruct UV as [->|[-> | ->]]; nia. }
  assert (EQ : bf_equal (fl x p) (fl y q) = (m =? n)).
  { rewrite equal_fl. subst m n. set (u := 10 ^ Z.of_nat k) in *. set (v := 10 ^ Z.of_nat j) in *.
    assert (UV : p = 0 \/ q = 0 \/ u = v) by (unfold u, v; destruct C as [C|[C|C]]; auto; subst; auto). clearbody u v. clear LT Dp Dq.
    destruct (Z.eq_dec x y) as [->|N].
    - destruct UV as [->|[-> | ->]]; nia.
    - replace (x =? y) with false by lia. cbn [andb]. symmetry. apply Z.eqb_neq. intros E.
      destruct (Z_lt_ge_dec x y).
      + assert (x * u + p < (x + 1) * u) by lia. assert ((x + 1) * v <= y * v + q) by nia. nia.
      + assert (y * v + q < (y + 1) * v) by lia. assert ((y + 1) * u <= x * u + p) by nia. nia. }
  unfold bf_gt. rewrite LT, EQ. repeat split. lia.
Qed.
Lemma int_lt_irrefl x : int_lt x x = false.
Proof. unfold int_lt. destruct (x <? 0); cbn; lia. Qed.
Lemma int_lt_trans x y z : int_lt x y = true -> int_lt y z = true -> int_lt x z = true.
Proof. unfold int_lt. destruct (x <? 0) eqn:?, (y <? 0) eqn:?, (z <? 0) eqn:?; cbn; lia. Qed.
Lemma int_lt_total x y : int_lt x y = true \/ x = y \/ int_lt y x = true.
Proof. unfold int_lt. destruct (x <? 0) eqn:?, (y <? 0) eqn:?; cbn; lia. Qed.
Lemma int_lt_asym x y : int_lt x y = true -> int_lt y x = false.
Proof. unfold int_lt. destruct (x <? 0) eqn:?, (y <? 0) eqn:?; cbn; lia. Qed.
Lemma float_strict_total :
  (forall a, bf_built a -> bf_lt a a = false) /\
  (forall a b c, bf_built a -> bf_built b -> bf_built c -> bf_lt a b = true -> bf_lt b c = true -> bf_lt a c = true) /\
  (forall a b, bf_built a -> bf_built b -> bf_lt a b = true \/ bf_equal a b = true \/ bf_lt b a = true) /\
  (forall a b, bf_built a -> bf_built b -> bf_gt a b = bf_lt b a).
Proof.
  assert (T : forall x p y q z r, bf_lt (fl x p) (fl y q) = true -> bf_lt (fl y q) (fl z r) = true -> bf_lt (fl x p) (fl z r) = true).
  { intros x p y q z r. rewrite !lt_fl. intros H H'.
    destruct (int_lt_total x y) as [L|[->|L]].
    - destruct (int_lt_total y z) as [L'|[<-|L']].
      + now rewrite (int_lt_trans x y z).
      + now rewrite L.
      + rewrite L', (int_lt_asym _ _ L') in H'. discriminate.
    - rewrite int_lt_irrefl in H. destruct (int_lt y z); [reflexivity|]. destruct (int_lt z y); [discriminate|]. eapply int_lt_trans; eauto.
    - rewrite L, (int_lt_asym _ _ L) in H. discriminate. }
  split; [|split; [|split]].
  - intros a A. apply bf_built_fl in A as (x & p & ->). rewrite lt_fl, int_lt_irrefl. apply int_lt_irrefl.
  - intros a b c A B C. apply bf_built_fl in A as (x & p & ->). apply bf_built_fl in B as (y & q & ->). apply bf_built_fl in C as (z & r & ->). apply T.
  - intros a b A B. apply bf_built_fl in A as (x & p & ->). apply bf_built_fl in B as (y & q & ->). rewrite !lt_fl, equal_fl.
    destruct (int_lt_total x y) as [L|[->|L]]; [rewrite L; auto| |rewrite L; auto].
    rewrite int_lt_irrefl. destruct (int_lt_total p q) as [L|[->|L]]; [rewrite L; auto| |rewrite L; auto]. right. left. lia.
  - intros a b A B. apply bf_built_fl in A as (x & p & ->). apply bf_built_fl in B as (y & q & ->). unfold bf_gt. rewrite !lt_fl, equal_fl.
    destruct (int_lt_total x y) as [L|[->|L]].
    + rewrite L, (int_lt_asym _ _ L). reflexivity.
    + rewrite int_lt_irrefl, Z.eqb_refl. cbn [andb]. destruct (int_lt_total p q) as [L|[->|L]].
      * rewrite L, (int_lt_asym _ _ L). reflexivity.
      * rewrite int_lt_irrefl, Z.eqb_refl. reflexivity.
      * rewrite L, (int_lt_asym _ _ L). replace (p =? q) with false; [reflexivity|]. symmetry. apply Z.eqb_neq. intros ->. now rewrite int_lt_irrefl in L.
    + rewrite L, (int_lt_asym _ _ L). replace (x =? y) with false; [reflexivity|]. symmetry. apply Z.eqb_neq. intros ->. now rewrite int_lt_irrefl in L.
Qed.
(** 1.5 < 1.15, and 1.5 is not Equal to 1.50 *)
Lemma order_wrong : exists a b c, bf_of_string (ascii_chars [49; 46; 53]%N) = Ok a /\
  bf_of_string (ascii_chars [49; 46; 49; 53]%N) = Ok b /\ bf_of_string (ascii_chars [49; 46; 53; 48]%N) = Ok c /\
  bf_lt a b = true /\ bf_equal a c = false.
Proof. exists (fl 1 5), (fl 1 15), (fl 1 50). repeat split. Qed.

(** ** C57 *)
Lemma pow_shows a x e : bf_built a -> fshows a x 0 -> 0 <= e <= 2147483647 ->
  exists r, bf_pow a e = Ok r /\ fshows r ((100 * x) ^ e) 0.
Proof. intros A S H. rewrite (fshows_fl _ _ _ A S), pow_whole by exact H. eexists. split; [reflexivity|apply fl_shows]. Qed.
Lemma pow_neg a e : e < 0 -> bf_pow a e = Throw EInvalidArgument.
Proof. intros H. unfold bf_pow. now replace (e <? 0) with true by lia. Qed.
Lemma sqrt_shows a n : bf_built a -> fshows a n 0 -> 2 <= n -> forall fuel, n < 2 ^ Z.of_nat fuel ->
  exists r, bf_sqrt fuel a = Ok r /\ fshows r (Z.sqrt (n / 100)) 0.
Proof. intros A S H fuel L. rewrite (fshows_fl _ _ _ A S), sqrt_whole by lia. eexists. split; [reflexivity|apply fl_shows]. Qed.
Lemma sqrt_small_shows a n : bf_built a -> fshows a n 0 -> n < 2 -> forall fuel, bf_sqrt fuel a = Ok a.
Proof.
  intros A S H fuel. rewrite (fshows_fl _ _ _ A S). destruct (Z_lt_ge_dec n 0); [now apply sqrt_negative_whole|apply sqrt_trivial; lia].
Qed.
Lemma pow_wrong : exists a r, bf_of_string (ascii_chars [50%N]) = Ok a /\ bf_pow a 3 = Ok r /\ fshows r 8000000 0.
Proof. exists (fl 2 0), (fl 8000000 0). split; [reflexivity|]. split; [reflexivity|apply fl_shows]. Qed.
Lemma sqrt_wrong_f : exists a, bf_of_string (ascii_chars [49; 54]%N) = Ok a /\
  forall fuel, (5 <= fuel)%nat -> exists r, bf_sqrt fuel a = Ok r /\ fshows r 0 0.
Proof.
  exists (fl 16 0). split; [reflexivity|]. intros fuel L. rewrite sqrt_whole; [eexists; split; [reflexivity|]; apply fl_shows|].
  split; [lia|]. apply Z.lt_le_trans with (2 ^ 5); [reflexivity|]. apply Z.pow_le_mono_r; lia.
Qed.
Lemma abs_shows a x p : bf_built a -> fshows a x p -> fshows (bf_abs a) x p.
Proof. intros A S. rewrite (fshows_fl _ _ _ A S). apply fl_shows. Qed.
