(** What the operations of BigFloat do to [fl x p]. *)
From Coq Require Import List NArith ZArith Bool Arith Lia ZifyBool ZifyN ZifyNat.
From Verif Require Import Outcome CharModel CharUtil StrModel StrUtil Dec BigInt SpecUtf8 SpecChar SpecStr SpecInt
  CharProofs CharUtilProofs StrProofs DecProofs BigIntProofs BigIntStates BigIntFacts BigFloat SpecFloat BigFloatProofs.
Import ListNotations.
Local Open Scope Z_scope.

(** ** Addition and subtraction *)
Lemma add_whole fuel x y : 0 <= x -> 0 <= y -> bf_add fuel (fl x 0) (fl y 0) = Ok (fl (x + y) 0).
Proof.
  intros Hx Hy. unfold bf_add, fl. cbn [bf_int bf_frac].
  rewrite align_done by (rewrite size_zero; lia). cbn [bind].
  rewrite align_done by (rewrite size_zero; lia). cbn [bind].
  rewrite num_add by lia. cbn [bind]. change (0 + 0) with 0. replace (Nat.ltb (bi_size (num 0)) (bi_size (num 0))) with false by (rewrite size_zero; reflexivity).
  cbn [bind]. rewrite num_add by lia. cbn [bind].
  rewrite of_dotted_wf by apply num_wf. now rewrite !num_value.
Qed.

Lemma digits_range p k : 0 < p -> num_digits p k -> (1 <= k)%nat /\ 10 ^ Z.of_nat (k - 1) <= p < 10 ^ Z.of_nat k.
Proof. intros H [[? _]|D]; [lia|exact D]. Qed.

Lemma pow_split k : (1 <= k)%nat -> 10 ^ Z.of_nat k = 10 * 10 ^ Z.of_nat (k - 1).
Proof. intros H. replace (Z.of_nat k) with (Z.of_nat (k - 1) + 1) by lia. rewrite Z.pow_add_r by lia. lia. Qed.

Lemma pow10_ge_linear k : (1 <= k)%nat -> 10 * Z.of_nat k <= 10 ^ Z.of_nat k.
Proof.
  induction k as [|k IH]; [lia|]. intros _. destruct k as [|k]; [cbn; lia|].
  specialize (IH ltac:(lia)). rewrite (Nat2Z.inj_succ (S k)), Z.pow_succ_r by lia. lia.
Qed.

Lemma aligned fuel p q k j : 0 < p -> 0 < q -> num_digits p k -> num_digits q j -> (Nat.max k j <= fuel)%nat ->
  let K := Nat.max k j in
  let P := p * 10 ^ Z.of_nat (K - k) in let Q := q * 10 ^ Z.of_nat (K - j) in
  bf_align fuel (num p) (bi_size (num q)) = Ok (num P) /\
  bf_align fuel (num q) (bi_size (num P)) = Ok (num Q) /\
  bi_size (num P) = K /\ num_digits P K /\ num_digits Q K /\ 0 < P /\ 0 < Q.
Proof.
  intros Hp Hq Dp Dq L K P Q.
  assert (0 < P) by (unfold P; pose proof (p10 (K - k)); nia).
  assert (0 < Q) by (unfold Q; pose proof (p10 (K - j)); nia).
  assert (DP : num_digits P K).
  { pose proof (digits_mul10 p k (K - k) Hp Dp) as D. replace (k + (K - k))%nat with K in D by lia. exact D. }
  assert (DQ : num_digits Q K).
  { pose proof (digits_mul10 q j (K - j) Hq Dq) as D. replace (j + (K - j))%nat with K in D by lia. exact D. }
  assert (SP : bi_size (num P) = K) by (apply size_num; auto; lia).
  repeat split; auto.
  - rewrite (size_num q j) by (auto; lia). rewrite (align_spec fuel p k j) by (auto; lia).
    unfold P. do 4 f_equal. lia.
  - rewrite SP. rewrite (align_spec fuel q j K) by (auto; lia). reflexivity.
Qed.

Lemma add_frac fuel x p k y q j : 0 <= x -> 0 <= y -> 0 < p -> 0 < q -> num_digits p k -> num_digits q j ->
  (Nat.max k j <= fuel)%nat ->
  let K := Nat.max k j in
  let s := p * 10 ^ Z.of_nat (K - k) + q * 10 ^ Z.of_nat (K - j) in
  bf_add fuel (fl x p) (fl y q) =
  Ok (if s <? 10 ^ Z.of_nat K then fl (x + y) s else fl (x + y + 1) (s - 10 * Z.of_nat K)).
Proof.
  intros Hx Hy Hp Hq Dp Dq L K s.
  destruct (aligned fuel p q k j Hp Hq Dp Dq L) as (E1 & E2 & SP & DP & DQ & PP & PQ). fold K in E1, E2, SP, DP, DQ, PP, PQ.
  set (P := p * 10 ^ Z.of_nat (K - k)) in *. set (Q := q * 10 ^ Z.of_nat (K - j)) in *.
  unfold bf_add, fl. cbn [bf_int bf_frac]. rewrite E1. cbn [bind]. rewrite E2. cbn [bind].
  rewrite num_add by lia. cbn [bind]. fold s. rewrite SP.
  destruct (digits_range P K PP DP) as [K1 RP]. destruct (digits_range Q K PQ DQ) as [_ RQ].
  pose proof (pow_split K K1). pose proof (p10 (K - 1)).
  destruct (s <? 10 ^ Z.of_nat K) eqn:C.
  - assert (Ss : bi_size (num s) = K) by (apply size_num; [lia|right; lia]).
    rewrite Ss. replace (Nat.ltb K K) with false by lia. cbn [bind]. rewrite num_add by lia. cbn [bind].
    rewrite of_dotted_wf by apply num_wf. now rewrite !num_value.
  - assert (Ss : bi_size (num s) = S K).
    { apply size_num; [lia|right]. replace (S K - 1)%nat with K by lia.
      rewrite Nat2Z.inj_succ, Z.pow_succ_r by lia. lia. }
    rewrite Ss. replace (Nat.ltb K (S K)) with true by lia. rewrite num_of_int. cbn [bind].
    rewrite <- num_10, num_mul. cbn [bind]. rewrite num_sub by lia. cbn [bind]. rewrite num_add by lia. cbn [bind].
    rewrite <- num_1, num_add by lia. cbn [bind].
    rewrite of_dotted_wf by apply num_wf. now rewrite !num_value.
Qed.

Lemma add_diverges fuel x p y q : 0 <= p -> 0 <= q -> (p = 0 <-> q <> 0) ->
  bf_add fuel (fl x p) (fl y q) = NoFuel /\ bf_sub fuel (fl x p) (fl y q) = NoFuel.
Proof.
  intros Hp Hq H. unfold bf_add, bf_sub, fl. cbn [bf_int bf_frac].
  assert (SS : forall z, 0 < z -> (0 < bi_size (num z))%nat).
  { intros z Hz. pose proof (size_digits z) as D. rewrite Z.abs_eq in D by lia. apply digits_range in D; lia. }
  destruct (Z.eq_dec p 0) as [->|N].
  - rewrite align_zero; [auto|]. apply SS. lia.
  - assert (q = 0) as -> by lia. rewrite align_done by (rewrite size_zero; lia). cbn [bind].
    rewrite align_zero; [auto|]. apply SS. lia.
Qed.

Lemma sub_one d : exists r, bi_sub (num d) (num 1) = Ok r /\ bi_wf r /\ bi_value r = if d <? 0 then d + 1 else d - 1.
Proof.
  destruct (bi_sub_spec (num d) (num 1)) as (r & E & W & V & _); auto using num_wf. exists r. split; [exact E|]. split; [exact W|].
  rewrite V. unfold sub_result. rewrite !num_neg, !num_value. destruct (d <? 0) eqn:N; cbn [Bool.eqb Z.ltb Z.compare]; lia.
Qed.

Lemma sub_whole fuel x y : 0 <= x -> 0 <= y -> bf_sub fuel (fl x 0) (fl y 0) = Ok (fl (x - y) 0).
Proof.
  intros Hx Hy. unfold bf_sub, fl. cbn [bf_int bf_frac].
  rewrite align_done by (rewrite size_zero; lia). cbn [bind].
  rewrite align_done by (rewrite size_zero; lia). cbn [bind].
  rewrite num_lt. change (int_lt 0 0) with false. cbn [bind].
  rewrite num_sub by lia. cbn [bind]. rewrite num_sub by lia. cbn [bind].
  rewrite of_dotted_wf by apply num_wf. now rewrite !num_value.
Qed.

Lemma sub_frac fuel x p k y q j : 0 <= x -> 0 <= y -> 0 < p -> 0 < q -> num_digits p k -> num_digits q j ->
  (Nat.max k j <= fuel)%nat ->
  let K := Nat.max k j in
  let d := p * 10 ^ Z.of_nat (K - k) - q * 10 ^ Z.of_nat (K - j) in
  bf_sub fuel (fl x p) (fl y q) =
  Ok (if 0 <=? d then fl (x - y) d
      else fl (if x - y <? 0 then x - y + 1 else x - y - 1) (d + 10 * Z.of_nat K)).
Proof.
  intros Hx Hy Hp Hq Dp Dq L K d.
  destruct (aligned fuel p q k j Hp Hq Dp Dq L) as (E1 & E2 & SP & DP & DQ & PP & PQ). fold K in E1, E2, SP, DP, DQ, PP, PQ.
  set (P := p * 10 ^ Z.of_nat (K - k)) in *. set (Q := q * 10 ^ Z.of_nat (K - j)) in *.
  unfold bf_sub, fl. cbn [bf_int bf_frac]. rewrite E1. cbn [bind]. rewrite E2. cbn [bind].
  rewrite num_lt. unfold int_lt. replace (P <? 0) with false by lia. cbn [andb].
  destruct (P <? Q) eqn:C.
  - replace (0 <=? d) with false by lia. rewrite SP, num_of_int. cbn [bind]. rewrite <- num_10, num_mul. cbn [bind].
    rewrite num_add by lia. cbn [bind]. rewrite num_sub by lia. cbn [bind]. rewrite num_sub by lia. cbn [bind].
    destruct (sub_one (x - y)) as (r & E & W & V). rewrite <- num_1, E. cbn [bind].
    rewrite of_dotted_wf by (assumption || apply num_wf). rewrite !num_value, V. unfold fl. do 3 f_equal. lia.
  - replace (0 <=? d) with true by lia. cbn [bind].
    rewrite num_sub by lia. cbn [bind]. rewrite num_sub by lia. cbn [bind].
    rewrite of_dotted_wf by apply num_wf. now rewrite !num_value.
Qed.

(** ** Placing the point *)
Lemma fill_zero n : string_fill_byte n 48 = Ok (ascii_chars (repeat 48%N n)).
Proof. induction n as [|n IH]; [reflexivity|]. cbn [string_fill_byte]. rewrite IH. reflexivity. Qed.

Lemma size_sub_le a b : (b <= a)%N -> size_sub a b = (a - b)%N.
Proof. intros H. unfold size_sub. now replace (b <=? a)%N with true by lia. Qed.

Lemma place_long t T : (T < length t)%nat ->
  place_point (ascii_chars t) (N.of_nat T) =
  Ok (ascii_chars (firstn (length t - T) t ++ 46%N :: skipn (length t - T) t)).
Proof.
  intros H. unfold place_point. rewrite ascii_length.
  replace (N.of_nat (length t) <=? N.of_nat T)%N with false by lia. cbn [bind].
  unfold s_insert_n_char. rewrite ascii_length. rewrite size_sub_le by lia.
  replace (N.of_nat (length t) <? N.of_nat (length t) - N.of_nat T)%N with false by lia.
  unfold vec_insert. replace (N.to_nat (N.of_nat (length t) - N.of_nat T)) with (length t - T)%nat by lia.
  rewrite firstn_ascii, skipn_ascii, ascii_app. reflexivity.
Qed.

Lemma place_short t T : (length t <= T)%nat -> t <> [] -> Z.of_nat T < 2 ^ 57 ->
  place_point (ascii_chars t) (N.of_nat T) = Ok (ascii_chars ([48%N] ++ 46%N :: repeat 48%N (T - length t) ++ t)).
Proof.
  intros H N B. assert (length t <> 0)%nat by (destruct t; cbn; [congruence|lia]).
  unfold place_point. rewrite ascii_length.
  replace (N.of_nat (length t) <=? N.of_nat T)%N with true by lia.
  rewrite size_sub_le by lia. unfold zeros, max_chars.
  replace (288230376151711743 <? N.of_nat T - N.of_nat (length t) + 1)%N with false by lia.
  replace (N.to_nat (N.of_nat T - N.of_nat (length t) + 1)) with (S (T - length t)) by lia.
  rewrite fill_zero. cbn [bind]. unfold s_insert. rewrite ascii_length.
  replace (N.of_nat (length t) <? 0)%N with false by lia. cbn [bind].
  unfold vec_insert. cbn [N.to_nat firstn skipn app]. rewrite <- ascii_app.
  unfold s_insert_n_char. rewrite ascii_length, app_length, repeat_length.
  rewrite size_sub_le by lia.
  replace (N.of_nat (S (T - length t) + length t) <? N.of_nat (S (T - length t) + length t) - N.of_nat T)%N with false by lia.
  unfold vec_insert. replace (N.to_nat (N.of_nat (S (T - length t) + length t) - N.of_nat T)) with 1%nat by lia.
  reflexivity.
Qed.

(** The digits of a positive integer *)
Lemma canonical_nonneg t z : canonical_numeral t z -> 0 <= z -> Forall ascii_digit t /\ digits_value t = z.
Proof.
  intros [|ds d r E N F|ds d r E N F] H; [split; [repeat constructor; unfold ascii_digit; lia|reflexivity]|auto|].
  exfalso. rewrite E in *. pose proof (digits_value_lead _ _ F N). pose proof (p10 (length r)). lia.
Qed.
Lemma dec_nonneg z : 0 <= z -> Forall ascii_digit (dec_of_Z z) /\ digits_value (dec_of_Z z) = z.
Proof. apply canonical_nonneg, dec_of_Z_canonical. Qed.
Lemma dec_neg z : z < 0 -> dec_of_Z z = 45%N :: dec_of_Z (- z).
Proof. intros H. unfold dec_of_Z. replace (z <? 0) with true by lia. replace (- z <? 0) with false by lia. reflexivity. Qed.

Lemma canonical_digits t p : canonical_numeral t p -> 0 < p -> num_digits p (length t).
Proof.
  intros [|ds d r E N F|ds d r E N F] H; [lia| |].
  - right. rewrite E in *. split; [cbn; lia|]. pose proof (digits_value_bound _ F). pose proof (digits_value_lead _ _ F N).
    cbn [length] in *. replace (S (length r) - 1)%nat with (length r) by lia. lia.
  - exfalso. rewrite E in *. pose proof (digits_value_lead _ _ F N). pose proof (p10 (length r)). lia.
Qed.
Lemma length_dec p k : 0 <= p -> num_digits p k -> length (dec_of_Z p) = Nat.max 1 k.
Proof.
  intros H D. destruct D as [[-> ->]|[K1 D]]; [reflexivity|]. pose proof (p10 (k - 1)).
  rewrite (num_digits_fun p _ k (canonical_digits _ _ (dec_of_Z_canonical p) ltac:(lia)) ltac:(right; auto)). lia.
Qed.

Lemma or_zero_digits t : Forall ascii_digit t -> bi_of_string (ascii_chars (or_zero t)) = Ok (num (digits_value t)).
Proof.
  intros F. destruct t as [|b t]; [reflexivity|]. apply num_of_string. apply num_plain; [discriminate|exact F].
Qed.

Lemma digits_split R T : 0 <= R -> let t := dec_of_Z R in (T <= length t)%nat ->
  Forall ascii_digit (firstn (length t - T) t) /\ Forall ascii_digit (skipn (length t - T) t) /\
  digits_value (firstn (length t - T) t) = R / 10 ^ Z.of_nat T /\ digits_value (skipn (length t - T) t) = R mod 10 ^ Z.of_nat T.
Proof.
  intros H t L. destruct (dec_nonneg R H) as [F V]. fold t in F, V.
  rewrite <- (firstn_skipn (length t - T) t) in F. apply Forall_app in F as [F1 F2].
  assert (LS : length (skipn (length t - T) t) = T) by (rewrite skipn_length; lia).
  pose proof (digits_value_bound _ F2) as B. rewrite LS in B.
  pose proof (digits_value_app (firstn (length t - T) t) (skipn (length t - T) t)) as A. rewrite firstn_skipn, LS, V in A.
  repeat split; auto; apply (Z.div_unique R _ _ _) || idtac.
  - apply (Z.div_unique R _ _ (digits_value (skipn (length t - T) t))); lia.
  - apply (Z.mod_unique R _ (digits_value (firstn (length t - T) t))); lia.
Qed.

Lemma place_nonneg R T : 0 <= R -> T = O \/ Z.of_nat T < 2 ^ 57 ->
  (s <- place_point (ascii_chars (dec_of_Z R)) (N.of_nat T) ;; bf_of_string s) =
  Ok (fl (R / 10 ^ Z.of_nat T) (R mod 10 ^ Z.of_nat T)).
Proof.
  intros H B1. destruct (Nat.lt_ge_cases T (length (dec_of_Z R))) as [L|L].
  - rewrite place_long by assumption. cbn [bind].
    destruct (digits_split R T H ltac:(lia)) as (F1 & F2 & V1 & V2).
    rewrite of_string_dot; [|intros I; rewrite Forall_forall in F1; specialize (F1 _ I); unfold ascii_digit in F1; lia].
    rewrite !or_zero_digits by assumption. cbn [bind]. now rewrite V1, V2.
  - destruct (dec_nonneg R H) as [F V].
    rewrite place_short by (auto using dec_nonempty; lia). cbn [bind].
    rewrite of_string_dot by (cbn; lia). change (or_zero [48%N]) with [48%N].
    assert (F' : Forall ascii_digit (repeat 48%N (T - length (dec_of_Z R)) ++ dec_of_Z R)).
    { apply Forall_app. split; [|assumption]. apply Forall_forall. intros x I. apply repeat_spec in I. subst. unfold ascii_digit. lia. }
    rewrite (or_zero_digits _ F').
    assert (V' : digits_value (repeat 48%N (T - length (dec_of_Z R)) ++ dec_of_Z R) = R).
    { rewrite digits_value_app, V. enough (E : forall n, digits_value (repeat 48%N n) = 0) by (rewrite E; lia).
      induction n as [|n IH]; [reflexivity|]. cbn [repeat]. rewrite digits_value_cons, IH. lia. }
    rewrite V'. pose proof (digits_value_bound _ F) as B. rewrite V in B.
    assert (R < 10 ^ Z.of_nat T). { eapply Z.lt_le_trans; [apply B|]. apply Z.pow_le_mono_r; lia. }
    rewrite Z.div_small, Z.mod_small by lia. reflexivity.
Qed.

Lemma place_neg R T : R < 0 -> (T <= length (dec_of_Z (- R)))%nat ->
  (s <- place_point (ascii_chars (dec_of_Z R)) (N.of_nat T) ;; bf_of_string s) =
  Ok (fl (Z.quot R (10 ^ Z.of_nat T)) ((- R) mod 10 ^ Z.of_nat T)).
Proof.
  intros H L. rewrite dec_neg by exact H. rewrite place_long by (cbn [length]; lia). cbn [bind].
  destruct (digits_split (- R) T ltac:(lia) L) as (F1 & F2 & V1 & V2).
  assert (Q : Z.quot R (10 ^ Z.of_nat T) = - ((- R) / 10 ^ Z.of_nat T)).
  { pose proof (p10 T). rewrite <- Z.quot_div_nonneg by lia. rewrite Z.quot_opp_l by lia. lia. }
  cbn [length]. replace (S (length (dec_of_Z (- R))) - T)%nat with (S (length (dec_of_Z (- R)) - T)) by lia.
  cbn [firstn skipn]. rewrite of_string_dot.
  2:{ intros [I|I]; [discriminate|]. rewrite Forall_forall in F1; specialize (F1 _ I); unfold ascii_digit in F1; lia. }
  cbn [or_zero].
  assert (E1 : bi_of_string (ascii_chars (45%N :: firstn (length (dec_of_Z (- R)) - T) (dec_of_Z (- R)))) = Ok (num (Z.quot R (10 ^ Z.of_nat T)))).
  { rewrite Q, <- V1. destruct (firstn (length (dec_of_Z (- R)) - T) (dec_of_Z (- R))) as [|b r] eqn:E; [reflexivity|].
    apply num_of_string. apply num_minus; [discriminate|assumption]. }
  rewrite E1, (or_zero_digits _ F2). cbn [bind]. now rewrite V2.
Qed.

(** ** Multiplication *)
Lemma joined_numeral x p : 0 <= p -> int_numeral (dec_of_Z x ++ dec_of_Z p) (joined x p (length (dec_of_Z p))).
Proof.
  intros H. destruct (dec_nonneg p H) as [F V]. unfold joined. destruct (x <? 0) eqn:N.
  - rewrite dec_neg by lia. destruct (dec_nonneg (- x) ltac:(lia)) as [F' V']. cbn [app].
    replace (x * 10 ^ Z.of_nat (length (dec_of_Z p)) - p) with (- digits_value (dec_of_Z (- x) ++ dec_of_Z p)).
    + apply num_minus; [|now apply Forall_app]. pose proof (dec_nonempty (- x)). destruct (dec_of_Z (- x)); [congruence|discriminate].
    + rewrite digits_value_app, V, V'. lia.
  - destruct (dec_nonneg x ltac:(lia)) as [F' V'].
    replace (x * 10 ^ Z.of_nat (length (dec_of_Z p)) + p) with (digits_value (dec_of_Z x ++ dec_of_Z p)).
    + apply num_plain; [|now apply Forall_app]. pose proof (dec_nonempty x). destruct (dec_of_Z x); [congruence|discriminate].
    + rewrite digits_value_app, V, V'. lia.
Qed.

Lemma full_text_fl x p : full_text (fl x p) = Ok (ascii_chars (dec_of_Z x ++ dec_of_Z p)).
Proof. unfold full_text, fl. cbn [bf_int bf_frac]. rewrite !num_to_string. cbn [bind]. rewrite s_plus_app, ascii_app. reflexivity. Qed.

Lemma joined_abs x p L : 0 <= p -> Z.abs (joined x p L) = Z.abs x * 10 ^ Z.of_nat L + p.
Proof. intros H. pose proof (p10 L). unfold joined. destruct (x <? 0) eqn:N; nia. Qed.
Lemma joined_sign x p L : 0 <= p -> (joined x p L < 0 <-> x < 0).
Proof. intros H. pose proof (p10 L). unfold joined. destruct (x <? 0) eqn:N; nia. Qed.

Lemma joined_lower x p k : 0 <= p -> num_digits p k -> joined x p (Nat.max 1 k) <> 0 ->
  10 ^ Z.of_nat (k - 1) <= Z.abs (joined x p (Nat.max 1 k)) /\ (x <> 0 -> 10 ^ Z.of_nat k <= Z.abs (joined x p (Nat.max 1 k))).
Proof.
  intros H D N. rewrite joined_abs by exact H.
  assert (X : x <> 0 -> 10 ^ Z.of_nat k <= Z.abs x * 10 ^ Z.of_nat (Nat.max 1 k) + p).
  { intros Nx. assert (10 ^ Z.of_nat k <= 10 ^ Z.of_nat (Nat.max 1 k)) by (apply Z.pow_le_mono_r; lia).
    pose proof (p10 (Nat.max 1 k)). nia. }
  split; [|exact X]. destruct (Z.eq_dec x 0) as [->|Nx].
  - destruct D as [[-> ->]|[K D]].
    + exfalso. apply N. reflexivity.
    + lia.
  - specialize (X Nx). assert (10 ^ Z.of_nat (k - 1) <= 10 ^ Z.of_nat k) by (apply Z.pow_le_mono_r; lia). lia.
Qed.

Lemma length_dec_lower z n : 10 ^ Z.of_nat n <= z -> (n < length (dec_of_Z z))%nat.
Proof.
  intros H. pose proof (p10 n). destruct (dec_nonneg z ltac:(lia)) as [F V]. pose proof (digits_value_bound _ F) as B. rewrite V in B.
  apply pow_lt_inv. lia.
Qed.
Lemma length_dec_upper z n : 0 <= z < 10 ^ Z.of_nat n -> (length (dec_of_Z z) <= Nat.max 1 n)%nat.
Proof.
  intros H. pose proof (size_digits z) as D. rewrite Z.abs_eq in D by lia. rewrite (length_dec z _ ltac:(lia) D).
  destruct D as [[_ ->]|[K D]]; [lia|]. assert (10 ^ Z.of_nat (bi_size (num z) - 1) < 10 ^ Z.of_nat n) as L by lia.
  apply pow_lt_inv in L. lia.
Qed.

Lemma joined_upper x p k i : 0 <= p -> num_digits p k -> num_digits (Z.abs x) i ->
  Z.abs (joined x p (Nat.max 1 k)) < 10 ^ Z.of_nat (i + Nat.max 1 k).
Proof.
  intros H D I. rewrite joined_abs by exact H.
  assert (p < 10 ^ Z.of_nat (Nat.max 1 k)).
  { destruct D as [[-> _]|[K D]]; [apply p10|]. eapply Z.lt_le_trans; [apply D|]. apply Z.pow_le_mono_r; lia. }
  assert (Z.abs x < 10 ^ Z.of_nat i) by (destruct I as [[-> ->]|[_ I]]; [cbn; lia|lia]).
  rewrite Nat2Z.inj_add, Z.pow_add_r by lia. nia.
Qed.

Lemma small_digits x k : small x -> num_digits (Z.abs x) k -> Z.of_nat k <= 2 ^ 55.
Proof. intros (k' & D' & L) D. now rewrite (num_digits_fun _ _ _ D D'). Qed.

Lemma num_digits_exists p : 0 <= p -> num_digits p (bi_size (num p)).
Proof. intros H. pose proof (size_digits p) as D. now rewrite Z.abs_eq in D. Qed.

Lemma mul_fl x p k y q j : k = O /\ j = O \/ small p /\ small q ->
  0 <= p -> 0 <= q -> num_digits p k -> num_digits q j ->
  let M := joined x p (Nat.max 1 k) * joined y q (Nat.max 1 j) in
  bf_mul (fl x p) (fl y q) = Ok (fl (Z.quot M (10 ^ Z.of_nat (k + j))) (Z.abs M mod 10 ^ Z.of_nat (k + j))).
Proof.
  intros S Hp Hq Dp Dq M. unfold bf_mul. rewrite !full_text_fl. cbn [bind].
  rewrite (num_of_string _ _ (joined_numeral x p Hp)). cbn [bind].
  rewrite (num_of_string _ _ (joined_numeral y q Hq)). cbn [bind].
  rewrite num_mul. cbn [bind]. rewrite num_to_string. cbn [bind].
  rewrite (length_dec p k), (length_dec q j) by assumption. fold M.
  unfold fl at 1 2. cbn [bf_frac]. rewrite (size_num p k), (size_num q j) by assumption.
  assert (K : (k + j)%nat = O \/ Z.of_nat (k + j) < 2 ^ 57).
  { destruct S as [S|[Sp Sq]]; [lia|]. right.
    pose proof (small_digits p k Sp ltac:(now rewrite Z.abs_eq by lia)) as Kp.
    pose proof (small_digits q j Sq ltac:(now rewrite Z.abs_eq by lia)) as Kq. lia. }
  replace (N.of_nat k + N.of_nat j)%N with (N.of_nat (k + j)) by lia.
  destruct (Z_lt_le_dec M 0) as [N|N].
  - rewrite (Z.abs_neq M) in * by lia. apply place_neg; [exact N|].
    assert (N1 : joined x p (Nat.max 1 k) <> 0) by (intros E; unfold M in N; rewrite E in N; lia).
    assert (N2 : joined y q (Nat.max 1 j) <> 0) by (intros E; unfold M in N; rewrite E in N; lia).
    destruct (joined_lower x p k Hp Dp N1) as [A1 B1]. destruct (joined_lower y q j Hq Dq N2) as [A2 B2].
    assert (SG : x < 0 \/ y < 0).
    { pose proof (joined_sign x p (Nat.max 1 k) Hp). pose proof (joined_sign y q (Nat.max 1 j) Hq). unfold M in N. nia. }
    assert (LB : 10 ^ Z.of_nat (k + j - 1) <= - M).
    { rewrite <- (Z.abs_neq M) by lia. unfold M. rewrite Z.abs_mul.
      pose proof (p10 (k - 1)). pose proof (p10 (j - 1)). pose proof (p10 k). pose proof (p10 j).
      destruct SG as [SG|SG]; [specialize (B1 ltac:(lia))|specialize (B2 ltac:(lia))].
      - apply Z.le_trans with (10 ^ Z.of_nat k * 10 ^ Z.of_nat (j - 1)); [|nia].
        rewrite <- Z.pow_add_r by lia. apply Z.pow_le_mono_r; lia.
      - apply Z.le_trans with (10 ^ Z.of_nat (k - 1) * 10 ^ Z.of_nat j); [|nia].
        rewrite <- Z.pow_add_r by lia. apply Z.pow_le_mono_r; lia. }
    apply length_dec_lower in LB. lia.
  - rewrite (Z.abs_eq M) in * by lia. rewrite Z.quot_div_nonneg by (auto using p10). apply place_nonneg; [exact N|exact K].
Qed.

(** ** Division *)
Lemma fl_zero : bf_zero = fl 0 0. Proof. reflexivity. Qed.
Lemma fl_one : bf_one = fl 1 0. Proof. reflexivity. Qed.
Lemma fl_two : bf_two = fl 2 0. Proof. reflexivity. Qed.
Lemma equal_fl x p y q : bf_equal (fl x p) (fl y q) = (x =? y) && (p =? q).
Proof. unfold bf_equal, fl. cbn [bf_int bf_frac bf_neg]. rewrite !num_equal. cbn [Bool.eqb]. now rewrite andb_true_r. Qed.
Lemma lt_fl x p y q : bf_lt (fl x p) (fl y q) = if int_lt x y then true else if int_lt y x then false else int_lt p q.
Proof. unfold bf_lt, fl. cbn [bf_int bf_frac bf_neg Bool.eqb negb]. now rewrite num_gt, !num_lt. Qed.

Lemma joined_zero x p L : 0 <= p -> joined x p L = 0 -> x = 0 /\ p = 0.
Proof. intros H E. pose proof (joined_abs x p L H) as A. rewrite E in A. pose proof (p10 L). nia. Qed.

Lemma div_prepare x p k y q j : 0 <= p -> 0 <= q -> num_digits p k -> num_digits q j -> (y <> 0 \/ q <> 0) ->
  let R := Z.quot (joined x p (Nat.max 1 k)) (joined y q (Nat.max 1 j)) in
  bf_div (fl x p) (fl y q) =
  (s <- place_point (ascii_chars (dec_of_Z R)) (size_sub (N.of_nat k) (N.of_nat j)) ;; bf_of_string s).
Proof.
  intros Hp Hq Dp Dq N R. unfold bf_div. rewrite fl_zero, equal_fl.
  replace ((y =? 0) && (q =? 0)) with false by lia. rewrite !full_text_fl. cbn [bind].
  rewrite (num_of_string _ _ (joined_numeral x p Hp)). cbn [bind].
  rewrite (num_of_string _ _ (joined_numeral y q Hq)). cbn [bind].
  rewrite (length_dec p k), (length_dec q j) by assumption.
  rewrite num_div by (intros E; apply joined_zero in E; lia). cbn [bind]. rewrite num_to_string. cbn [bind].
  unfold fl. cbn [bf_frac]. rewrite (size_num p k), (size_num q j) by assumption. reflexivity.
Qed.

Lemma quot_bound a b : Z.abs (Z.quot a b) <= Z.abs a.
Proof.
  destruct (Z.eq_dec b 0) as [->|N]; [destruct a; cbn; lia|].
  rewrite <- Z.quot_abs by exact N. destruct (Z.eq_dec (Z.abs a) 0) as [E|E]; [rewrite E, Z.quot_0_l; lia|].
  rewrite Z.quot_div_nonneg by lia. apply Z.div_le_upper_bound; nia.
Qed.

Lemma div_fl x p k y q j : k = O \/ small p ->
  0 <= p -> 0 <= q -> num_digits p k -> num_digits q j -> (y <> 0 \/ q <> 0) -> (j <= k)%nat ->
  let R := Z.quot (joined x p (Nat.max 1 k)) (joined y q (Nat.max 1 j)) in
  0 <= R \/ 10 ^ Z.of_nat (k - j - 1) <= - R ->
  bf_div (fl x p) (fl y q) = Ok (fl (Z.quot R (10 ^ Z.of_nat (k - j))) (Z.abs R mod 10 ^ Z.of_nat (k - j))).
Proof.
  intros Sp Hp Hq Dp Dq N L R HR. rewrite (div_prepare x p k y q j) by assumption. fold R. clearbody R.
  assert (K : (k - j)%nat = O \/ Z.of_nat (k - j) < 2 ^ 57).
  { destruct Sp as [Sp|Sp]; [lia|]. pose proof (small_digits p k Sp ltac:(now rewrite Z.abs_eq by lia)). lia. }
  rewrite size_sub_le by lia. replace (N.of_nat k - N.of_nat j)%N with (N.of_nat (k - j)) by lia.
  destruct HR as [HR|HR].
  - rewrite (Z.abs_eq R) in * by lia. rewrite Z.quot_div_nonneg by (auto using p10). apply place_nonneg; [exact HR|exact K].
  - pose proof (p10 (k - j - 1)). rewrite (Z.abs_neq R) in * by lia. apply place_neg; [lia|].
    apply length_dec_lower in HR. lia.
Qed.

(** More digits in the fraction of the divisor: the number of digits wraps around. *)
Lemma div_wraps x p k y q j : small x -> small p -> small q ->
  0 <= p -> 0 <= q -> num_digits p k -> num_digits q j -> (y <> 0 \/ q <> 0) -> (k < j)%nat ->
  bf_div (fl x p) (fl y q) = Throw ELengthError.
Proof.
  intros Sx Sp Sq Hp Hq Dp Dq N L. rewrite (div_prepare x p k y q j) by assumption.
  set (R := Z.quot (joined x p (Nat.max 1 k)) (joined y q (Nat.max 1 j))).
  pose proof (small_digits p k Sp ltac:(now rewrite Z.abs_eq by lia)) as Kp.
  pose proof (small_digits q j Sq ltac:(now rewrite Z.abs_eq by lia)) as Kq.
  pose proof (small_digits x _ Sx (size_digits x)) as Kx.
  assert (UR : Z.abs R < 10 ^ Z.of_nat (bi_size (num x) + Nat.max 1 k)).
  { eapply Z.le_lt_trans; [apply quot_bound|]. apply joined_upper; auto using size_digits. }
  clearbody R.
  pose proof (length_dec_upper (Z.abs R) _ ltac:(split; [lia|exact UR])) as LR.
  assert (LR' : (length (dec_of_Z R) <= S (length (dec_of_Z (Z.abs R))))%nat).
  { destruct (Z_lt_le_dec R 0); [rewrite (dec_neg R), Z.abs_neq by lia; cbn; lia|rewrite Z.abs_eq by lia; lia]. }
  unfold size_sub at 1. replace (N.of_nat j <=? N.of_nat k)%N with false by lia.
  unfold wrap64. replace ((Z.of_N (N.of_nat k) - Z.of_N (N.of_nat j)) mod 18446744073709551616) with (18446744073709551616 + Z.of_nat k - Z.of_nat j)
    by (apply Z.mod_unique with (-1); lia).
  unfold place_point. rewrite ascii_length.
  replace (N.of_nat (length (dec_of_Z R)) <=? Z.to_N (18446744073709551616 + Z.of_nat k - Z.of_nat j))%N with true by lia.
  rewrite size_sub_le by lia. unfold zeros, max_chars.
  replace (288230376151711743 <? Z.to_N (18446744073709551616 + Z.of_nat k - Z.of_nat j) - N.of_nat (length (dec_of_Z R)) + 1)%N with true by lia.
  reflexivity.
Qed.

Lemma digits_0 : num_digits 0 0.
Proof. now left. Qed.
Lemma joined_whole x : joined x 0 (Nat.max 1 0) = 10 * x.
Proof. unfold joined. cbn [Nat.max]. change (10 ^ Z.of_nat 1) with 10. destruct (x <? 0); lia. Qed.
Lemma mul_whole x y : bf_mul (fl x 0) (fl y 0) = Ok (fl (100 * x * y) 0).
Proof.
  rewrite (mul_fl x 0 0 y 0 0 (or_introl (conj eq_refl eq_refl)) (Z.le_refl 0) (Z.le_refl 0) digits_0 digits_0). rewrite !joined_whole.
  cbn [Nat.add]. change (10 ^ Z.of_nat 0) with 1. rewrite Z.quot_1_r, Z.mod_1_r. do 2 f_equal. lia.
Qed.
Lemma quot_scale a b c : b <> 0 -> c <> 0 -> Z.quot (c * a) (c * b) = Z.quot a b.
Proof. intros. now apply Z.quot_mul_cancel_l. Qed.
Lemma div_whole x y : y <> 0 -> bf_div (fl x 0) (fl y 0) = Ok (fl (Z.quot x y) 0).
Proof.
  intros H. rewrite (div_fl x 0 0 y 0 0 (or_introl eq_refl) (Z.le_refl 0) (Z.le_refl 0) digits_0 digits_0 (or_introl H) (le_n 0)).
  - rewrite !joined_whole, quot_scale by lia. cbn [Nat.sub]. change (10 ^ Z.of_nat 0) with 1. now rewrite Z.quot_1_r, Z.mod_1_r.
  - rewrite !joined_whole, quot_scale by lia. cbn [Nat.sub]. change (10 ^ Z.of_nat 0) with 1. lia.
Qed.

(** ** Power and square root of whole numbers *)
Lemma pow_loop_whole fuel : forall e r b, 0 <= e < 2 ^ Z.of_nat fuel ->
  bf_pow_loop fuel e (fl r 0) (fl b 0) = Ok (fl (r * (100 * b) ^ e) 0).
Proof.
  induction fuel as [|f IH]; intros e r b H.
  - assert (e = 0) as -> by (cbn in H; lia). cbn [bf_pow_loop]. cbn. do 2 f_equal. lia.
  - cbn [bf_pow_loop]. destruct (0 <? e) eqn:E.
    + assert (Q : 0 <= Z.quot e 2 < 2 ^ Z.of_nat f).
      { rewrite Nat2Z.inj_succ, Z.pow_succ_r in H by lia. rewrite Z.quot_div_nonneg by lia. split; [apply Z.div_pos; lia|].
        apply Z.div_lt_upper_bound; lia. }
      pose proof (Z.quot_rem' e 2) as QR. pose proof (Z.rem_bound_pos e 2 ltac:(lia) ltac:(lia)) as RB.
      assert (P : (100 * (100 * b * b)) ^ Z.quot e 2 = (100 * b) ^ (2 * Z.quot e 2)).
      { rewrite Z.pow_mul_r by lia. f_equal. lia. }
      destruct (Z.rem e 2 =? 1) eqn:R; cbn [bind]; rewrite !mul_whole; cbn [bind]; rewrite IH by exact Q; do 2 f_equal;
        rewrite P.
      * replace ((100 * b) ^ e) with ((100 * b) ^ (2 * Z.quot e 2 + 1)) by (f_equal; lia). rewrite Z.pow_add_r by lia. lia.
      * do 2 f_equal. lia.
    + assert (e = 0) as -> by lia. do 2 f_equal. cbn. lia.
Qed.
Lemma pow_whole x e : 0 <= e <= 2147483647 -> bf_pow (fl x 0) e = Ok (fl ((100 * x) ^ e) 0).
Proof.
  intros H. unfold bf_pow. replace (e <? 0) with false by lia. rewrite fl_one, pow_loop_whole by lia. do 2 f_equal. lia.
Qed.

Lemma lt_whole x y : 0 <= x -> 0 <= y -> bf_lt (fl x 0) (fl y 0) = (x <? y).
Proof.
  intros Hx Hy. rewrite lt_fl. unfold int_lt. replace (x <? 0) with false by lia. replace (y <? 0) with false by lia. cbn [andb].
  destruct (x <? y) eqn:E; [reflexivity|]. now destruct (y <? x).
Qed.
Lemma sqrt_loop_whole n : 0 <= n -> forall fuel low high, 1 <= low -> 0 <= high -> low <= high + 1 ->
  100 * (low - 1) * (low - 1) <= n -> n < 100 * (high + 1) * (high + 1) -> high - low + 1 < 2 ^ Z.of_nat fuel ->
  exists r, bf_sqrt_loop fuel (fl n 0) (fl low 0) (fl high 0) = Ok (fl r 0) /\ 0 <= r /\ 100 * r * r <= n < 100 * (r + 1) * (r + 1).
Proof.
  intros Hn. induction fuel as [|f IH]; intros low high H1 H2 H3 H4 H5 H6.
  - assert (low = high + 1) as -> by (cbn in H6; lia). exists high. cbn [bf_sqrt_loop]. rewrite lt_whole, equal_fl by lia.
    replace (high + 1 <? high) with false by lia. replace (high + 1 =? high) with false by lia. cbn [orb andb].
    split; [reflexivity|]. replace (high + 1 - 1) with high in H4 by lia. lia.
  - cbn [bf_sqrt_loop]. rewrite lt_whole, equal_fl by lia. destruct (Z.eq_dec low (high + 1)) as [->|N].
    + exists high. replace (high + 1 <? high) with false by lia. replace (high + 1 =? high) with false by lia. cbn [orb andb].
      split; [reflexivity|]. replace (high + 1 - 1) with high in H4 by lia. lia.
    + replace ((low <? high) || (low =? high) && (0 =? 0)) with true by lia.
      rewrite add_whole by lia. cbn [bind]. rewrite fl_two, div_whole by lia. cbn [bind].
      rewrite Z.quot_div_nonneg by lia. set (mid := (low + high) / 2).
      assert (M : low <= mid <= high /\ 2 * mid <= low + high <= 2 * mid + 1).
      { unfold mid. pose proof (Z.div_mod (low + high) 2 ltac:(lia)). pose proof (Z.mod_pos_bound (low + high) 2 ltac:(lia)). lia. }
      clearbody mid. unfold bf_sqr. rewrite mul_whole. cbn [bind]. rewrite equal_fl, lt_whole by nia. rewrite andb_true_r.
      rewrite Nat2Z.inj_succ, Z.pow_succ_r in H6 by lia.
      destruct (100 * mid * mid =? n) eqn:E.
      * exists mid. split; [reflexivity|]. nia.
      * destruct (100 * mid * mid <? n) eqn:L.
        -- rewrite fl_one, add_whole by lia. cbn [bind]. apply IH; try lia; nia.
        -- rewrite fl_one, sub_whole by lia. cbn [bind]. apply IH; try lia; try nia.
Qed.
Lemma sqrt_whole n fuel : 2 <= n < 2 ^ Z.of_nat fuel -> bf_sqrt fuel (fl n 0) = Ok (fl (Z.sqrt (n / 100)) 0).
Proof.
  intros H. unfold bf_sqrt. cbn [fl bf_neg]. rewrite fl_zero, fl_one. fold (fl n 0). rewrite !equal_fl.
  replace ((n =? 0) && (0 =? 0) || (n =? 1) && (0 =? 0)) with false by lia.
  destruct (sqrt_loop_whole n ltac:(lia) fuel 1 n) as (r & E & R1 & R2); try lia; try nia.
  rewrite E. do 2 f_equal. symmetry. apply Z.sqrt_unique. split.
  - apply Z.div_le_lower_bound; nia.
  - unfold Z.succ. apply Z.div_lt_upper_bound; nia.
Qed.
Lemma sqrt_trivial n fuel : 0 <= n <= 1 -> bf_sqrt fuel (fl n 0) = Ok (fl n 0).
Proof.
  intros H. unfold bf_sqrt. cbn [fl bf_neg]. rewrite fl_zero, fl_one. fold (fl n 0). rewrite !equal_fl.
  now replace ((n =? 0) && (0 =? 0) || (n =? 1) && (0 =? 0)) with true by lia.
Qed.
(** A negative whole number is its own square root. *)
Lemma sqrt_negative_whole n fuel : n < 0 -> bf_sqrt fuel (fl n 0) = Ok (fl n 0).
Proof.
  intros H. unfold bf_sqrt. cbn [fl bf_neg]. rewrite fl_zero, fl_one. fold (fl n 0). rewrite !equal_fl.
  replace ((n =? 0) && (0 =? 0) || (n =? 1) && (0 =? 0)) with false by lia.
  assert (G : bf_lt (fl 1 0) (fl n 0) || bf_equal (fl 1 0) (fl n 0) = false).
  { rewrite lt_fl, equal_fl. unfold int_lt. replace (n <? 0) with true by lia. cbn [andb Z.ltb Z.compare]. 
    replace (1 <? n) with false by lia. replace (n <? 1) with true by lia. replace (1 =? n) with false by lia. reflexivity. }
  destruct fuel; cbn [bf_sqrt_loop]; now rewrite G.
Qed.
