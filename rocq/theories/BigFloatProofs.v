(** Proofs about BigFloat.v.  Every BigFloat made from ASCII text is [fl x p]: the canonical BigIntegers of
    its integer part [x] and of its fraction read as an integer [p]. *)
From Coq Require Import List NArith ZArith Bool Arith Lia ZifyBool ZifyN ZifyNat.
From Verif Require Import Outcome CharModel CharUtil StrModel StrUtil Dec BigInt SpecUtf8 SpecChar SpecStr SpecInt
  CharProofs CharUtilProofs StrProofs DecProofs BigIntProofs BigIntStates BigIntFacts BigFloat SpecFloat.
Import ListNotations.
Local Open Scope Z_scope.

Notation num := int_lit.

Lemma num_canon z : bi_canon (num z).
Proof. unfold int_lit. destruct (bi_of_int_spec z) as (b & E & C & V). now rewrite E. Qed.
Lemma num_value z : bi_value (num z) = z.
Proof. unfold int_lit. destruct (bi_of_int_spec z) as (b & E & C & V). now rewrite E. Qed.
Lemma canon_num b : bi_canon b -> b = num (bi_value b).
Proof. intros C. apply canon_inj; auto using num_canon. now rewrite num_value. Qed.
Lemma canon_num_eq b z : bi_canon b -> bi_value b = z -> b = num z.
Proof. intros C <-. now apply canon_num. Qed.
Lemma num_inj x y : num x = num y -> x = y.
Proof. intros H. rewrite <- (num_value x), <- (num_value y). now f_equal. Qed.
Lemma num_wf z : bi_wf (num z).
Proof. apply num_canon. Qed.

Lemma wf_to_string b : bi_wf b -> bi_to_string b = Ok (ascii_chars (dec_of_Z (bi_value b))).
Proof.
  intros W. destruct (to_string_spec b W) as (t & E & C). rewrite E.
  f_equal. f_equal. eapply canonical_numeral_inj; [exact C|apply dec_of_Z_canonical].
Qed.
Lemma num_to_string z : bi_to_string (num z) = Ok (ascii_chars (dec_of_Z z)).
Proof. rewrite wf_to_string by apply num_wf. now rewrite num_value. Qed.
Lemma num_of_string t z : int_numeral t z -> bi_of_string (ascii_chars t) = Ok (num z).
Proof.
  intros H. destruct (of_string_numeral t z H) as (b & E & C & V). rewrite E. f_equal. now apply canon_num_eq.
Qed.
Lemma num_of_dec z : bi_of_string (ascii_chars (dec_of_Z z)) = Ok (num z).
Proof. apply num_of_string, canonical_is_numeral, dec_of_Z_canonical. Qed.
Lemma num_of_int z : bi_of_int z = Ok (num z).
Proof. unfold int_lit. destruct (bi_of_int_spec z) as (b & E & C & V). now rewrite E. Qed.
Lemma num_mul x y : bi_mul (num x) (num y) = Ok (num (x * y)).
Proof.
  destruct (bi_mul_spec (num x) (num y)) as (r & E & C & V); auto using num_wf.
  rewrite E. f_equal. apply canon_num_eq; auto. now rewrite V, !num_value.
Qed.
Lemma num_add x y : 0 <= x -> 0 <= y -> bi_add (num x) (num y) = Ok (num (x + y)).
Proof.
  intros Hx Hy. destruct (bi_add_nonneg (num x) (num y)) as (r & E & C & V); rewrite ?num_value; auto using num_canon.
  rewrite E. f_equal. apply canon_num_eq; auto. now rewrite V, !num_value.
Qed.
Lemma num_sub x y : 0 <= x -> 0 <= y -> bi_sub (num x) (num y) = Ok (num (x - y)).
Proof.
  intros Hx Hy. destruct (bi_sub_nonneg (num x) (num y)) as (r & E & C & V); rewrite ?num_value; auto using num_canon.
  rewrite E. f_equal. apply canon_num_eq; auto. now rewrite V, !num_value.
Qed.
Lemma num_div x y : y <> 0 -> bi_div (num x) (num y) = Ok (num (Z.quot x y)).
Proof.
  intros Hy. destruct (bi_div_spec (num x) (num y)) as (r & E & C & V); rewrite ?num_value; auto using num_wf.
  rewrite E. f_equal. apply canon_num_eq; auto. now rewrite V, !num_value.
Qed.
Lemma num_equal x y : bi_equal (num x) (num y) = (x =? y).
Proof. rewrite equal_canon by apply num_canon. now rewrite !num_value. Qed.
Lemma num_neg x : bi_neg (num x) = (x <? 0).
Proof.
  destruct (x <? 0) eqn:E; [apply value_neg; rewrite ?num_value; auto using num_wf; lia|].
  apply canon_nonneg; [apply num_canon|rewrite num_value; lia].
Qed.
Lemma num_abs_value x : lval (bi_digits (num x)) = Z.abs x.
Proof. rewrite <- abs_value by apply num_wf. now rewrite num_value. Qed.
(** Two negative numbers are compared by magnitude. *)
Definition int_lt (x y : Z) : bool := if (x <? 0) && (y <? 0) then y <? x else x <? y.
Lemma num_lt x y : bi_lt (num x) (num y) = int_lt x y.
Proof.
  rewrite bi_lt_spec by apply num_wf. rewrite !num_neg, !num_abs_value. unfold int_lt.
  destruct (x <? 0) eqn:A, (y <? 0) eqn:B; cbn [Bool.eqb andb]; lia.
Qed.
Lemma num_gt x y : bi_gt (num x) (num y) = int_lt y x.
Proof.
  unfold bi_gt. rewrite num_lt, num_equal. unfold int_lt. destruct (x <? 0) eqn:A, (y <? 0) eqn:B; cbn [andb]; lia.
Qed.

Lemma num_0 : num 0 = bi_default. Proof. reflexivity. Qed.
Lemma num_1 : num 1 = big_one. Proof. reflexivity. Qed.
Lemma num_2 : num 2 = mkBig [2] false. Proof. reflexivity. Qed.
Lemma num_10 : num 10 = big_ten. Proof. reflexivity. Qed.

Lemma p10 n : 0 < 10 ^ Z.of_nat n.
Proof. apply Z.pow_pos_nonneg; lia. Qed.
Lemma pow_lt_inv a b : 10 ^ Z.of_nat a < 10 ^ Z.of_nat b -> (a < b)%nat.
Proof. intros H. apply Z.pow_lt_mono_r_iff in H; lia. Qed.

Lemma num_digits_fun p k k' : num_digits p k -> num_digits p k' -> k = k'.
Proof.
  intros [[-> ->]|[A B]] [[H ->]|[A' B']]; try lia.
  - assert (10 ^ Z.of_nat (k - 1) < 10 ^ Z.of_nat k') as L1 by lia.
    assert (10 ^ Z.of_nat (k' - 1) < 10 ^ Z.of_nat k) as L2 by lia.
    apply pow_lt_inv in L1, L2. lia.
Qed.

Lemma size_digits p : num_digits (Z.abs p) (bi_size (num p)).
Proof.
  unfold bi_size. rewrite <- num_abs_value. destruct (num_wf p) as [F S].
  destruct (bi_digits (num p)) as [|d ds] eqn:E; [left; auto|]. rewrite <- E in *. right.
  pose proof (lval_bound _ F). pose proof (lval_pos _ F S ltac:(congruence)). unfold pow10 in *.
  split; [rewrite E; cbn; lia|]. lia.
Qed.
Lemma size_num p k : 0 <= p -> num_digits p k -> bi_size (num p) = k.
Proof. intros H D. pose proof (size_digits p) as S. rewrite Z.abs_eq in S by exact H. eapply num_digits_fun; eauto. Qed.
Lemma size_zero : bi_size (num 0) = 0%nat.
Proof. reflexivity. Qed.

Lemma digits_mul10 p k n : 0 < p -> num_digits p k -> num_digits (p * 10 ^ Z.of_nat n) (k + n).
Proof.
  intros P [[? _]|[A B]]; [lia|]. right. split; [lia|].
  replace (Z.of_nat (k + n - 1)) with (Z.of_nat (k - 1) + Z.of_nat n) by lia.
  replace (Z.of_nat (k + n)) with (Z.of_nat k + Z.of_nat n) by lia.
  rewrite !Z.pow_add_r by lia. pose proof (p10 n). nia.
Qed.

(** ** The alignment loop *)
Lemma align_spec fuel : forall p k n, 0 < p -> num_digits p k -> (n - k <= fuel)%nat ->
  bf_align fuel (num p) n = Ok (num (p * 10 ^ Z.of_nat (n - k))).
Proof.
  induction fuel as [|f IH]; intros p k n P D L; cbn [bf_align]; rewrite (size_num p k) by (auto; lia).
  - replace (Nat.ltb k n) with false by lia. replace (n - k)%nat with O by lia. do 2 f_equal. lia.
  - destruct (Nat.ltb k n) eqn:E.
    + rewrite <- num_10, num_mul. cbn [bind].
      rewrite (IH (p * 10) (S k) n); [|lia| |lia].
      * replace (n - k)%nat with (S (n - S k)) by lia. rewrite Nat2Z.inj_succ, Z.pow_succ_r by lia. do 2 f_equal. lia.
      * pose proof (digits_mul10 p k 1 P D) as H. replace (k + 1)%nat with (S k) in H by lia. exact H.
    + replace (n - k)%nat with O by lia. do 2 f_equal. lia.
Qed.
Lemma align_done fuel a n : (n <= bi_size a)%nat -> bf_align fuel a n = Ok a.
Proof. intros H. destruct fuel; cbn [bf_align]; replace (Nat.ltb (bi_size a) n) with false by lia; reflexivity. Qed.
Lemma align_zero fuel n : (0 < n)%nat -> bf_align fuel (num 0) n = NoFuel.
Proof.
  intros H. induction fuel as [|f IH]; cbn [bf_align]; rewrite size_zero; replace (Nat.ltb 0 n) with true by lia; [reflexivity|].
  rewrite <- num_10, num_mul. cbn [bind]. exact IH.
Qed.

(** ** Text *)
Lemma ascii_app a b : ascii_chars (a ++ b) = ascii_chars a ++ ascii_chars b.
Proof. apply map_app. Qed.
Lemma ascii_length a : length (ascii_chars a) = length a.
Proof. apply map_length. Qed.
Lemma firstn_ascii n a : firstn n (ascii_chars a) = ascii_chars (firstn n a).
Proof. apply firstn_map. Qed.
Lemma skipn_ascii n a : skipn n (ascii_chars a) = ascii_chars (skipn n a).
Proof. apply skipn_map. Qed.

Lemma char_eqb_byte a b : char_eqb [a] [b] = (a =? b)%N.
Proof.
  destruct (a =? b)%N eqn:E.
  - apply char_eqb_iff. f_equal. lia.
  - destruct (char_eqb [a] [b]) eqn:F; [|reflexivity]. apply char_eqb_iff in F. injection F. lia.
Qed.

Lemma search_dot a b : ~ In 46%N a -> std_search (ascii_chars (a ++ 46%N :: b)) full_stop = length a.
Proof.
  induction a as [|x a IH]; intros H.
  - reflexivity.
  - cbn [app ascii_chars map std_search]. cbn [match_at full_stop]. change (char_of_byte 46) with [46%N].
    rewrite char_eqb_byte. replace (x =? 46)%N with false by (cbn in H; lia). cbn [andb].
    cbn [length]. f_equal. apply IH. intros I. apply H. now right.
Qed.
Lemma search_nodot a : ~ In 46%N a -> std_search (ascii_chars a) full_stop = length a.
Proof.
  induction a as [|x a IH]; intros H; [reflexivity|].
  cbn [ascii_chars map std_search]. cbn [match_at full_stop]. change (char_of_byte 46) with [46%N].
  rewrite char_eqb_byte. replace (x =? 46)%N with false by (cbn in H; lia). cbn [andb].
  cbn [length]. f_equal. apply IH. intros I. apply H. now right.
Qed.

Definition or_zero (t : list N) : list N := match t with [] => [48%N] | _ => t end.

Lemma of_string_dot a b : ~ In 46%N a ->
  bf_of_string (ascii_chars (a ++ 46%N :: b)) =
  (i <- bi_of_string (ascii_chars (or_zero a)) ;; f <- bi_of_string (ascii_chars (or_zero b)) ;; Ok (mkBF i f false)).
Proof.
  intros H. unfold bf_of_string.
  replace (s_is_empty (ascii_chars (a ++ 46%N :: b))) with false by (destruct a; reflexivity).
  unfold s_find. cbn [N.to_nat skipn]. rewrite search_dot by exact H.
  replace (N.of_nat (length (ascii_chars (a ++ 46%N :: b))) <? 0)%N with false by lia. cbn [bind Nat.add].
  rewrite ascii_length, app_length. cbn [length]. replace (Nat.eqb (length a) (length a + S (length b))) with false by lia.
  unfold s_substring, string_of_chars. rewrite ascii_length, app_length. cbn [length].
  replace (N.of_nat (length a + S (length b)) <? 0)%N with false by lia. cbn [bind].
  replace (N.of_nat (length a + S (length b)) <? N.of_nat (length a) + 1)%N with false by lia. cbn [bind].
  cbn [N.to_nat skipn].
  replace (N.to_nat (N.min (N.of_nat (length a)) (N.of_nat (length a + S (length b)) - 0))) with (length a) by lia.
  replace (N.to_nat (N.of_nat (length a) + 1)) with (S (length a)) by lia.
  rewrite firstn_ascii, skipn_ascii, firstn_ascii, firstn_app_l.
  rewrite skipn_app. rewrite skipn_all2 by lia. replace (S (length a) - length a)%nat with 1%nat by lia. cbn [skipn app].
  rewrite firstn_all2 by lia.
  assert (Z0 : forall t, (if s_is_empty (ascii_chars t) then digit_zero else ascii_chars t) = ascii_chars (or_zero t)) by (intros [|]; reflexivity).
  rewrite !Z0. reflexivity.
Qed.
Lemma of_string_nodot a : a <> [] -> ~ In 46%N a ->
  bf_of_string (ascii_chars a) = (i <- bi_of_string (ascii_chars a) ;; Ok (mkBF i bi_default false)).
Proof.
  intros N H. unfold bf_of_string. destruct a as [|x a]; [congruence|].
  cbn [ascii_chars map s_is_empty]. change ([x] :: map (fun b => [b]) a) with (ascii_chars (x :: a)).
  unfold s_find. cbn [N.to_nat skipn]. rewrite search_nodot by exact H.
  replace (N.of_nat (length (ascii_chars (x :: a))) <? 0)%N with false by lia. cbn [bind Nat.add].
  rewrite ascii_length, Nat.eqb_refl. reflexivity.
Qed.

(** ** ASCII text gives canonical parts *)
Lemma is_digit_ascii b : (1 <= b < 128)%N -> is_digit b = true -> ascii_digit b.
Proof.
  intros H D. apply is_digit_spec in D as [v [Hv (z & I & E)]]. unfold digit_zeros in I. cbn [In] in I.
  unfold ascii_digit. destruct I as [I|I]; [lia|]. exfalso.
  assert (1000 <= z)%N; [|lia]. repeat (destruct I as [I|I]; [subst z; lia|]). contradiction.
Qed.
Lemma parse_ascii_ok t : Forall (fun b => 1 <= b < 128)%N t -> forall ds, parse_digits (ascii_chars t) = Ok ds ->
  Forall ascii_digit t.
Proof.
  induction 1 as [|b t H F IH]; intros ds E; [constructor|].
  cbn [ascii_chars map parse_digits] in E.
  assert (U : text_char [b]) by (pose proof (ascii_chars_text [b] ltac:(constructor; auto)) as T; inversion T; assumption).
  rewrite get_code_point_unit in E by apply U. cbn [bind] in E.
  assert (V : utf8_value [b] = b) by reflexivity. rewrite V in E.
  destruct (is_digit b) eqn:D; [|discriminate].
  apply bind_Ok in E as (d & _ & E). apply bind_Ok in E as (ds' & E & _).
  constructor; [now apply is_digit_ascii|]. eapply IH, E.
Qed.
Lemma ascii_canon t b : Forall (fun b => 1 <= b < 128)%N t -> bi_of_string (ascii_chars t) = Ok b -> exists z, b = num z.
Proof.
  intros F E. destruct t as [|x t]; [discriminate|].
  assert (K : forall ds neg, Forall ascii_digit ds -> forall b', (l <- parse_digits (ascii_chars ds) ;; Ok (bi_rlz (mkBig (rev l) neg))) = Ok b' ->
    exists z, b' = num z).
  { intros ds neg Fd b' E'. rewrite parse_ascii in E' by exact Fd. cbn [bind] in E'. injection E' as <-.
    eexists. apply canon_num. apply rlz_wf. cbn [bi_digits]. now apply digits_forall. }
  cbn [ascii_chars map bi_of_string] in E. change (map (fun b => [b]) t) with (ascii_chars t) in E.
  change (char_of_byte 45) with [45%N] in E. change (char_of_byte 43) with [43%N] in E.
  rewrite !char_eqb_byte in E. inversion F as [|? ? Hx Ft]; subst.
  destruct (x =? 45)%N; [|destruct (x =? 43)%N].
  - pose proof E as E0. apply bind_Ok in E0 as (ds & P & _). eapply K; [eapply parse_ascii_ok; [exact Ft|exact P]|exact E].
  - pose proof E as E0. apply bind_Ok in E0 as (ds & P & _). eapply K; [eapply parse_ascii_ok; [exact Ft|exact P]|exact E].
  - pose proof E as E0. apply bind_Ok in E0 as (ds & P & _).
    change ([x] :: ascii_chars t) with (ascii_chars (x :: t)) in *.
    eapply K; [eapply parse_ascii_ok; [exact F|exact P]|exact E].
Qed.

Definition fl (x p : Z) : bigfloat := mkBF (num x) (num p) false.

Lemma ascii_fl t f : Forall (fun b => 1 <= b < 128)%N t -> bf_of_string (ascii_chars t) = Ok f -> exists x p, f = fl x p.
Proof.
  intros F E. destruct (in_dec N.eq_dec 46%N t) as [I|I].
  - assert (exists a b, t = a ++ 46%N :: b /\ ~ In 46%N a) as (a & b & -> & Na).
    { clear -I. induction t as [|x t IH]; [contradiction|]. destruct (N.eq_dec x 46) as [->|Nx].
      - exists [], t. auto.
      - destruct I as [I|I]; [congruence|]. destruct (IH I) as (a & b & -> & Na). exists (x :: a), b.
        split; [reflexivity|]. intros [K|K]; auto. }
    rewrite of_string_dot in E by exact Na. apply Forall_app in F as [Fa Fb]. inversion Fb; subst.
    apply bind_Ok in E as (i & Ei & E). apply bind_Ok in E as (g & Eg & E). injection E as <-.
    assert (Z0 : forall t, Forall (fun b => 1 <= b < 128)%N t -> Forall (fun b => 1 <= b < 128)%N (or_zero t))
      by (intros [|]; intros; [repeat constructor; lia|assumption]).
    apply ascii_canon in Ei as [x ->]; [|auto]. apply ascii_canon in Eg as [p ->]; [|auto]. now exists x, p.
  - destruct t as [|x t]; [discriminate|]. rewrite of_string_nodot in E by (assumption || discriminate).
    apply bind_Ok in E as (i & Ei & E). injection E as <-. apply ascii_canon in Ei as [y ->]; [|auto]. now exists y, 0.
Qed.

(** ** Printing *)
Lemma dec_bytes z : Forall (fun b => 1 <= b < 128)%N (dec_of_Z z).
Proof. eapply numeral_bytes, canonical_is_numeral, dec_of_Z_canonical. Qed.
Lemma numeral_no_dot t z : int_numeral t z -> ~ In 46%N t.
Proof.
  intros H I. inversion H as [ds N F|ds N F|ds N F]; subst; rewrite Forall_forall in F;
  try (destruct I as [I|I]; [discriminate|]); specialize (F _ I); unfold ascii_digit in F; lia.
Qed.
Lemma dec_no_dot z : ~ In 46%N (dec_of_Z z).
Proof. eapply numeral_no_dot, canonical_is_numeral, dec_of_Z_canonical. Qed.
Lemma dec_nonempty z : dec_of_Z z <> [].
Proof.
  pose proof (canonical_is_numeral _ _ (dec_of_Z_canonical z)) as H. inversion H; subst; try discriminate; congruence.
Qed.
Lemma dec_zero_iff z : dec_of_Z z = [48%N] <-> z = 0.
Proof.
  split; [|intros ->; reflexivity]. intros E. pose proof (canonical_is_numeral _ _ (dec_of_Z_canonical z)) as H. rewrite E in H.
  eapply int_numeral_fun; [exact H|]. apply canonical_is_numeral. constructor.
Qed.

Definition print (x p : Z) : list N := if p =? 0 then dec_of_Z x else dec_of_Z x ++ 46%N :: dec_of_Z p.

Lemma bytes_eqb_iff' a b : bytes_eqb a b = true <-> a = b.
Proof. apply bytes_eqb_iff. Qed.

Lemma to_string_fl x p : bf_to_string (fl x p) = Ok (ascii_chars (print x p)).
Proof.
  unfold bf_to_string, fl. cbn [bf_int bf_frac]. rewrite !num_to_string. cbn [bind]. f_equal.
  replace (s_is_empty (ascii_chars (dec_of_Z p))) with false by (pose proof (dec_nonempty p); destruct (dec_of_Z p); [congruence|reflexivity]).
  unfold s_ne_cstr. rewrite s_str_text by (apply ascii_chars_text, dec_bytes). rewrite concat_ascii. unfold print. cbn [negb andb].
  destruct (p =? 0) eqn:E.
  - assert (p = 0) as -> by lia. reflexivity.
  - destruct (bytes_eqb (dec_of_Z p) [48%N]) eqn:B; [apply bytes_eqb_iff', dec_zero_iff in B; lia|]. cbn [negb].
    unfold s_push_back. rewrite <- app_assoc, ascii_app. reflexivity.
Qed.

Lemma dotted_spec i f : bi_wf i -> bi_wf f ->
  dotted i f = Ok (ascii_chars (dec_of_Z (bi_value i) ++ 46%N :: dec_of_Z (bi_value f))).
Proof.
  intros Wi Wf. unfold dotted. rewrite !wf_to_string by assumption. cbn [bind]. rewrite s_plus_app. cbn [bind].
  rewrite s_plus_app. f_equal. rewrite <- app_assoc, ascii_app. reflexivity.
Qed.
Lemma of_dotted x p : bf_of_string (ascii_chars (dec_of_Z x ++ 46%N :: dec_of_Z p)) = Ok (fl x p).
Proof.
  rewrite of_string_dot by apply dec_no_dot.
  assert (Z0 : forall z, or_zero (dec_of_Z z) = dec_of_Z z) by (intros z; pose proof (dec_nonempty z); destruct (dec_of_Z z); [congruence|reflexivity]).
  rewrite !Z0, !num_of_dec. reflexivity.
Qed.
Lemma of_dotted_wf i f : bi_wf i -> bi_wf f -> (s <- dotted i f ;; bf_of_string s) = Ok (fl (bi_value i) (bi_value f)).
Proof. intros Wi Wf. rewrite dotted_spec by assumption. cbn [bind]. apply of_dotted. Qed.
