(** Final theorems: C124 simple functions of BigFloat, C125 BigFloat from a double. *)
From Coq Require Import List NArith ZArith Bool Arith Lia.
From Verif Require Import Outcome CharModel StrModel SpecStr SpecInt SpecFloat Dec DecProofs BigInt BigIntProofs BigFloat BigFloatProofs BigFloatOps BigFloatFacts
  BigFloatStates BigFloatClaims StrProofs Double JsonData.
Import ListNotations.
Local Open Scope Z_scope.

(** ** C124 *)
(** BigFloat() shows 0; Size() is the number of digits of both parts, none for a part that is zero. *)
Theorem C124_default : bf_built bf_default /\ fshows bf_default 0 0 /\ bf_size bf_default = 0%nat.
Proof. split; [constructor|]. split; [|reflexivity]. apply (fl_shows 0 0). Qed.
Print Assumptions C124_default.
Theorem C124_size : forall f x p, bf_built f -> fshows f x p ->
  exists k j, num_digits (Z.abs x) k /\ num_digits (Z.abs p) j /\ bf_size f = (k + j)%nat.
Proof.
  intros f x p B S. rewrite (fshows_fl _ _ _ B S). exists (bi_size (num x)), (bi_size (num p)).
  split; [apply size_digits|]. split; [apply size_digits|reflexivity].
Qed.
Print Assumptions C124_size.
(** A C string and the String of the same text give the same BigFloat. *)
Theorem C124_from_c_string : forall t r, text t -> bf_of_cstr (concat t ++ 0%N :: r) = bf_of_string t.
Proof. intros t r T. unfold bf_of_cstr. now rewrite string_of_cstr_text. Qed.
Print Assumptions C124_from_c_string.
(** Abs() is right for numbers that are not negative ... *)
Theorem C124_abs_partial : forall f x p, bf_built f -> fshows f x p -> 0 <= x -> fshows (bf_abs f) (Z.abs x) p.
Proof. intros f x p B S H. rewrite (fshows_fl _ _ _ B S), Z.abs_eq by assumption. apply fl_shows. Qed.
Print Assumptions C124_abs_partial.
(** ... and gives every number back unchanged, the negative ones too. *)
Theorem C124_abs_refuted : forall f, bf_built f -> bf_abs f = f /\
  forall x p, fshows f x p -> x < 0 -> ~ exists x' p', fshows (bf_abs f) x' p' /\ 0 <= x'.
Proof.
  intros f B. assert (E : bf_abs f = f) by (apply bf_built_fl in B as (x & p & ->); reflexivity). split; [assumption|].
  intros x p S H (x' & p' & S' & H'). rewrite E in S'. pose proof (fshows_fl _ _ _ B S) as E1.
  pose proof (fshows_fl _ _ _ B S') as E2. rewrite E1 in E2. injection E2 as E2 _. apply (f_equal bi_value) in E2.
  rewrite !num_value in E2. lia.
Qed.
Print Assumptions C124_abs_refuted.
Example C124_ex : (f <- bf_of_string (ascii_chars [45; 55; 46; 50; 53]%N) ;; Ok (bf_size f)) = Ok 3%nat /\
  (f <- bf_of_cstr [45; 55; 0]%N ;; bf_to_string (bf_abs f)) = Ok (ascii_chars [45; 55]%N).
Proof. split; reflexivity. Qed.

(** ** C125 *)
(** [q] is an integer nearest to a/b, the even one of two. *)
Definition rounds_to (a b q : Z) : Prop :=
  2 * Z.abs (a - q * b) <= b /\ (2 * Z.abs (a - q * b) = b -> Z.even q = true).
Lemma nearest_rounds a b : 0 < b -> rounds_to a b (nearest_even a b).
Proof.
  intro B. pose proof (Z.div_mod a b ltac:(lia)) as D. pose proof (Z.mod_pos_bound a b B) as M.
  unfold rounds_to, nearest_even. set (q := a / b) in *. set (r := a mod b) in *.
  destruct (Z.compare_spec (2 * r) b).
  - destruct (Z.even q) eqn:E; split; try lia; try tauto. intros _. rewrite Z.even_add, E. reflexivity.
  - split; lia.
  - split; lia.
Qed.
(** the magnitude m * 2^e in millionths is the fraction num/den *)
Definition in_millionths (m : N) (e num den : Z) : Prop :=
  0 <= e /\ num = Z.of_N m * 2 ^ e * 10 ^ 6 /\ den = 1 \/ e < 0 /\ num = Z.of_N m * 10 ^ 6 /\ den = 2 ^ (- e).
Lemma millionths_spec m e : exists a b, in_millionths m e a b /\ rounds_to a b (millionths m e).
Proof.
  unfold in_millionths, millionths. destruct (Z.leb_spec 0 e).
  - eexists _, 1. split; [left; auto|]. split; lia.
  - eexists _, _. split; [right; auto|]. apply nearest_rounds. apply Z.pow_pos_nonneg; lia.
Qed.
Lemma millionths_nonneg m e : 0 <= millionths m e.
Proof.
  unfold millionths. destruct (Z.leb_spec 0 e); [pose proof (Z.pow_nonneg 2 e); nia|].
  pose proof (Z.pow_pos_nonneg 2 (- e) ltac:(lia) ltac:(lia)) as P. unfold nearest_even.
  pose proof (Z.div_pos (Z.of_N m * 10 ^ 6) (2 ^ - e) ltac:(lia) P). destruct (_ ?= _); try lia. destruct (Z.even _); lia.
Qed.
Lemma six_digits_spec q : 0 <= q < 10 ^ 6 -> Forall ascii_digit (six_digits q) /\ digits_value (six_digits q) = q.
Proof.
  intro Q. unfold six_digits. cbn [map]. split.
  - repeat (apply Forall_cons; [|]); [..|apply Forall_nil]; unfold ascii_digit;
      match goal with |- (48 <= Z.to_N (48 + ?x mod 10) <= 57)%N => pose proof (Z.mod_pos_bound x 10 ltac:(lia)) end; lia.
  - unfold digits_value. cbn [fold_left]. rewrite !Z2N.id by (match goal with |- 0 <= 48 + ?x mod 10 => pose proof (Z.mod_pos_bound x 10 ltac:(lia)) end; lia).
    change (10 ^ 5) with 100000. change (10 ^ 4) with 10000. change (10 ^ 3) with 1000. change (10 ^ 2) with 100. change (10 ^ 1) with 10. change (10 ^ 0) with 1.
    Z.div_mod_to_equations. lia.
Qed.

Lemma double_text_bytes d : Forall (fun b => 1 <= b < 128)%N (double_to_string d).
Proof.
  assert (D : forall l, Forall ascii_digit l -> Forall (fun b => 1 <= b < 128)%N l)
    by (intros l H; eapply Forall_impl; [|exact H]; unfold ascii_digit; intros; lia).
  destruct d as [neg m e|neg|neg]; cbn [double_to_string]; [|destruct neg; cbn; repeat constructor; lia..].
  apply Forall_app. split; [destruct neg; repeat constructor; lia|]. apply Forall_app. split; [apply dec_bytes|].
  constructor; [lia|]. apply D, six_digits_spec, Z.mod_pos_bound. lia.
Qed.
Lemma of_double_text d : bf_of_double d = bf_of_string (ascii_chars (double_to_string d)).
Proof. unfold bf_of_double, string_of_std. now rewrite string_of_std_ascii by apply double_text_bytes. Qed.
Definition signed (neg : bool) (z : Z) : Z := if neg then - z else z.
Lemma of_double_fl neg m e : let q := millionths m e in
  bf_of_double (Finite neg m e) = Ok (fl (signed neg (q / 10 ^ 6)) (q mod 10 ^ 6)).
Proof.
  intro q. rewrite of_double_text. cbn [double_to_string]. fold q. pose proof (millionths_nonneg m e) as Q. fold q in Q.
  destruct (six_digits_spec (q mod 10 ^ 6) (Z.mod_pos_bound q (10 ^ 6) ltac:(lia))) as [A V].
  destruct (dec_nonneg (q / 10 ^ 6) ltac:(apply Z.div_pos; lia)) as [B W].
  destruct neg; cbn [app signed].
  - rewrite reads_minus_fl by (assumption || apply dec_nonempty). now rewrite V, W.
  - rewrite reads_plain_fl by assumption. now rewrite V, W.
Qed.
Lemma rounds_unique a b q q' : 0 < b -> rounds_to a b q -> rounds_to a b q' -> q = q'.
Proof.
  intros B [H E] [H' E']. destruct (Z.lt_trichotomy q q') as [L|[L|L]]; [|assumption|].
  - assert (q' = q + 1) by nia. subst. assert (2 * Z.abs (a - q * b) = b) by nia. assert (2 * Z.abs (a - (q + 1) * b) = b) by nia.
    specialize (E ltac:(assumption)). specialize (E' ltac:(assumption)). rewrite Z.even_add, E in E'. discriminate.
  - assert (q = q' + 1) by nia. subst. assert (2 * Z.abs (a - q' * b) = b) by nia. assert (2 * Z.abs (a - (q' + 1) * b) = b) by nia.
    specialize (E' ltac:(assumption)). specialize (E ltac:(assumption)). rewrite Z.even_add, E' in E. discriminate.
Qed.
Lemma millionths_is m e a b q : in_millionths m e a b -> rounds_to a b q -> q = millionths m e.
Proof.
  intros I R. destruct (millionths_spec m e) as (a' & b' & I' & R').
  assert (a = a' /\ b = b') as [-> ->] by (destruct I as [(? & ? & ?)|(? & ? & ?)], I' as [(? & ? & ?)|(? & ? & ?)]; subst; auto; lia).
  apply (rounds_unique a' b'); try assumption. destruct I' as [(? & ? & ?)|(? & ? & ?)]; subst; [lia|]. apply Z.pow_pos_nonneg; lia.
Qed.
(** Every finite double is accepted; q is its magnitude in millionths, rounded. *)
Theorem C125_result_partial : forall neg m e a b q, in_millionths m e a b -> rounds_to a b q ->
  exists f, bf_of_double (Finite neg m e) = Ok f /\ bf_built f /\ fshows f (signed neg (q / 10 ^ 6)) (q mod 10 ^ 6).
Proof.
  intros neg m e a b q I R. apply (millionths_is _ _ _ _ _ I) in R. subst q. eexists. split; [apply of_double_fl|].
  split; [|apply fl_shows]. eapply bf_built_text; [apply double_text_bytes|]. rewrite <- of_double_text. apply of_double_fl.
Qed.
Print Assumptions C125_result_partial.
(** A whole number is kept exactly, whatever its size. *)
Theorem C125_whole_partial : forall neg m e n, (0 <= e /\ n = Z.of_N m * 2 ^ e \/ e < 0 /\ Z.of_N m = n * 2 ^ (- e)) ->
  exists f, bf_of_double (Finite neg m e) = Ok f /\ fshows f (signed neg n) 0.
Proof.
  intros neg m e n H. assert (E : millionths m e = n * 10 ^ 6).
  { symmetry. destruct H as [[H E]|[H E]].
    - apply (millionths_is m e (Z.of_N m * 2 ^ e * 10 ^ 6) 1); [left; auto|]. split; lia.
    - apply (millionths_is m e (Z.of_N m * 10 ^ 6) (2 ^ (- e))); [right; auto|]. pose proof (Z.pow_pos_nonneg 2 (- e) ltac:(lia) ltac:(lia)) as P.
      unfold rounds_to. rewrite E. replace (n * 2 ^ (- e) * 10 ^ 6 - n * 10 ^ 6 * 2 ^ (- e)) with 0 by ring.
      cbn [Z.abs]. split; lia. }
  eexists. split; [apply of_double_fl|]. rewrite E, Z.div_mul, Z.mod_mul by lia. apply fl_shows.
Qed.
Print Assumptions C125_whole_partial.
(** Otherwise the number rounded to six places is kept exactly when its fraction does not begin with a zero and,
    for negative numbers, it has a whole part (or no fraction). *)
Theorem C125_kept_iff_partial : forall neg m e a b q f, in_millionths m e a b -> rounds_to a b q -> bf_of_double (Finite neg m e) = Ok f ->
  (denotes f (signed neg q) 6 <->
   (q mod 10 ^ 6 = 0 \/ 10 ^ 5 <= q mod 10 ^ 6) /\ (neg = true -> q / 10 ^ 6 = 0 -> q mod 10 ^ 6 = 0)).
Proof.
  intros neg m e a b q f I R E. apply (millionths_is _ _ _ _ _ I) in R. subst q. set (q := millionths m e) in *.
  pose proof (millionths_nonneg m e) as Q. fold q in Q. rewrite of_double_text in E. cbn [double_to_string] in E. fold q in E.
  destruct (six_digits_spec (q mod 10 ^ 6) (Z.mod_pos_bound q (10 ^ 6) ltac:(lia))) as [A V].
  destruct (dec_nonneg (q / 10 ^ 6) ltac:(apply Z.div_pos; lia)) as [B W].
  destruct (keeps_iff (dec_of_Z (q / 10 ^ 6)) (six_digits (q mod 10 ^ 6)) B A) as [K1 K2].
  assert (L : length (six_digits (q mod 10 ^ 6)) = 6%nat) by reflexivity.
  assert (J : digits_value (dec_of_Z (q / 10 ^ 6) ++ six_digits (q mod 10 ^ 6)) = q).
  { rewrite digits_value_app, V, W, L. change (Z.of_nat 6) with 6. pose proof (Z.div_mod q (10 ^ 6) ltac:(lia)). lia. }
  rewrite J, L, V in K1. rewrite J, L, V, W in K2. unfold no_lost_zero in *. change (Z.of_nat (6 - 1)) with 5 in *.
  destruct neg; cbn [app signed] in *.
  - rewrite (K2 f (dec_nonempty _) E). intuition.
  - rewrite (K1 f E). intuition discriminate.
Qed.
Print Assumptions C125_kept_iff_partial.
(** 1.05 becomes 1.5 and -0.5 becomes 0.5 (the doubles nearest to them). *)
Theorem C125_fraction_refuted :
  (exists f, bf_of_double (Finite false 4728779608739021 (-52)) = Ok f /\ denotes f 15 1) /\
  (exists f, bf_of_double (Finite true 1 (-1)) = Ok f /\ denotes f 5 1) /\
  Z.abs (4728779608739021 * 100 - 105 * 2 ^ 52) < 100.
Proof.
  split; [|split; [|vm_compute; reflexivity]].
  - exists (fl 1 50000). split; [vm_compute; reflexivity|].
    exists [49; 46; 53; 48; 48; 48; 48]%N, 150000, 5%nat. split; [vm_compute; reflexivity|]. split; [|reflexivity].
    apply (dec_plain [49]%N [53; 48; 48; 48; 48]%N); try discriminate; repeat constructor; discriminate.
  - exists (fl 0 500000). split; [vm_compute; reflexivity|].
    exists [48; 46; 53; 48; 48; 48; 48; 48]%N, 500000, 6%nat. split; [vm_compute; reflexivity|]. split; [|reflexivity].
    apply (dec_plain [48]%N [53; 48; 48; 48; 48; 48]%N); try discriminate; repeat constructor; discriminate.
Qed.
Print Assumptions C125_fraction_refuted.
(** Infinities and NaNs are refused. *)
Theorem C125_not_finite : forall neg, bf_of_double (Infinite neg) = Throw EInvalidArgument /\ bf_of_double (NotANumber neg) = Throw EInvalidArgument.
Proof. intros []; split; vm_compute; reflexivity. Qed.
Print Assumptions C125_not_finite.
(** 2.5 and 2^70 *)
Example C125_ex : (f <- bf_of_double (Finite false 5 (-1)) ;; bf_to_string f) = Ok (ascii_chars [50; 46; 53; 48; 48; 48; 48; 48]%N) /\
  (f <- bf_of_double (Finite true 1 70) ;; bf_to_string f) = Ok (ascii_chars (dec_of_Z (- 2 ^ 70))) /\
  in_millionths 5 (-1) 5000000 2 /\ rounds_to 5000000 2 2500000.
Proof. split; [vm_compute; reflexivity|]. split; [vm_compute; reflexivity|]. split; [right; repeat split; lia|]. split; [cbn; lia|reflexivity]. Qed.
