(** Property C139: the sign of a zero. *)
From Coq Require Import List NArith ZArith QArith Qabs Qpower Lqa Lia Bool.
From Verif Require Import Outcome Double DoubleProps Random RandomProps RandomReal RandomRealProps RandomSign.
Local Open Scope Q_scope.

(** The signs do not change the numbers. *)
Lemma signed_same t now min max :
  random_real t now min max = (r <- random_signed t now min max ;; Ok (snd r)).
Proof.
  unfold random_real, random_signed, uniform_real, uniform_signed.
  destruct min as [n m e| |], max as [n' m' e'| |]; try reflexivity. cbn [signed finite snd].
  destruct (negb _); [reflexivity|]. cbn [s_round s_add s_opp s_mul snd fst].
  destruct (negb _); reflexivity.
Qed.

Lemma val_neg x : val x < 0 <-> (fst x < 0)%Z.
Proof. unfold val. pose proof (same_exponent_lt (fst x) 0 (snd x)) as H. rewrite <- H. unfold inject_Z at 2. setoid_replace ((0 # 1) * 2 ^ snd x) with 0 by ring. reflexivity. Qed.
Lemma val_nonneg x : 0 <= val x <-> (0 <= fst x)%Z.
Proof. pose proof (val_neg x). destruct (Qlt_le_dec (val x) 0) as [L|L]; split; intros H1; try (exfalso; lra); try lia; trivial. apply H in L. lia. destruct (Z.lt_ge_cases (fst x) 0) as [C|C]; [apply H in C; lra|trivial]. Qed.

(** A number with an exponent not below the least is -2^least at most if negative. *)
Lemma negative_least t x : (least t <= snd x)%Z -> (fst x < 0)%Z -> val x <= - 2 ^ least t.
Proof.
  intros E N. unfold val. rewrite (lower (fst x) (snd x) (least t)) by trivial.
  assert (P : (0 < 2 ^ (snd x - least t))%Z) by (apply Z.pow_pos_nonneg; lia).
  setoid_replace (- 2 ^ least t) with (inject_Z (-1) * 2 ^ least t) by (unfold inject_Z; ring).
  apply same_exponent. nia.
Qed.
Lemma least_in_type t : in_type t (- 2 ^ least t).
Proof. exists (-1)%Z, (least t). split; [destruct t; reflexivity|]. split; [lia|]. unfold inject_Z. ring. Qed.
Lemma zero_in_type t : in_type t 0.
Proof. exists 0%Z, (least t). split; [destruct t; reflexivity|]. split; [lia|]. unfold inject_Z. ring. Qed.
Lemma round_exponent t x : (least t <= snd (round t x))%Z.
Proof.
  destruct x as [m e]. unfold round. destruct (Z.leb_spec (Z.max (least t) (Z.log2 (Z.abs m) + e - (digits t - 1))) e); cbn [snd]; lia.
Qed.

(** The result is negative exactly if its sign bit is set: never -0. *)
Theorem C139_sign : forall t now min max a b s r, argument t min a -> argument t max b ->
  random_signed t now min max = Ok (s, r) ->
  random_real t now min max = Ok r /\ (s = true <-> val r < 0).
Proof.
  intros t now min max a b s r A B H. split; [rewrite signed_same, H; reflexivity|].
  destruct A as (n & m & e & -> & _ & _ & E), B as (n' & m' & e' & -> & _ & _ & E').
  unfold random_signed, uniform_signed in H. cbn [signed snd] in H.
  set (x := (if n then (- Z.of_N m)%Z else Z.of_N m, e)) in *. set (y := (if n' then (- Z.of_N m')%Z else Z.of_N m', e')) in *.
  destruct (n_leb x y) eqn:L; [|discriminate]. cbn [negb] in H.
  set (w := canonical_real t (output (u64 now) 0)) in *. set (d := s_round t (s_add (n', y) (s_opp (n, x)))) in *.
  destruct (n_leb (snd d) (largest t)); [|discriminate]. cbn [negb] in H.
  set (p := s_round t (s_mul (false, w) d)) in *. remember (s_round t (s_add p (n, x))) as R eqn:ER. injection H as H. rewrite H in ER. clear H R.
  assert (ES : s = fst (s_add p (n, x))) by exact (f_equal fst ER). assert (EN : r = round t (snd (s_add p (n, x)))) by exact (f_equal snd ER). clear ER. subst s r.
  (* if max - min has its sign bit set, min has not *)
  assert (D : fst d && n = false).
  { unfold d, s_round, s_add, s_opp. cbn [fst snd].
    assert (G : 0 <= val (n_add y (n_opp x))) by (rewrite val_add, val_opp; apply val_leb in L; lra).
    apply val_nonneg in G. destruct (Z.eqb_spec (fst (n_add y (n_opp x))) 0); [now destruct n, n'|].
    destruct (Z.ltb_spec (fst (n_add y (n_opp x))) 0); [lia|reflexivity]. }
  assert (PS : fst p = fst d) by (unfold p, s_round, s_mul; cbn [fst]; now destruct (fst d)).
  assert (PE : (least t <= snd (snd p))%Z) by apply round_exponent.
  unfold s_add. cbn [snd fst]. set (z := n_add (snd p) x).
  assert (ZE : (least t <= snd z)%Z) by (unfold z, n_add; cbn [snd]; unfold x; cbn [snd]; lia).
  destruct (Z.lt_trichotomy (fst z) 0) as [Z1|[Z1|Z1]].
  - destruct (Z.eqb_spec (fst z) 0); [lia|]. destruct (Z.ltb_spec (fst z) 0); [|lia]. split; [intros _|reflexivity].
    pose proof (round_le t z _ (least_in_type t) (negative_least t z ZE Z1)). pose proof (p_pos (least t)). lra.
  - rewrite Z1. cbn [Z.eqb]. rewrite PS, D. split; [discriminate|]. intros K. exfalso.
    pose proof (round_ge t z 0 (zero_in_type t) ltac:(apply val_nonneg; lia)). lra.
  - destruct (Z.eqb_spec (fst z) 0); [lia|]. destruct (Z.ltb_spec (fst z) 0); [lia|]. split; [discriminate|]. intros K. exfalso.
    pose proof (round_ge t z 0 (zero_in_type t) ltac:(apply val_nonneg; lia)). lra.
Qed.
Print Assumptions C139_sign.
(** Random<Double>(-0.0, -0.0) and Random<Double>(0.0, -0.0) give +0. *)
Example C139_sign_ex : exists e e',
  random_signed FDouble 5489 (Finite true 0 0) (Finite true 0 0) = Ok (false, (0%Z, e)) /\
  random_signed FDouble 5489 (Finite false 0 0) (Finite true 0 0) = Ok (false, (0%Z, e)) /\
  random_signed FFloat 5489 (Finite true 5 (-1)) (Finite false 3 1) = Ok (false, (8782827%Z, e')).
Proof. do 2 eexists. split; [|split]; vm_compute; reflexivity. Qed.
