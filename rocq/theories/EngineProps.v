(** The engine of Random.h: its words follow the recurrence the C++ standard gives for mt19937_64 ([rand.eng.mers],
    [rand.predef]: w = 64, n = 312, m = 156, r = 31).  Part of property C130. *)
From Coq Require Import List NArith ZArith Bool Lia ZifyN.
From Verif Require Import Outcome Random.
Import ListNotations.
Local Open Scope N_scope.

(** The standard's sequence x_0, x_1, ..., in arithmetic *)
Definition joined (x next : N) : N := x / 2 ^ 31 * 2 ^ 31 + next mod 2 ^ 31.
Definition follows (x : nat -> N) : Prop := forall k,
  let y := joined (x k) (x (k + 1)%nat) in
  x (k + 312)%nat = N.lxor (x (k + 156)%nat) (N.lxor (y / 2) (if N.odd y then 0xb5026f5aa96619e9 else 0)).
Definition starts (x : nat -> N) (seed : N) : Prop :=
  x O = seed mod 2 ^ 64 /\
  forall i, (i < 311)%nat -> x (S i) = (6364136223846793005 * N.lxor (x i) (x i / 2 ^ 62) + N.of_nat (S i)) mod 2 ^ 64.
Definition tempered (z out : N) : Prop := exists z1 z2 z3,
  z1 = N.lxor z (N.land (z / 2 ^ 29) 0x5555555555555555) /\
  z2 = N.lxor z1 (N.land (z1 * 2 ^ 17 mod 2 ^ 64) 0x71d67fffeda60000) /\
  z3 = N.lxor z2 (N.land (z2 * 2 ^ 37 mod 2 ^ 64) 0xfff7eee000000000) /\
  out = N.lxor z3 (z3 / 2 ^ 43).

Fixpoint state (b : nat) (seed : N) : list N := match b with O => seeded seed | S b => refill (state b seed) end.
Definition word (seed : N) (i : nat) : N := nth (i mod 312) (state (i / 312) seed) 0.

Lemma seed_length n : forall i x, length (seed_words n i x) = n.
Proof. induction n; intros; cbn; [reflexivity|]. now rewrite IHn. Qed.
Lemma twist3_length a : forall b c, length (twist3 a b c) = Nat.min (length a) (Nat.min (length b) (length c)).
Proof. induction a as [|x a IH]; intros [|y b] [|z c]; cbn [twist3 length]; try lia. rewrite IH. lia. Qed.
Lemma refill_length x : length x = 312%nat -> length (refill x) = 312%nat.
Proof.
  intros L. unfold refill. cbv zeta. rewrite app_length, !twist3_length, app_length, !firstn_length, !skipn_length, twist3_length, !firstn_length, !skipn_length.
  destruct x as [|x0 x]; [discriminate|]. cbn [tl]. cbn [length] in *. lia.
Qed.
Lemma state_length b seed : length (state b seed) = 312%nat.
Proof. induction b; cbn [state]; [apply seed_length|now apply refill_length]. Qed.

Lemma nth_twist3 a : forall b c i, (i < length a)%nat -> (i < length b)%nat -> (i < length c)%nat ->
  nth i (twist3 a b c) 0 = twist (nth i a 0) (nth i b 0) (nth i c 0).
Proof.
  induction a as [|x a IH]; intros [|y b] [|z c] [|i] A B C; cbn [length] in *; try lia; cbn [twist3 nth]; [reflexivity|]. apply IH; lia.
Qed.
Lemma nth_first n : forall (l : list N) i, (i < n)%nat -> nth i (firstn n l) 0 = nth i l 0.
Proof. induction n; intros [|x l] [|i] H; try lia; cbn; try reflexivity. apply IHn. lia. Qed.
Lemma nth_skip n : forall (l : list N) i, nth i (skipn n l) 0 = nth (n + i) l 0.
Proof. induction n; intros [|x l] i; cbn; try reflexivity; [now destruct i|]. apply IHn. Qed.
Lemma nth_tl (l : list N) i : nth i (tl l) 0 = nth (S i) l 0.
Proof. destruct l; [now destruct i|reflexivity]. Qed.

(** The words of a block from those of the block before *)
Lemma nth_refill_low x i : length x = 312%nat -> (i < 156)%nat -> nth i (refill x) 0 = twist (nth i x 0) (nth (S i) x 0) (nth (i + 156) x 0).
Proof.
  intros L H. unfold refill. cbv zeta. destruct x as [|x0 x]; [discriminate|]. rewrite app_nth1.
  2:{ rewrite twist3_length, firstn_length, skipn_length. cbn [tl length] in *. lia. }
  rewrite nth_twist3; [|rewrite ?firstn_length, ?skipn_length; cbn [tl length] in *; lia..]. rewrite nth_first, nth_tl, nth_skip by lia. f_equal. f_equal. lia.
Qed.
Lemma nth_refill_high x i : length x = 312%nat -> (156 <= i < 312)%nat ->
  nth i (refill x) 0 = twist (nth i x 0) (if Nat.eqb i 311 then nth 0 (refill x) 0 else nth (S i) x 0) (nth (i - 156) (refill x) 0).
Proof.
  intros L H. assert (LL : length (twist3 (firstn 156 x) (tl x) (skipn 156 x)) = 156%nat).
  { rewrite twist3_length, firstn_length, skipn_length. destruct x as [|x0 x]; [discriminate|]. cbn [tl length] in *. lia. }
  unfold refill. cbv zeta. set (low := twist3 (firstn 156 x) (tl x) (skipn 156 x)) in *. rewrite (app_nth2 low), (app_nth1 low), (app_nth1 low) by lia. rewrite LL.
  rewrite nth_twist3; [|rewrite ?app_length, ?firstn_length, ?skipn_length; lia..]. rewrite nth_skip. replace (156 + (i - 156))%nat with i by lia. f_equal.
  destruct (Nat.eqb_spec i 311) as [->|N].
  - rewrite app_nth2 by (rewrite skipn_length; lia). rewrite skipn_length, L. rewrite nth_first by lia. reflexivity.
  - rewrite app_nth1 by (rewrite skipn_length; lia). rewrite nth_skip. f_equal. lia.
Qed.

Lemma word_at seed b j : (j < 312)%nat -> word seed (b * 312 + j) = nth j (state b seed) 0.
Proof.
  intros H. unfold word. rewrite (Nat.add_comm (b * 312)), Nat.mod_add, Nat.div_add by lia. rewrite Nat.mod_small, Nat.div_small by lia. reflexivity.
Qed.

Lemma joined_eq x next : N.lxor (N.shiftl (N.shiftr x 31) 31) (N.land next low31) = joined x next.
Proof.
  unfold joined, low31. change (2 ^ 31 - 1) with (N.ones 31). rewrite N.land_ones. rewrite N.shiftr_div_pow2, N.shiftl_mul_pow2.
  symmetry. apply N.add_nocarry_lxor. apply N.bits_inj. intros i. rewrite N.land_spec, N.bits_0.
  destruct (N.lt_ge_cases i 31) as [H|H].
  - rewrite N.mul_pow2_bits_low by exact H. reflexivity.
  - rewrite N.mod_pow2_bits_high by exact H. apply andb_false_r.
Qed.
Lemma twist_eq x next far : twist x next far = N.lxor far (N.lxor (joined x next / 2) (if N.odd (joined x next) then 0xb5026f5aa96619e9 else 0)).
Proof. unfold twist. cbv zeta. rewrite joined_eq. rewrite <- (N.shiftr_div_pow2 _ 1). reflexivity. Qed.

Lemma word_follows seed : follows (word seed).
Proof.
  intros k. cbv zeta. set (b := (k / 312)%nat). set (j := (k mod 312)%nat).
  assert (Hj : (j < 312)%nat) by (apply Nat.mod_upper_bound; lia). assert (Hk : k = (b * 312 + j)%nat) by (pose proof (Nat.div_mod k 312 ltac:(lia)); lia).
  rewrite <- twist_eq. rewrite Hk at 1. replace (b * 312 + j + 312)%nat with (S b * 312 + j)%nat by lia. rewrite word_at by exact Hj. cbn [state].
  assert (Wk : word seed k = nth j (state b seed) 0) by (rewrite Hk; now apply word_at). rewrite Wk.
  pose proof (state_length b seed) as L. destruct (Nat.lt_ge_cases j 156) as [C|C].
  - rewrite nth_refill_low by assumption. f_equal.
    + rewrite Hk. replace (b * 312 + j + 1)%nat with (b * 312 + S j)%nat by lia. rewrite word_at by lia. reflexivity.
    + rewrite Hk. replace (b * 312 + j + 156)%nat with (b * 312 + (j + 156))%nat by lia. rewrite word_at by lia. reflexivity.
  - rewrite nth_refill_high by lia. f_equal.
    + rewrite Hk. destruct (Nat.eqb_spec j 311) as [->|N].
      * replace (b * 312 + 311 + 1)%nat with (S b * 312 + 0)%nat by lia. rewrite word_at by lia. reflexivity.
      * replace (b * 312 + j + 1)%nat with (b * 312 + S j)%nat by lia. rewrite word_at by lia. reflexivity.
    + rewrite Hk. replace (b * 312 + j + 156)%nat with (S b * 312 + (j - 156))%nat by lia. rewrite word_at by lia. reflexivity.
Qed.

Lemma seed_words_step n : forall i x j, (S j < n)%nat ->
  nth (S j) (seed_words n i x) 0 = (6364136223846793005 * N.lxor (nth j (seed_words n i x) 0) (nth j (seed_words n i x) 0 / 2 ^ 62) + (i + N.of_nat (S j))) mod 2 ^ 64.
Proof.
  induction n as [|n IH]; intros i x j H; [lia|]. cbn [seed_words]. cbn [nth]. destruct n as [|n]; [lia|]. destruct j as [|j].
  - cbn [seed_words nth]. rewrite N.shiftr_div_pow2. reflexivity.
  - rewrite IH by lia. cbn [nth]. replace (i + 1 + N.of_nat (S j)) with (i + N.of_nat (S (S j))) by lia. reflexivity.
Qed.
Lemma word_starts seed : starts (word seed) seed.
Proof.
  split; [reflexivity|]. intros i H. replace (S i) with (0 * 312 + S i)%nat at 1 by lia. replace i with (0 * 312 + i)%nat at 2 3 by lia.
  rewrite !word_at by lia. cbn [state]. unfold seeded. now rewrite seed_words_step by lia.
Qed.
#[local] Opaque refill seeded.
Lemma iter_refill b : forall x, Nat.iter b refill (refill x) = refill (Nat.iter b refill x).
Proof. induction b as [|b IH]; intros x; [reflexivity|]. change (refill (Nat.iter b refill (refill x)) = refill (refill (Nat.iter b refill x))). now rewrite IH. Qed.
Lemma block_state b : forall x, block b x = Nat.iter (S b) refill x.
Proof.
  induction b as [|b IH]; intros x; [reflexivity|]. cbn [block]. rewrite IH, iter_refill. reflexivity.
Qed.
Lemma state_iter b seed : state b seed = Nat.iter b refill (seeded seed).
Proof. induction b as [|b IH]; [exact eq_refl|]. exact (f_equal refill IH). Qed.
Lemma output_word seed i : output seed i = temper (word seed (i + 312)).
Proof.
  unfold output, word. rewrite block_state, <- state_iter. replace (i + 312)%nat with (i + 1 * 312)%nat by lia.
  rewrite Nat.mod_add, Nat.div_add by lia. now rewrite Nat.add_1_r.
Qed.
Lemma temper_tempered z : tempered z (temper z).
Proof.
  unfold tempered, temper. cbv zeta. do 3 eexists. rewrite !N.shiftr_div_pow2, !N.shiftl_mul_pow2. repeat split.
Qed.

(** C130.  Every seed gives the outputs of the standard's engine. *)
Theorem C130_recurrence : forall seed, exists x, starts x seed /\ follows x /\ forall i, tempered (x (i + 312)%nat) (output seed i).
Proof.
  intros seed. exists (word seed). split; [apply word_starts|]. split; [apply word_follows|]. intros i. rewrite output_word. apply temper_tempered.
Qed.
Print Assumptions C130_recurrence.
(** The sequence is determined by the seed. *)
Theorem C130_one_sequence : forall seed x x', starts x seed -> follows x -> starts x' seed -> follows x' -> forall i, x i = x' i.
Proof.
  intros seed x x' [A0 A] F [B0 B] G. assert (S : forall i, (i < 312)%nat -> x i = x' i).
  { induction i as [|i IH]; intros H; [congruence|]. rewrite A, B, IH by lia. reflexivity. }
  intros i. induction i as [i IH] using (well_founded_induction Wf_nat.lt_wf). destruct (Nat.lt_ge_cases i 312) as [C|C]; [now apply S|].
  replace i with (i - 312 + 312)%nat by lia. rewrite F, G. rewrite !IH by lia. reflexivity.
Qed.
Print Assumptions C130_one_sequence.
Example C130_recurrence_ex : tempered 14620040876 (temper 14620040876) /\ output 5489 0 = 14514284786278117030 /\ joined 0x180000000 0xFFFFFFFF = 0x1FFFFFFFF.
Proof. split; [apply temper_tempered|]. split; vm_compute; reflexivity. Qed.
