(** Arithmetic lemmas about bit operations on N and finite enumeration. *)
From Coq Require Import List NArith ZArith Bool Lia ZifyBool ZifyN ZifyNat.
Import ListNotations.
Local Open Scope N_scope.

Ltac Zify.zify_post_hook ::= Z.div_mod_to_equations.

Lemma forall_below (n : N) (f : N -> bool) :
  forallb f (map N.of_nat (seq 0 (N.to_nat n))) = true ->
  forall b, b < n -> f b = true.
Proof.
  intros H b Hb. rewrite forallb_forall in H. apply H.
  apply in_map_iff. exists (N.to_nat b). split; [lia|].
  apply in_seq. lia.
Qed.

Lemma lor_disjoint x y k : y < 2 ^ k -> N.lor (x * 2 ^ k) y = x * 2 ^ k + y.
Proof.
  intros Hy.
  assert (H : N.land (x * 2 ^ k) y = 0).
  { apply N.bits_inj. intro n. rewrite N.land_spec, N.bits_0.
    destruct (N.lt_ge_cases n k) as [L|L].
    - rewrite N.mul_pow2_bits_low by assumption. reflexivity.
    - replace (N.testbit y n) with false; [apply andb_false_r|].
      symmetry. destruct (N.eq_dec y 0) as [->|Hz]; [apply N.bits_0|].
      apply N.bits_above_log2. apply N.log2_lt_pow2; [lia|].
      apply N.lt_le_trans with (2 ^ k); [assumption|].
      apply N.pow_le_mono_r; lia. }
  rewrite N.add_nocarry_lxor by assumption. symmetry. apply N.lxor_lor, H.
Qed.

Lemma land_3F x : N.land x 0x3F = x mod 64.
Proof. exact (N.land_ones x 6). Qed.
Lemma land_1F x : N.land x 0x1F = x mod 32.
Proof. exact (N.land_ones x 5). Qed.
Lemma land_0F x : N.land x 0x0F = x mod 16.
Proof. exact (N.land_ones x 4). Qed.
Lemma land_07 x : N.land x 0x07 = x mod 8.
Proof. exact (N.land_ones x 3). Qed.
Lemma land_FF x : N.land x 0xFF = x mod 256.
Proof. exact (N.land_ones x 8). Qed.
Lemma shiftr_6 x : N.shiftr x 6 = x / 64.
Proof. exact (N.shiftr_div_pow2 x 6). Qed.
Lemma shiftr_12 x : N.shiftr x 12 = x / 4096.
Proof. exact (N.shiftr_div_pow2 x 12). Qed.
Lemma shiftr_18 x : N.shiftr x 18 = x / 262144.
Proof. exact (N.shiftr_div_pow2 x 18). Qed.
Lemma shiftl_6 x : N.shiftl x 6 = x * 64.
Proof. exact (N.shiftl_mul_pow2 x 6). Qed.
Lemma shiftl_12 x : N.shiftl x 12 = x * 4096.
Proof. exact (N.shiftl_mul_pow2 x 12). Qed.
Lemma shiftl_18 x : N.shiftl x 18 = x * 262144.
Proof. exact (N.shiftl_mul_pow2 x 18). Qed.

Lemma lor_64 x y : y < 64 -> N.lor (x * 64) y = x * 64 + y.
Proof. exact (lor_disjoint x y 6). Qed.
Lemma lor_4096 x y : y < 4096 -> N.lor (x * 4096) y = x * 4096 + y.
Proof. exact (lor_disjoint x y 12). Qed.
Lemma lor_262144 x y : y < 262144 -> N.lor (x * 262144) y = x * 262144 + y.
Proof. exact (lor_disjoint x y 18). Qed.

(** 0xC0, 0xE0, 0xF0, 0x80 as multiples of powers of two. *)
Lemma lor_80 y : y < 64 -> N.lor 0x80 y = 0x80 + y.
Proof. intro. exact (lor_disjoint 2 y 6 H). Qed.
Lemma lor_C0 y : y < 32 -> N.lor 0xC0 y = 0xC0 + y.
Proof. intro. exact (lor_disjoint 6 y 5 H). Qed.
Lemma lor_E0 y : y < 16 -> N.lor 0xE0 y = 0xE0 + y.
Proof. intro. exact (lor_disjoint 14 y 4 H). Qed.
Lemma lor_F0 y : y < 8 -> N.lor 0xF0 y = 0xF0 + y.
Proof. intro. apply (lor_disjoint 15 y 4). lia. Qed.

Lemma bool_eq_iff (a b : bool) : (a = true <-> b = true) -> a = b.
Proof. destruct a, b; intuition congruence. Qed.

(** Lead byte tests. *)

Lemma lead_80 b : b < 256 -> (N.land b 0x80 =? 0) = (b <? 0x80).
Proof.
  intros Hb.
  apply eqb_prop.
  exact (forall_below 256 (fun b => Bool.eqb (N.land b 0x80 =? 0) (b <? 0x80)) eq_refl b Hb).
Qed.
Lemma lead_E0 b : b < 256 ->
  (N.land b 0xE0 =? 0xC0) = (0xC0 <=? b) && (b <? 0xE0).
Proof.
  intros Hb. apply eqb_prop.
  exact (forall_below 256 (fun b => Bool.eqb (N.land b 0xE0 =? 0xC0)
     ((0xC0 <=? b) && (b <? 0xE0))) eq_refl b Hb).
Qed.
Lemma lead_F0 b : b < 256 ->
  (N.land b 0xF0 =? 0xE0) = (0xE0 <=? b) && (b <? 0xF0).
Proof.
  intros Hb. apply eqb_prop.
  exact (forall_below 256 (fun b => Bool.eqb (N.land b 0xF0 =? 0xE0)
     ((0xE0 <=? b) && (b <? 0xF0))) eq_refl b Hb).
Qed.
Lemma lead_F8 b : b < 256 ->
  (N.land b 0xF8 =? 0xF0) = (0xF0 <=? b) && (b <? 0xF8).
Proof.
  intros Hb. apply eqb_prop.
  exact (forall_below 256 (fun b => Bool.eqb (N.land b 0xF8 =? 0xF0)
     ((0xF0 <=? b) && (b <? 0xF8))) eq_refl b Hb).
Qed.
Lemma lead_C0 b : b < 256 ->
  (N.land b 0xC0 =? 0x80) = (0x80 <=? b) && (b <? 0xC0).
Proof.
  intros Hb. apply eqb_prop.
  exact (forall_below 256 (fun b => Bool.eqb (N.land b 0xC0 =? 0x80)
     ((0x80 <=? b) && (b <? 0xC0))) eq_refl b Hb).
Qed.
