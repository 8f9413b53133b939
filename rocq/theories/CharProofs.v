(** Proofs about the model of Char.h. *)
From Coq Require Import List NArith ZArith Bool Lia ZifyBool ZifyN ZifyNat.
From Verif Require Import Outcome CharModel SpecUtf8 BitsLib.
Import ListNotations.
Local Open Scope N_scope.
Ltac Zify.zify_post_hook ::= Z.div_mod_to_equations.

(** ** Encoding *)

Lemma from_code_point_encode c :
  0 < c -> c < 0x200000 -> from_code_point c = utf8_encode c.
Proof.
  intros H0 H. unfold from_code_point, calculate_length, utf8_encode, to_uchar.
  destruct (c =? 0) eqn:E0; [lia|].
  rewrite !land_FF, !land_3F, !shiftr_6, !shiftr_12, !shiftr_18.
  destruct (c <? 0x80) eqn:E1.
  { rewrite N.mod_small by lia. reflexivity. }
  assert (M : forall x, x mod 64 < 64) by (intros; apply N.mod_lt; lia).
  assert (T : forall x, N.lor 0x80 (x mod 64) mod 256 = 0x80 + x mod 64).
  { intros x. rewrite lor_80 by apply M. apply N.mod_small. specialize (M x). lia. }
  rewrite !T.
  destruct (c <? 0x800) eqn:E2.
  { rewrite lor_C0 by lia. rewrite N.mod_small by lia. reflexivity. }
  destruct (c <? 0x10000) eqn:E3.
  { rewrite lor_E0 by lia. rewrite N.mod_small by lia. reflexivity. }
  rewrite lor_F0 by lia. rewrite N.mod_small by lia. reflexivity.
Qed.

Lemma utf8_encode_unit c : c < 0x200000 -> utf8_unit (utf8_encode c).
Proof.
  intros H. unfold utf8_encode.
  destruct (c <? 0x80) eqn:E1; [constructor; lia|].
  assert (T : forall x, continuation (0x80 + x mod 64)).
  { intros x. unfold continuation. pose proof (N.mod_lt x 64). lia. }
  destruct (c <? 0x800) eqn:E2; [constructor; [lia|apply T]|].
  destruct (c <? 0x10000) eqn:E3; constructor; try apply T; lia.
Qed.

Lemma utf8_value_encode c : c < 0x200000 -> utf8_value (utf8_encode c) = c.
Proof.
  intros H. unfold utf8_encode.
  destruct (c <? 0x80) eqn:E1; [reflexivity|].
  destruct (c <? 0x800) eqn:E2; [unfold utf8_value; lia|].
  destruct (c <? 0x10000) eqn:E3; unfold utf8_value.
  - lia.
  - assert (T : forall x y, y + x - y = x) by lia. rewrite !T.
    assert (D1 : c / 64 / 64 = c / 4096) by (rewrite N.div_div; lia).
    assert (D2 : c / 4096 / 64 = c / 262144) by (rewrite N.div_div; lia).
    pose proof (N.div_mod c 64). pose proof (N.div_mod (c / 64) 64).
    pose proof (N.div_mod (c / 4096) 64). clear T E1 E2 E3 H. lia.
Qed.

(** ** Decoding *)

Lemma unit_bytes s : utf8_unit s -> Forall is_byte s.
Proof.
  unfold is_byte, continuation.
  destruct 1; repeat constructor; unfold continuation in *; lia.
Qed.

Lemma get_code_point_unit s : utf8_unit s -> get_code_point s = Ok (utf8_value s).
Proof.
  intros U. destruct U as [b H|b c1 H H1|b c1 c2 H H1 H2|b c1 c2 c3 H H1 H2 H3];
    unfold continuation in *; unfold get_code_point, str_get; cbn [nth_error bind];
    rewrite lead_80, ?lead_E0, ?lead_F0, ?lead_F8 by lia.
  - replace (b <? 0x80) with true by lia. reflexivity.
  - replace (b <? 0x80) with false by lia.
    replace ((0xC0 <=? b) && (b <? 0xE0)) with true by lia.
    rewrite land_1F, land_3F, shiftl_6, lor_64 by lia. unfold utf8_value. f_equal. lia.
  - replace (b <? 0x80) with false by lia.
    replace ((0xC0 <=? b) && (b <? 0xE0)) with false by lia.
    replace ((0xE0 <=? b) && (b <? 0xF0)) with true by lia.
    rewrite land_0F, !land_3F, shiftl_6, shiftl_12.
    rewrite lor_4096 by lia.
    replace (b mod 16 * 4096 + c1 mod 64 * 64) with ((b mod 16 * 64 + c1 mod 64) * 64) by lia.
    rewrite lor_64 by lia. unfold utf8_value. f_equal. lia.
  - replace (b <? 0x80) with false by lia.
    replace ((0xC0 <=? b) && (b <? 0xE0)) with false by lia.
    replace ((0xE0 <=? b) && (b <? 0xF0)) with false by lia.
    replace ((0xF0 <=? b) && (b <? 0xF8)) with true by lia.
    rewrite land_07, !land_3F, shiftl_6, shiftl_12, shiftl_18.
    rewrite lor_262144 by lia.
    replace (b mod 8 * 262144 + c1 mod 64 * 4096)
      with ((b mod 8 * 64 + c1 mod 64) * 4096) by lia.
    rewrite lor_4096 by lia.
    replace ((b mod 8 * 64 + c1 mod 64) * 4096 + c2 mod 64 * 64)
      with (((b mod 8 * 64 + c1 mod 64) * 64 + c2 mod 64) * 64) by lia.
    rewrite lor_64 by lia. unfold utf8_value. f_equal.
    replace (b mod 8) with (b - 0xF0) by lia.
    replace (c1 mod 64) with (c1 - 0x80) by lia.
    replace (c2 mod 64) with (c2 - 0x80) by lia.
    replace (c3 mod 64) with (c3 - 0x80) by lia. lia.
Qed.

Lemma get_code_point_range s cp : Forall is_byte s -> get_code_point s = Ok cp -> cp < 0x200000.
Proof.
  intros B H.
  assert (BG : forall i x, str_get s i = Ok x -> x < 256).
  { intros i x. unfold str_get. destruct (nth_error s i) eqn:E.
    - intros [= ->]. rewrite Forall_forall in B. apply B. eapply nth_error_In; eauto.
    - destruct (Nat.eqb i (length s)); [intros [= <-]; lia|discriminate]. }
  unfold get_code_point in H.
  destruct (str_get s 0) as [lead| | |] eqn:E0; try discriminate. cbn [bind] in H.
  pose proof (BG _ _ E0) as L0.
  destruct (N.land lead 0x80 =? 0); [injection H; lia|].
  assert (M : forall x, x mod 64 < 64) by (intros; apply N.mod_lt; lia).
  destruct (N.land lead 0xE0 =? 0xC0).
  { destruct (str_get s 1) as [b1| | |]; try discriminate. cbn [bind] in H.
    injection H as <-. rewrite land_1F, land_3F, shiftl_6, lor_64 by apply M.
    specialize (M b1). lia. }
  destruct (N.land lead 0xF0 =? 0xE0).
  { destruct (str_get s 1) as [b1| | |]; try discriminate. cbn [bind] in H.
    destruct (str_get s 2) as [b2| | |]; try discriminate. cbn [bind] in H.
    injection H as <-. rewrite land_0F, !land_3F, shiftl_6, shiftl_12.
    pose proof (M b1). pose proof (M b2).
    rewrite lor_4096 by lia.
    replace (lead mod 16 * 4096 + b1 mod 64 * 64) with ((lead mod 16 * 64 + b1 mod 64) * 64) by lia.
    rewrite lor_64 by lia. pose proof (N.mod_lt lead 16). lia. }
  destruct (N.land lead 0xF8 =? 0xF0).
  { destruct (str_get s 1) as [b1| | |]; try discriminate. cbn [bind] in H.
    destruct (str_get s 2) as [b2| | |]; try discriminate. cbn [bind] in H.
    destruct (str_get s 3) as [b3| | |]; try discriminate. cbn [bind] in H.
    injection H as <-. rewrite land_07, !land_3F, shiftl_6, shiftl_12, shiftl_18.
    pose proof (M b1). pose proof (M b2). pose proof (M b3).
    rewrite lor_262144 by lia.
    replace (lead mod 8 * 262144 + b1 mod 64 * 4096)
      with ((lead mod 8 * 64 + b1 mod 64) * 4096) by lia.
    rewrite lor_4096 by lia.
    replace ((lead mod 8 * 64 + b1 mod 64) * 4096 + b2 mod 64 * 64)
      with (((lead mod 8 * 64 + b1 mod 64) * 64 + b2 mod 64) * 64) by lia.
    rewrite lor_64 by lia. pose proof (N.mod_lt lead 8). lia. }
  injection H; lia.
Qed.

Lemma from_code_point_bytes c : Forall is_byte (from_code_point c).
Proof.
  unfold from_code_point, is_byte.
  assert (T : forall x, to_uchar x < 256).
  { intros. unfold to_uchar. rewrite land_FF. apply N.mod_lt. lia. }
  destruct (c =? 0); [constructor|].
  destruct (calculate_length c) as [|[|[|[|]]]]; repeat constructor; apply T.
Qed.

Lemma code_point_round_trip cp :
  get_code_point (char_of_code_point cp) = Ok cp <-> cp < 0x200000.
Proof.
  unfold char_of_code_point. split.
  - intros H. eapply get_code_point_range; [|eassumption]. apply from_code_point_bytes.
  - intros H. destruct (N.eq_dec cp 0) as [->|Hz]; [reflexivity|].
    rewrite from_code_point_encode by lia.
    rewrite get_code_point_unit by (apply utf8_encode_unit; lia).
    rewrite utf8_value_encode by lia. reflexivity.
Qed.

(** ** Validation *)

Lemma is_continuation_byte_iff b : b < 256 -> is_continuation_byte b = true <-> continuation b.
Proof.
  intros H. unfold is_continuation_byte, continuation. rewrite lead_C0 by assumption. lia.
Qed.

Lemma is_valid_iff s : Forall is_byte s -> is_valid_utf8_char s = true <-> utf8_unit s.
Proof.
  intros B. split.
  - intros H. unfold is_valid_utf8_char in H.
    destruct s as [|b [|c1 [|c2 [|c3 [|c4 r]]]]]; cbn [length Nat.eqb Nat.ltb Nat.leb orb nth andb] in H;
      try discriminate;
    repeat match goal with Hf : Forall _ (_ :: _) |- _ => inversion Hf; subst; clear Hf end;
      unfold is_byte in *;
      rewrite lead_80, ?lead_E0, ?lead_F0, ?lead_F8 in H by assumption.
    + destruct (b <? 0x80) eqn:E; [constructor; lia|].
      repeat match type of H with context [if ?x then _ else _] => destruct x end; discriminate.
    + destruct (b <? 0x80) eqn:E; [discriminate|].
      destruct ((0xC0 <=? b) && (b <? 0xE0)) eqn:E1.
      * constructor; [lia|]. apply is_continuation_byte_iff; assumption.
      * repeat match type of H with context [if ?x then _ else _] => destruct x end; discriminate.
    + destruct (b <? 0x80) eqn:E; [discriminate|].
      destruct ((0xC0 <=? b) && (b <? 0xE0)) eqn:E1; [discriminate|].
      destruct ((0xE0 <=? b) && (b <? 0xF0)) eqn:E2.
      * apply andb_true_iff in H as [Ha Hb].
        constructor; [lia| |]; apply is_continuation_byte_iff; assumption.
      * destruct ((0xF0 <=? b) && (b <? 0xF8)); discriminate.
    + destruct (b <? 0x80) eqn:E; [discriminate|].
      destruct ((0xC0 <=? b) && (b <? 0xE0)) eqn:E1; [discriminate|].
      destruct ((0xE0 <=? b) && (b <? 0xF0)) eqn:E2; [discriminate|].
      destruct ((0xF0 <=? b) && (b <? 0xF8)) eqn:E3; [|discriminate].
      apply andb_true_iff in H as [H Hc]. apply andb_true_iff in H as [Ha Hb].
      constructor; [lia| | |]; apply is_continuation_byte_iff; assumption.
  - intros U. unfold is_valid_utf8_char.
    destruct U as [b H|b c1 H H1|b c1 c2 H H1 H2|b c1 c2 c3 H H1 H2 H3];
      cbn [length Nat.eqb Nat.ltb Nat.leb orb nth andb];
      rewrite lead_80, ?lead_E0, ?lead_F0, ?lead_F8 by lia.
    + replace (b <? 0x80) with true by lia. reflexivity.
    + replace (b <? 0x80) with false by lia.
      replace ((0xC0 <=? b) && (b <? 0xE0)) with true by lia.
      apply is_continuation_byte_iff; [unfold continuation in *; lia|assumption].
    + replace (b <? 0x80) with false by lia.
      replace ((0xC0 <=? b) && (b <? 0xE0)) with false by lia.
      replace ((0xE0 <=? b) && (b <? 0xF0)) with true by lia.
      apply andb_true_iff; split;
      (apply is_continuation_byte_iff; [unfold continuation in *; lia|assumption]).
    + replace (b <? 0x80) with false by lia.
      replace ((0xC0 <=? b) && (b <? 0xE0)) with false by lia.
      replace ((0xE0 <=? b) && (b <? 0xF0)) with false by lia.
      replace ((0xF0 <=? b) && (b <? 0xF8)) with true by lia.
      rewrite !andb_true_iff; repeat split;
      (apply is_continuation_byte_iff; [unfold continuation in *; lia|assumption]).
Qed.

Lemma char_of_bytes_spec s : Forall is_byte s ->
  (utf8_unit s -> char_of_bytes s = Ok s) /\
  (~ utf8_unit s -> char_of_bytes s = Throw EInvalidArgument).
Proof.
  intros B. pose proof (is_valid_iff s B) as V. unfold char_of_bytes.
  destruct (is_valid_utf8_char s); intuition congruence.
Qed.

Lemma cstr_no_nul s : ~ In 0 (cstr s).
Proof.
  induction s as [|b s IH]; cbn; [tauto|].
  destruct (b =? 0) eqn:E; cbn; [tauto|]. intros [H|H]; [lia|tauto].
Qed.

Lemma cstr_id s : ~ In 0 s -> cstr s = s.
Proof.
  induction s as [|b s IH]; cbn; [reflexivity|]. intros H.
  destruct (b =? 0) eqn:E; [exfalso; apply H; left; lia|].
  f_equal. apply IH. tauto.
Qed.

(** ** Strict UTF-8 *)

Lemma wellformed_accepted s : utf8_wellformed s -> char_of_bytes s = Ok s.
Proof.
  intros (c & [Hc _] & ->).
  assert (U : utf8_unit (utf8_encode c)) by (apply utf8_encode_unit; lia).
  apply char_of_bytes_spec; [apply unit_bytes|]; assumption.
Qed.

Lemma wellformed_value s : utf8_wellformed s ->
  scalar (utf8_value s) /\ s = utf8_encode (utf8_value s).
Proof.
  intros (c & [Hc Hs] & ->). rewrite utf8_value_encode by lia. split; [split; assumption|reflexivity].
Qed.

Lemma overlong_not_wellformed : ~ utf8_wellformed [0xC1; 0x81].
Proof.
  intros H. apply wellformed_value in H as [_ H]. vm_compute in H. discriminate.
Qed.
Lemma surrogate_not_wellformed : ~ utf8_wellformed [0xED; 0xA0; 0x80].
Proof.
  intros H. apply wellformed_value in H as [[_ H] _]. apply H. vm_compute. split; discriminate.
Qed.
Lemma toobig_not_wellformed : ~ utf8_wellformed [0xF4; 0x90; 0x80; 0x80].
Proof.
  intros H. apply wellformed_value in H as [[H _] _]. vm_compute in H. apply H. reflexivity.
Qed.

(** Accepted Chars are well-formed exactly when they are the shortest form of a scalar. *)
Lemma accepted_wellformed_iff s : utf8_unit s ->
  utf8_wellformed s <-> scalar (utf8_value s) /\ s = utf8_encode (utf8_value s).
Proof.
  intros U. split; [apply wellformed_value|].
  intros [H1 H2]. exists (utf8_value s). split; assumption.
Qed.

(** ** Comparison *)

Lemma bytes_eqb_iff a : forall b, bytes_eqb a b = true <-> a = b.
Proof.
  induction a as [|x a IH]; intros [|y b]; cbn; try (split; congruence).
  rewrite andb_true_iff, IH. split.
  - intros [H ->]. f_equal. lia.
  - intros [= -> ->]. split; [lia|reflexivity].
Qed.

Lemma bytes_eqb_refl a : bytes_eqb a a = true.
Proof. apply bytes_eqb_iff. reflexivity. Qed.

Lemma bytes_ltb_iff a : forall b, bytes_ltb a b = true <-> lex_lt a b.
Proof.
  induction a as [|x a IH]; intros [|y b]; cbn.
  - split; [discriminate|inversion 1].
  - split; [constructor|reflexivity].
  - split; [discriminate|inversion 1].
  - destruct (x <? y) eqn:E1; [split; [intros _; constructor; lia|reflexivity]|].
    destruct (y <? x) eqn:E2.
    + split; [discriminate|]. inversion 1; subst; lia.
    + assert (x = y) by lia. subst y. rewrite IH. split; [intros; now constructor|].
      inversion 1; subst; [lia|assumption].
Qed.

Lemma lex_lt_irrefl a : ~ lex_lt a a.
Proof. induction a; inversion 1; subst; [lia|tauto]. Qed.

Lemma lex_lt_trans a b c : lex_lt a b -> lex_lt b c -> lex_lt a c.
Proof.
  intros H. revert c. induction H; intros c Hc; inversion Hc; subst;
    try (constructor; lia); try (now constructor).
  constructor 3. now apply IHlex_lt.
Qed.

Lemma lex_lt_total a b : lex_lt a b \/ a = b \/ lex_lt b a.
Proof.
  revert b. induction a as [|x a IH]; intros [|y b].
  - tauto.
  - left; constructor.
  - right; right; constructor.
  - destruct (N.lt_trichotomy x y) as [H|[->|H]].
    + left; now constructor.
    + destruct (IH b) as [H|[->|H]]; [left|right; left|right; right]; try now constructor.
    + right; right; now constructor.
Qed.

Lemma encode_mono a b : a < b -> b < 0x200000 -> lex_lt (utf8_encode a) (utf8_encode b).
Proof.
  intros H Hb. unfold utf8_encode.
  destruct (a <? 0x80) eqn:A1; destruct (b <? 0x80) eqn:B1; try lia.
  { constructor; lia. }
  { destruct (b <? 0x800) eqn:B2; [constructor; lia|].
    destruct (b <? 0x10000) eqn:B3; constructor; lia. }
  assert (Step : forall x y p q, x / 64 <= y / 64 -> (x / 64 = y / 64 -> x < y) ->
     x / 64 = y / 64 -> lex_lt (0x80 + x mod 64 :: p) (0x80 + y mod 64 :: q)).
  { intros. constructor. lia. }
  destruct (a <? 0x800) eqn:A2.
  { destruct (b <? 0x800) eqn:B2.
    - destruct (N.eq_dec (a / 64) (b / 64)) as [E|E].
      + rewrite E. constructor 3. constructor. lia.
      + constructor. lia.
    - destruct (b <? 0x10000) eqn:B3; constructor; lia. }
  destruct (b <? 0x800) eqn:B2; [lia|].
  assert (D1 : a / 64 / 64 = a / 4096) by (rewrite N.div_div; lia).
  assert (D2 : b / 64 / 64 = b / 4096) by (rewrite N.div_div; lia).
  destruct (a <? 0x10000) eqn:A3.
  { destruct (b <? 0x10000) eqn:B3; [|constructor; lia].
    destruct (N.eq_dec (a / 4096) (b / 4096)) as [E|E].
    + rewrite E. constructor 3.
      destruct (N.eq_dec (a / 64) (b / 64)) as [E2|E2].
      * rewrite E2. constructor 3. constructor. lia.
      * constructor. assert (a / 64 <= b / 64) by (apply N.div_le_mono; lia). lia.
    + assert (a / 4096 <= b / 4096) by (apply N.div_le_mono; lia). constructor. lia. }
  destruct (b <? 0x10000) eqn:B3; [lia|].
  assert (D3 : a / 4096 / 64 = a / 262144) by (rewrite N.div_div; lia).
  assert (D4 : b / 4096 / 64 = b / 262144) by (rewrite N.div_div; lia).
  destruct (N.eq_dec (a / 262144) (b / 262144)) as [E|E].
  - rewrite E. constructor 3.
    destruct (N.eq_dec (a / 4096) (b / 4096)) as [E1|E1].
    + rewrite E1. constructor 3.
      destruct (N.eq_dec (a / 64) (b / 64)) as [E2|E2].
      * rewrite E2. constructor 3. constructor. lia.
      * constructor. assert (a / 64 <= b / 64) by (apply N.div_le_mono; lia). lia.
    + assert (a / 4096 <= b / 4096) by (apply N.div_le_mono; lia). constructor. lia.
  - assert (a / 262144 <= b / 262144) by (apply N.div_le_mono; lia). constructor. lia.
Qed.

Lemma from_code_point_mono a b :
  a < b -> b < 0x200000 -> lex_lt (from_code_point a) (from_code_point b).
Proof.
  intros H Hb. rewrite (from_code_point_encode b) by lia.
  destruct (N.eq_dec a 0) as [->|Ha].
  - cbn. unfold utf8_encode.
    destruct (b <? 0x80); [constructor|].
    destruct (b <? 0x800); [constructor|].
    destruct (b <? 0x10000); constructor.
  - rewrite from_code_point_encode by lia. now apply encode_mono.
Qed.

Lemma char_ltb_code_points a b : a < 0x200000 -> b < 0x200000 ->
  char_ltb (char_of_code_point a) (char_of_code_point b) = (a <? b).
Proof.
  intros Ha Hb. unfold char_ltb, char_of_code_point. apply bool_eq_iff.
  rewrite bytes_ltb_iff. split.
  - intros H. destruct (N.lt_trichotomy a b) as [L|[->|L]].
    + lia.
    + now apply lex_lt_irrefl in H.
    + pose proof (from_code_point_mono b a L Ha) as H2.
      exfalso. eapply lex_lt_irrefl, lex_lt_trans; eassumption.
  - intros H. apply from_code_point_mono; lia.
Qed.

Lemma char_eqb_code_points a b : a < 0x200000 -> b < 0x200000 ->
  char_eqb (char_of_code_point a) (char_of_code_point b) = (a =? b).
Proof.
  intros Ha Hb. apply bool_eq_iff. unfold char_eqb. rewrite bytes_eqb_iff. split.
  - intros H. destruct (N.lt_trichotomy a b) as [L|[->|L]]; [|lia|].
    + pose proof (from_code_point_mono a b L Hb) as H2. unfold char_of_code_point in H.
      rewrite H in H2. now apply lex_lt_irrefl in H2.
    + pose proof (from_code_point_mono b a L Ha) as H2. unfold char_of_code_point in H.
      rewrite H in H2. now apply lex_lt_irrefl in H2.
  - intros H. f_equal. lia.
Qed.

Lemma char_order_code_points a b : a < 0x200000 -> b < 0x200000 ->
  let x := char_of_code_point a in let y := char_of_code_point b in
  char_ltb x y = (a <? b) /\ char_leb x y = (a <=? b) /\
  char_gtb x y = (b <? a) /\ char_geb x y = (b <=? a) /\
  char_eqb x y = (a =? b) /\ char_neqb x y = negb (a =? b).
Proof.
  intros Ha Hb x y. subst x y.
  pose proof (char_ltb_code_points a b Ha Hb) as L1.
  pose proof (char_ltb_code_points b a Hb Ha) as L2.
  pose proof (char_eqb_code_points a b Ha Hb) as E.
  unfold char_leb, char_gtb, char_geb, char_neqb. unfold char_ltb in L1, L2 |- *.
  rewrite L1, L2, E. repeat split; lia.
Qed.

(** ** Memory safety of GetCodePoint *)

Lemma char_of_bytes_ok s c : Forall is_byte s -> char_of_bytes s = Ok c -> c = s /\ utf8_unit s.
Proof.
  intros B H. unfold char_of_bytes in H. destruct (is_valid_utf8_char s) eqn:V; [|discriminate].
  injection H as <-. split; [reflexivity|]. now apply is_valid_iff.
Qed.

Lemma Forall_cstr P s : Forall P s -> Forall P (cstr s).
Proof. induction 1 as [|b s Hb Hs IH]; cbn; [constructor|]. destruct (b =? 0); now constructor. Qed.

Lemma get_code_point_byte b : is_byte b ->
  (0xE0 <= b < 0xF8 -> get_code_point (char_of_byte b) = UB) /\
  (~ (0xE0 <= b < 0xF8) -> exists cp, get_code_point (char_of_byte b) = Ok cp).
Proof.
  unfold is_byte. intros H. unfold get_code_point, char_of_byte, str_get. cbn [nth_error bind length Nat.eqb].
  rewrite lead_80, lead_E0, lead_F0, lead_F8 by assumption. split; intros R.
  - replace (b <? 0x80) with false by lia.
    replace ((0xC0 <=? b) && (b <? 0xE0)) with false by lia.
    destruct ((0xE0 <=? b) && (b <? 0xF0)) eqn:E3; [reflexivity|].
    replace ((0xF0 <=? b) && (b <? 0xF8)) with true by lia. reflexivity.
  - destruct (b <? 0x80) eqn:?; [eauto|].
    destruct ((0xC0 <=? b) && (b <? 0xE0)) eqn:?; [cbn; eauto|].
    replace ((0xE0 <=? b) && (b <? 0xF0)) with false by lia.
    replace ((0xF0 <=? b) && (b <? 0xF8)) with false by lia. eauto.
Qed.

Lemma from_code_point_length4 cp : 0x10000 <= cp ->
  exists a b c d, from_code_point cp = [a; b; c; d].
Proof.
  intros H. unfold from_code_point, calculate_length.
  replace (cp =? 0) with false by lia. replace (cp <? 0x80) with false by lia.
  replace (cp <? 0x800) with false by lia. replace (cp <? 0x10000) with false by lia. eauto.
Qed.

Lemma get_code_point_code_point cp : exists v, get_code_point (char_of_code_point cp) = Ok v.
Proof.
  destruct (N.lt_ge_cases cp 0x200000) as [H|H].
  - exists cp. now apply code_point_round_trip.
  - destruct (from_code_point_length4 cp) as (a & b & c & d & E); [lia|].
    unfold char_of_code_point. rewrite E. unfold get_code_point, str_get.
    cbn [nth_error bind length Nat.eqb].
    repeat match goal with |- context [if ?x then _ else _] => destruct x end; eauto.
Qed.

Lemma get_code_point_safe c : obtainable c ->
  (get_code_point c = UB <-> exists b, c = [b] /\ 0xE0 <= b < 0xF8).
Proof.
  intros O.
  assert (Uok : forall s, utf8_unit s -> (get_code_point s = UB <-> exists b, s = [b] /\ 0xE0 <= b < 0xF8)).
  { intros s U. rewrite (get_code_point_unit s U). split; [discriminate|].
    intros (b & -> & Hb). inversion U; subst; lia. }
  destruct O as [|b Hb|cp Hcp|s c B H|s c B H].
  - split; [discriminate|]. intros (b & H & _). discriminate.
  - destruct (get_code_point_byte b Hb) as [H1 H2]. split.
    + intros H. exists b. split; [reflexivity|].
      assert (D : 0xE0 <= b < 0xF8 \/ ~ (0xE0 <= b < 0xF8)) by lia.
      destruct D as [D|D]; [assumption|]. destruct (H2 D) as [v Hv]. congruence.
    + intros (b' & H & R). injection H as <-. now apply H1.
  - split.
    + intros H. destruct (get_code_point_code_point cp) as [v Hv]. congruence.
    + intros (b & H & R). unfold char_of_code_point in H. exfalso.
      destruct (N.lt_ge_cases cp 0x10000) as [L|L].
      * destruct (N.eq_dec cp 0) as [->|Hz]; [discriminate|].
        rewrite from_code_point_encode in H by lia.
        assert (U : utf8_unit (utf8_encode cp)) by (apply utf8_encode_unit; lia).
        rewrite H in U. inversion U; subst; lia.
      * destruct (from_code_point_length4 cp L) as (a & b' & c & d & E). congruence.
  - apply char_of_bytes_ok in H as [-> U]; [|assumption]. now apply Uok.
  - apply char_of_bytes_ok in H as [-> U]; [|now apply Forall_cstr]. now apply Uok.
Qed.

(** ** Statements used by CharProps.v *)

Lemma C02_lemma cp : 1 <= cp <= 0x10FFFF -> char_of_code_point cp = utf8_encode cp.
Proof. intros H. apply from_code_point_encode; lia. Qed.

Lemma cstr_app s r : ~ In 0 s -> cstr (s ++ 0 :: r) = s.
Proof.
  induction s as [|b s IH]; cbn; [reflexivity|]. intros H.
  destruct (b =? 0) eqn:E; [exfalso; apply H; left; lia|]. f_equal. apply IH. tauto.
Qed.

Lemma char_of_cstr_spec s r : Forall is_byte s -> ~ In 0 s ->
  (utf8_unit s -> char_of_cstr (s ++ 0 :: r) = Ok s) /\
  (~ utf8_unit s -> char_of_cstr (s ++ 0 :: r) = Throw EInvalidArgument).
Proof.
  intros B H. unfold char_of_cstr. rewrite cstr_app by assumption. now apply char_of_bytes_spec.
Qed.

Lemma accepted_char_wellformed_iff s c : Forall is_byte s -> char_of_bytes s = Ok c ->
  (utf8_wellformed c <-> scalar (utf8_value c) /\ c = utf8_encode (utf8_value c)).
Proof.
  intros B H. apply char_of_bytes_ok in H as [-> U]; [|assumption].
  now apply accepted_wellformed_iff.
Qed.

Lemma ill_formed_accepted :
  exists overlong surrogate too_big,
    char_of_bytes overlong = Ok overlong /\ ~ utf8_wellformed overlong /\
    char_of_bytes surrogate = Ok surrogate /\ ~ utf8_wellformed surrogate /\
    char_of_bytes too_big = Ok too_big /\ ~ utf8_wellformed too_big.
Proof.
  exists [0xC1; 0x81], [0xED; 0xA0; 0x80], [0xF4; 0x90; 0x80; 0x80].
  repeat split; try reflexivity.
  - exact overlong_not_wellformed.
  - exact surrogate_not_wellformed.
  - exact toobig_not_wellformed.
Qed.

Lemma same_code_point :
  exists a b c, char_of_bytes a = Ok a /\ char_of_bytes b = Ok b /\ char_eqb a b = false /\
    get_code_point a = Ok c /\ get_code_point b = Ok c.
Proof. exists [0xC1; 0x81], [0x41], 0x41. repeat split. Qed.

Lemma C05_lemma a b : a <= 0x10FFFF -> b <= 0x10FFFF ->
  let x := char_of_code_point a in let y := char_of_code_point b in
  char_ltb x y = (a <? b) /\ char_leb x y = (a <=? b) /\
  char_gtb x y = (b <? a) /\ char_geb x y = (b <=? a) /\
  char_eqb x y = (a =? b) /\ char_neqb x y = negb (a =? b).
Proof. intros. apply char_order_code_points; lia. Qed.

Lemma get_code_point_unsafe : exists c, obtainable c /\ get_code_point c = UB.
Proof. exists [0xE4]. split; [apply (ob_byte 0xE4); reflexivity|reflexivity]. Qed.
