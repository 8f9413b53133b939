(** Proofs about the model of __Core/Char/Utility.h. *)
From Coq Require Import List NArith ZArith Bool Lia ZifyBool ZifyN ZifyNat.
From Verif Require Import Outcome CharModel CharUtil SpecChar BitsLib.
Import ListNotations.
Local Open Scope N_scope.
Ltac Zify.zify_post_hook ::= Z.div_mod_to_equations.

Lemma in_set_iff l c : in_set l c = true <-> In c l.
Proof.
  unfold in_set. rewrite existsb_exists. split.
  - intros (x & Hx & E). apply N.eqb_eq in E. now subst.
  - intros H. exists c. split; [assumption|apply N.eqb_refl].
Qed.

Lemma in_range_iff a b c : in_range a b c = true <-> a <= c <= b.
Proof. unfold in_range. lia. Qed.

Lemma in_range_false a b c : c < a \/ b < c -> in_range a b c = false.
Proof. unfold in_range. lia. Qed.

Lemma in_range_true a b c : a <= c <= b -> in_range a b c = true.
Proof. unfold in_range. lia. Qed.

Lemma is_space_spec c : is_space c = true <-> white_space c.
Proof.
  unfold is_space. rewrite in_set_iff. unfold white_space. cbn [In]. lia.
Qed.

Lemma is_digit_spec c : is_digit c = true <-> exists v, decimal_digit c v.
Proof.
  split.
  - intros H. unfold is_digit in H.
    repeat (apply orb_true_iff in H as [H|H]);
    match type of H with in_range ?a _ _ = true =>
      exists (c - a); apply in_range_iff in H; split; [lia|]; exists a; split;
        [unfold digit_zeros; cbn [In]; tauto|lia] end.
  - intros (v & Hv & z & Hz & ->).
    unfold is_digit. unfold digit_zeros in Hz. cbn [In] in Hz.
    repeat destruct Hz as [<-|Hz]; try (exfalso; exact Hz);
    match goal with |- context [in_range ?a ?b (?a + v)] =>
      rewrite (in_range_true a b (a + v)) by lia end;
    rewrite ?orb_true_r, ?orb_true_l; reflexivity.
Qed.

Lemma to_digit_spec c :
  (0x30 <= c <= 0x39 -> to_digit c = (Z.of_N c - 48)%Z) /\
  (~ (0x30 <= c <= 0x39) -> to_digit c = (-1)%Z).
Proof.
  unfold to_digit. destruct (in_range 0x30 0x39 c) eqn:E.
  - apply in_range_iff in E. split; [reflexivity|lia].
  - split; [|reflexivity]. intros H. apply in_range_iff in H. congruence.
Qed.

Ltac clear_ranges := repeat match goal with E : in_range _ _ _ = false |- _ => clear E end.

(** Find the failed test that contradicts the range hypothesis. *)
Ltac contra_range c :=
  repeat match goal with
  | E : in_range ?a ?b c = false |- _ =>
      first [exfalso; rewrite (in_range_true a b c) in E by lia; discriminate E | clear E]
  end.

(** Walk down a chain of range tests, closing each hit with [tac]. *)
Ltac chain c tac :=
  repeat lazymatch goal with
  | |- context [if ?t then _ else _] =>
    lazymatch t with
    | in_range ?a ?b c =>
        let E := fresh "E" in destruct (in_range a b c) eqn:E; [apply in_range_iff in E; clear_ranges; tac|]
    | c =? ?k =>
        let E := fresh "E" in destruct (c =? k) eqn:E; [apply N.eqb_eq in E; clear_ranges; tac|]
    | ?k <=? c =>
        let E := fresh "E" in destruct (k <=? c) eqn:E; [apply N.leb_le in E; clear_ranges; tac|]
    end
  end.

(** Prove a disjunction by trying its members one by one. *)
Ltac pick :=
  match goal with
  | |- _ \/ _ => first [left; solve [pick] | right; solve [pick]]
  | |- _ /\ _ => split; pick
  | |- _ => lia
  end.

Ltac split_or H :=
  repeat match type of H with _ \/ _ => destruct H as [H|H] end.

(** ** ToUppercase *)

Definition ext_a (c : N) : Prop :=
  0x100 <= c <= 0x12F \/ 0x132 <= c <= 0x137 \/ 0x139 <= c <= 0x148 \/ 0x14A <= c <= 0x177.

Definition upper_dom (c : N) : Prop :=
  c = 0xDF \/ c = 0x131 \/ c = 0x149 \/ basic_small c \/
  0x1F00 <= c <= 0x1F07 \/ 0x1F10 <= c <= 0x1F15 \/ 0x1F20 <= c <= 0x1F27 \/
  0x1F30 <= c <= 0x1F37 \/ 0x1F40 <= c <= 0x1F45 \/ 0x1F60 <= c <= 0x1F67 \/
  0x1F70 <= c <= 0x1F71 \/ 0x1F72 <= c <= 0x1F75 \/ 0x1F76 <= c <= 0x1F77 \/
  0x1F78 <= c <= 0x1F79 \/ 0x1F7A <= c <= 0x1F7B \/ 0x1F7C <= c <= 0x1F7D \/ ext_a c.

(** The mapping as a relation: exactly one line applies to a code point of the domain. *)
Definition upper_move (c r : N) : Prop :=
  (c = 0xDF /\ r = 0x1E9E) \/ (c = 0x131 /\ r = 0x49) \/ (c = 0x149 /\ r = 0x2BC) \/
  (basic_small c /\ r = c - 0x20) \/
  ((0x1F00 <= c <= 0x1F07 \/ 0x1F10 <= c <= 0x1F15 \/ 0x1F20 <= c <= 0x1F27 \/
    0x1F30 <= c <= 0x1F37 \/ 0x1F40 <= c <= 0x1F45 \/ 0x1F60 <= c <= 0x1F67) /\ r = c - 8) \/
  (0x1F70 <= c <= 0x1F71 /\ r = c + 0x56) \/ (0x1F72 <= c <= 0x1F75 /\ r = c + 0x64) \/
  (0x1F76 <= c <= 0x1F77 /\ r = c + 0x80) \/ (0x1F78 <= c <= 0x1F79 /\ r = c + 0x7E) \/
  (0x1F7A <= c <= 0x1F7B /\ r = c + 0x7C) \/ (0x1F7C <= c <= 0x1F7D /\ r = c + 0x7A) \/
  (ext_a c /\ c <> 0x149 /\ c <> 0x131 /\ r + c mod 2 = c).

Lemma upper_cases c :
  (~ upper_dom c /\ to_uppercase c = c) \/ upper_move c (to_uppercase c).
Proof.
  unfold to_uppercase.
  chain c ltac:(right; unfold upper_move, basic_small, ext_a;
    try match goal with |- context [if ?t then _ else _] => destruct t eqn:? end; pick).
  left. split; [|reflexivity].
  intros D. unfold upper_dom, basic_small, ext_a in D. split_or D; try lia; contra_range c; lia.
Qed.

Lemma to_uppercase_high c : 0x2000 <= c -> to_uppercase c = c.
Proof.
  intros H. destruct (upper_cases c) as [[_ E]|M]; [exact E|].
  unfold upper_move, basic_small, ext_a in M. lia.
Qed.

Lemma to_uppercase_idem c : to_uppercase (to_uppercase c) = to_uppercase c.
Proof.
  destruct (upper_cases c) as [[_ E]|M]; [now rewrite !E|].
  set (r := to_uppercase c) in *. clearbody r.
  destruct (upper_cases r) as [[_ E]|M2]; [exact E|].
  set (r2 := to_uppercase r) in *. clearbody r2.
  unfold upper_move, basic_small, ext_a in M. split_or M; unfold upper_move, basic_small, ext_a in M2; lia.
Qed.

(** ** ToLowercase *)

Definition lower_dom (c : N) : Prop :=
  c = 0x1E9E \/ c = 0x130 \/ 0x41 <= c <= 0x5A \/ 0x410 <= c <= 0x42F \/ 0x391 <= c <= 0x3A1 \/
  0x3A3 <= c <= 0x3A9 \/ 0x1F08 <= c <= 0x1F0F \/ 0x1F18 <= c <= 0x1F1D \/ 0x1F28 <= c <= 0x1F2F \/
  0x1F38 <= c <= 0x1F3F \/ 0x1F48 <= c <= 0x1F4D \/ 0x1F68 <= c <= 0x1F6F \/ 0x1FB8 <= c <= 0x1FB9 \/
  0x1FBA <= c <= 0x1FBB \/ 0x1FC8 <= c <= 0x1FCB \/ 0x1FD8 <= c <= 0x1FD9 \/ 0x1FE8 <= c <= 0x1FE9 \/
  0x1FEA <= c <= 0x1FEB \/ 0x1FEC <= c \/ ext_a c.

Definition lower_move (c r : N) : Prop :=
  (c = 0x1E9E /\ r = 0xDF) \/ (c = 0x130 /\ r = 0x69) \/ (c = 0x212A /\ r = 0x6B) \/
  (c = 0x212B /\ r = 0xE5) \/
  ((0x41 <= c <= 0x5A \/ 0x410 <= c <= 0x42F \/ 0x391 <= c <= 0x3A1 \/ 0x3A3 <= c <= 0x3A9) /\ r = c + 0x20) \/
  ((0x1F08 <= c <= 0x1F0F \/ 0x1F18 <= c <= 0x1F1D \/ 0x1F28 <= c <= 0x1F2F \/ 0x1F38 <= c <= 0x1F3F \/
    0x1F48 <= c <= 0x1F4D \/ 0x1F68 <= c <= 0x1F6F \/ 0x1FB8 <= c <= 0x1FBB \/ 0x1FC8 <= c <= 0x1FCB \/
    0x1FD8 <= c <= 0x1FD9 \/ (0x1FE8 <= c /\ c <> 0x212A /\ c <> 0x212B)) /\ r = c - 8) \/
  (ext_a c /\ c <> 0x130 /\ r = c + 1 - c mod 2).

Lemma lower_cases c :
  (~ lower_dom c /\ to_lowercase c = c) \/ lower_move c (to_lowercase c).
Proof.
  unfold to_lowercase.
  chain c ltac:(right; unfold lower_move, ext_a;
    try match goal with |- context [c mod 2 =? 0] => destruct (c mod 2 =? 0) eqn:?; cbn [negb] end; pick).
  left. split; [|reflexivity].
  intros D. unfold lower_dom, ext_a in D. split_or D; try lia; contra_range c; lia.
Qed.

Lemma to_lowercase_high c : 0x1FEC <= c -> c <> 0x212A -> c <> 0x212B -> to_lowercase c = c - 8.
Proof.
  intros H H1 H2. destruct (lower_cases c) as [[D E]|M].
  - exfalso. apply D. unfold lower_dom. lia.
  - unfold lower_move, ext_a in M. lia.
Qed.

Lemma to_lowercase_low_idem c : c < 0x1FEC -> to_lowercase (to_lowercase c) = to_lowercase c.
Proof.
  intros H. destruct (lower_cases c) as [[_ E]|M]; [now rewrite !E|].
  set (r := to_lowercase c) in *. clearbody r.
  destruct (lower_cases r) as [[_ E]|M2]; [exact E|].
  set (r2 := to_lowercase r) in *. clearbody r2.
  unfold lower_move, ext_a in M. split_or M; unfold lower_move, ext_a in M2; lia.
Qed.

(** ** Classification *)

Definition upper_class (c : N) : Prop :=
  c = 0x1E9E \/ c = 0x130 \/ c = 0x212A \/ c = 0x212B \/
  0x41 <= c <= 0x5A \/ 0x410 <= c <= 0x42F \/ 0x391 <= c <= 0x3A1 \/
  0x3A3 <= c <= 0x3A9 \/ 0x1F08 <= c <= 0x1F0F \/ 0x1F18 <= c <= 0x1F1D \/ 0x1F28 <= c <= 0x1F2F \/
  0x1F38 <= c <= 0x1F3F \/ 0x1F48 <= c <= 0x1F4D \/ 0x1F68 <= c <= 0x1F6F \/ 0x1FB8 <= c <= 0x1FBB \/
  0x1FC8 <= c <= 0x1FCB \/ 0x1FD8 <= c <= 0x1FDB \/ 0x1FE8 <= c <= 0x1FEC.

Definition lower_class (c : N) : Prop :=
  c = 0xDF \/ c = 0x131 \/ c = 0x149 \/ basic_small c \/
  0x1F00 <= c <= 0x1F07 \/ 0x1F10 <= c <= 0x1F15 \/ 0x1F20 <= c <= 0x1F27 \/
  0x1F30 <= c <= 0x1F37 \/ 0x1F40 <= c <= 0x1F45 \/ 0x1F60 <= c <= 0x1F67 \/ 0x1F70 <= c <= 0x1F7D.

Lemma is_uppercase_iff c : is_uppercase c = true <-> upper_class c.
Proof.
  unfold is_uppercase, in_set. cbn [existsb].
  destruct ((c =? 0x1E9E) || ((c =? 0x130) || ((c =? 0x212A) || ((c =? 0x212B) || false)))) eqn:E0.
  - split; [intros _; unfold upper_class; pick|reflexivity].
  - chain c ltac:(split; [intros _; unfold upper_class; pick|reflexivity]).
    split; [discriminate|]. intros D. unfold upper_class in D. split_or D; try lia; contra_range c; lia.
Qed.

Lemma is_lowercase_iff c : is_lowercase c = true <-> lower_class c.
Proof.
  unfold is_lowercase, in_set. cbn [existsb].
  destruct ((c =? 0xDF) || ((c =? 0x131) || ((c =? 0x149) || false))) eqn:E0.
  - split; [intros _; unfold lower_class; pick|reflexivity].
  - chain c ltac:(split; [intros _; unfold lower_class, basic_small; pick|reflexivity]).
    split; [discriminate|]. intros D. unfold lower_class, basic_small in D. split_or D; try lia; contra_range c; lia.
Qed.

Lemma to_lowercase_low_moves c : c < 0x1FEC -> to_lowercase c <> c ->
  is_uppercase c = true \/ 0x100 <= c <= 0x177.
Proof.
  intros H D. rewrite is_uppercase_iff. destruct (lower_cases c) as [[_ E]|M]; [congruence|].
  clear D. unfold lower_move, ext_a in M. unfold upper_class. lia.
Qed.

Lemma upper_lower_disjoint c : ~ (is_uppercase c = true /\ is_lowercase c = true).
Proof.
  rewrite is_uppercase_iff, is_lowercase_iff. intros [U L].
  unfold upper_class in U. split_or U; unfold lower_class, basic_small in L; lia.
Qed.

Lemma is_letter_spec c :
  is_letter c = true <-> (is_uppercase c = true \/ is_lowercase c = true).
Proof. unfold is_letter. apply orb_true_iff. Qed.

Lemma not_true_false b : b <> true -> b = false.
Proof. destruct b; congruence. Qed.

Lemma upper_no_move c : ~ upper_dom c -> to_uppercase c = c.
Proof.
  intros D. destruct (upper_cases c) as [[_ E]|M]; [exact E|].
  exfalso. apply D. clear D. unfold upper_move, ext_a, basic_small in M. unfold upper_dom, ext_a, basic_small.
  set (r := to_uppercase c) in *; clearbody r. split_or M; pick.
Qed.
Lemma lower_no_move c : ~ lower_dom c -> to_lowercase c = c.
Proof.
  intros D. destruct (lower_cases c) as [[_ E]|M]; [exact E|].
  exfalso. apply D. clear D. unfold lower_move, ext_a in M. unfold lower_dom, ext_a.
  set (r := to_lowercase c) in *; clearbody r.
  repeat match type of M with _ \/ _ => destruct M as [M|M] | (_ \/ _) /\ _ => let Q := fresh in destruct M as [M Q] end; try pick;
  assert (c < 0x1FEA \/ 0x1FEA <= c < 0x1FEC \/ 0x1FEC <= c) by lia; split_or H0; try pick.
Qed.
Lemma upper_moves c : upper_dom c -> upper_move c (to_uppercase c).
Proof. intros D. destruct (upper_cases c) as [[N _]|M]; [contradiction|exact M]. Qed.
Lemma lower_moves c : lower_dom c -> lower_move c (to_lowercase c).
Proof. intros D. destruct (lower_cases c) as [[N _]|M]; [contradiction|exact M]. Qed.

Ltac no_dom := unfold upper_dom, lower_dom, basic_small, ext_a; lia.

Lemma ascii_case c : c < 0x80 ->
  (ascii_lower c -> to_uppercase c = c - 32 /\ to_lowercase c = c /\
     is_lowercase c = true /\ is_uppercase c = false) /\
  (ascii_upper c -> to_lowercase c = c + 32 /\ to_uppercase c = c /\
     is_uppercase c = true /\ is_lowercase c = false) /\
  (~ ascii_lower c -> ~ ascii_upper c -> to_lowercase c = c /\ to_uppercase c = c /\
     is_letter c = false).
Proof.
  intros H. unfold ascii_lower, ascii_upper. repeat split; intros.
  - assert (D : upper_dom c) by no_dom. apply upper_moves in D.
    unfold upper_move, basic_small, ext_a in D. lia.
  - apply lower_no_move. no_dom.
  - apply is_lowercase_iff. unfold lower_class, basic_small. lia.
  - apply not_true_false. rewrite is_uppercase_iff. unfold upper_class. lia.
  - assert (D : lower_dom c) by no_dom. apply lower_moves in D.
    unfold lower_move, ext_a in D. lia.
  - apply upper_no_move. no_dom.
  - apply is_uppercase_iff. unfold upper_class. lia.
  - apply not_true_false. rewrite is_lowercase_iff. unfold lower_class, basic_small. lia.
  - apply lower_no_move. no_dom.
  - apply upper_no_move. no_dom.
  - apply not_true_false. rewrite is_letter_spec, is_lowercase_iff, is_uppercase_iff.
    unfold lower_class, upper_class, basic_small. lia.
Qed.

Lemma basic_case c : basic_small c ->
  to_uppercase c = c - 0x20 /\ to_lowercase (c - 0x20) = c /\
  to_lowercase c = c /\ to_uppercase (c - 0x20) = c - 0x20 /\
  is_lowercase c = true /\ is_uppercase (c - 0x20) = true.
Proof.
  intros B. repeat split.
  - assert (D : upper_dom c) by (unfold upper_dom; tauto). apply upper_moves in D.
    unfold upper_move, basic_small, ext_a in *. lia.
  - unfold basic_small in B.
    assert (D : lower_dom (c - 0x20)) by no_dom. apply lower_moves in D.
    unfold lower_move, ext_a in D. lia.
  - apply lower_no_move. unfold basic_small in B. no_dom.
  - apply upper_no_move. unfold basic_small in B. no_dom.
  - apply is_lowercase_iff. unfold lower_class. tauto.
  - apply is_uppercase_iff. unfold upper_class, basic_small in *. lia.
Qed.

(** Exactly which small letters survive upper-casing followed by lower-casing. *)
Lemma small_round_trip c : is_lowercase c = true ->
  (to_lowercase (to_uppercase c) = c <-> basic_small c \/ c = 0xDF).
Proof.
  intros L. rewrite is_lowercase_iff in L. split.
  - assert (D : upper_dom c) by (unfold lower_class, basic_small in L; unfold upper_dom, basic_small, ext_a; lia).
    apply upper_moves in D. set (r := to_uppercase c) in *. clearbody r.
    destruct (lower_cases r) as [[N E]|M].
    + rewrite E. clear N E. unfold lower_class in L. unfold upper_move, ext_a in D. unfold basic_small in *. lia.
    + set (q := to_lowercase r) in *. clearbody q. intros ->.
      unfold upper_move in D. unfold lower_move in M. unfold lower_class in L.
      unfold ext_a, basic_small in *.
      split_or L; try (left; lia); try (right; lia);
      exfalso; split_or D; try lia; split_or M; lia.
  - intros [B| ->]; [|reflexivity].
    destruct (basic_case c B) as (-> & E & _). exact E.
Qed.

(** Exactly which capitals survive lower-casing followed by upper-casing. *)
Lemma capital_round_trip c : is_uppercase c = true ->
  (to_uppercase (to_lowercase c) = c <->
   (exists d, basic_small d /\ c = d - 0x20) \/ c = 0x1E9E \/ c = 0x1FDA \/ c = 0x1FDB).
Proof.
  intros L. rewrite is_uppercase_iff in L. split.
  - intros R.
    assert (G : 0x41 <= c <= 0x5A \/ 0x410 <= c <= 0x42F \/ 0x391 <= c <= 0x3A1 \/ 0x3A3 <= c <= 0x3A9 \/
      c = 0x1E9E \/ c = 0x1FDA \/ c = 0x1FDB).
    { destruct (lower_cases c) as [[N E]|M].
      - clear R E. assert (D : lower_dom c \/ c = 0x1FDA \/ c = 0x1FDB)
          by (unfold upper_class in L; unfold lower_dom, ext_a; lia). destruct D; [contradiction|lia].
      - set (r := to_lowercase c) in *. clearbody r.
        destruct (upper_cases r) as [[N E]|M2].
        + rewrite E in R. clear N E. subst r. unfold lower_move, ext_a in M. unfold upper_class in L. lia.
        + set (q := to_uppercase r) in *. clearbody q. subst q.
          unfold lower_move in M. unfold upper_move in M2. unfold upper_class in L.
          unfold ext_a, basic_small in *.
          split_or L; try lia; exfalso; split_or M; try lia; split_or M2; lia. }
    assert (G2 : (0x41 <= c <= 0x5A \/ 0x410 <= c <= 0x42F \/ 0x391 <= c <= 0x3A1 \/ 0x3A3 <= c <= 0x3A9) \/
      (c = 0x1E9E \/ c = 0x1FDA \/ c = 0x1FDB)) by lia.
    destruct G2 as [G2|G2]; [left|now right]. exists (c + 0x20). unfold basic_small. lia.
  - intros [(d & B & ->)|[ ->|[ ->| ->]]]; [|reflexivity..].
    destruct (basic_case d B) as (E1 & -> & _). exact E1.
Qed.

Lemma odd_mod2 c : N.odd c = true -> c mod 2 = 1.
Proof. intros H. apply N.odd_spec in H as [k ->]. lia. Qed.
Lemma even_mod2 c : N.even c = true -> c mod 2 = 0.
Proof. intros H. apply N.even_spec in H as [k ->]. lia. Qed.

(** Latin Extended-A pairs with the capital at the even code point. *)
Lemma ext_a_odd c : ext_a_odd_small c -> c <> 0x131 -> c <> 0x149 ->
  to_uppercase c = c - 1 /\ to_lowercase (c - 1) = c.
Proof.
  intros [R O] _ _. apply odd_mod2 in O. split.
  - assert (D : upper_dom c) by no_dom. apply upper_moves in D.
    unfold upper_move, basic_small, ext_a in D. lia.
  - assert (D : lower_dom (c - 1)) by no_dom. apply lower_moves in D.
    unfold lower_move, ext_a in D. lia.
Qed.

(** 0x139..0x148: every pair is treated with the wrong parity. *)
Lemma ext_a_even c : ext_a_even_small c ->
  to_uppercase c = c /\ to_uppercase (c - 1) = c - 2 /\ to_lowercase (c - 1) = c - 1 /\
  to_lowercase c = c + 1.
Proof.
  intros [R O]. apply even_mod2 in O. repeat split.
  - assert (D : upper_dom c) by no_dom. apply upper_moves in D.
    unfold upper_move, basic_small, ext_a in D. lia.
  - assert (D : upper_dom (c - 1)) by no_dom. apply upper_moves in D.
    unfold upper_move, basic_small, ext_a in D. lia.
  - assert (D : lower_dom (c - 1)) by no_dom. apply lower_moves in D.
    unfold lower_move, ext_a in D. lia.
  - assert (D : lower_dom c) by no_dom. apply lower_moves in D.
    unfold lower_move, ext_a in D. lia.
Qed.

Lemma lowercase_corrupts :
  exists c, is_letter c = false /\ is_digit c = false /\ to_lowercase c <> c /\
            to_lowercase (to_lowercase c) <> to_lowercase c.
Proof. exists 0x4E16. repeat split; vm_compute; congruence. Qed.

Lemma digit_without_value : exists c, is_digit c = true /\ ~ (0 <= to_digit c <= 9)%Z.
Proof. exists 0x660. split; [reflexivity|]. vm_compute. intros [H _]. now apply H. Qed.

Lemma small_letter_lost :
  exists c, is_lowercase c = true /\ to_lowercase (to_uppercase c) <> c.
Proof. exists 0x1F10. split; [reflexivity|vm_compute; congruence]. Qed.

Lemma ext_a_even_wrong : exists c, ext_a_even_small c /\ to_uppercase c <> c - 1.
Proof. exists 0x13A. split; [split; [vm_compute; split; congruence|reflexivity]|vm_compute; congruence]. Qed.
