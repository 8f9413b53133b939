(** Saving and loading documents with floating-point numbers. *)
From Coq Require Import String List NArith ZArith QArith Qabs Qpower Qfield Lqa Lia Bool.
From Verif Require Import Outcome CharModel StrModel SpecInt SpecStr SpecUtf8 SpecChar SpecJson SpecJsonText Dec DecProofs Double DoubleProps JsonData StrUtil JsonParse
  JsonDataProofs JsonParseProofs JsonGrammar JsonPrintProofs FloatText SpecFloatText SpecFloatJson FloatQ FloatTextProofs FloatRead FloatJson FloatSmall.
Import ListNotations.
Local Open Scope list_scope.
Local Open Scope Q_scope.

Notation comes := (comes_back hex_of (real_of stod_float) float_to_stream).
Notation stays := (printable (fun b x => stod_float b = Converted x) float_to_stream).
Lemma float_leaf f : finite_float f -> exists w, float_back f w /\ comes (JFloat f) w /\ stays w.
Proof.
  intros (neg & m & e & -> & F). destruct (N.eq_dec m 0) as [->|M].
  - exists (JInt 0). split; [exists neg, 0%N, e; auto|]. split; [|constructor; unfold int64; lia].
    assert (D : decimal_text [48%N] 0).
    { exists [48%N], []. split; [discriminate|]. split; [repeat constructor; unfold ascii_digit; lia|]. split; [now left|]. split; [constructor|]. split; [now left|reflexivity]. }
    destruct (number_chars neg 48%N [] ltac:(unfold ascii_digit; lia) ltac:(constructor)) as (c & t & E & H1 & H2 & H3).
    destruct (plain_integer neg [48%N] 0 D) as (z & Z1 & Z2).
    assert (z = 0%Z) as ->. { destruct Z1 as [Za Zb]. apply (inj_le_inv z 0) in Za. apply (inj_lt_inv 0) in Zb. lia. }
    assert (Z2' : lib_integer (c :: t) 0) by (rewrite <- E; destruct neg; exact Z2).
    eapply (cb_plain _ _ _ (Finite neg 0 e) c t); cbn [float_to_stream]; [exact E|assumption|assumption| |exact H3|exact Z2'|unfold int64; lia].
    rewrite <- E. exact (plain_no_exponent neg [48%N] 0 D).
  - destruct (text_of neg m e M) as (d & x & t & B & T & S & N & _). destruct S as [[X S]|[X S]].
    + assert (W : ~ with_exponent (binary m e)) by (rewrite (notation_chosen _ _ _ B); lia).
      destruct (plain_integer neg t _ S) as (z & Z1 & Z2). exists (JInt (if neg then - z else z)%Z). split; [|split].
      * exists neg, m, e. split; [reflexivity|]. right; left. exists d, x, z. auto.
      * destruct (decimal_chars t _ S) as (c0 & r0 & -> & C0 & R0 & _). destruct (number_chars neg c0 r0 C0 R0) as (c & r & E & H1 & H2 & H3).
        rewrite <- T in *. assert (R : int64 (if neg then - z else z)%Z).
        { destruct (six_bounds d x (proj1 B)) as [U1 U2]. pose proof (p10_le (x - 5) 0 ltac:(lia)) as U3. change (10 ^ 0) with 1 in U3. pose proof (p10_pos x).
          assert (inject_Z z < inject_Z 1000000) as K1 by (change (inject_Z 1000000) with 1000000; lra). assert (inject_Z 0 < inject_Z (z + 1)) as K2 by (change (inject_Z 0) with 0; lra).
          apply inj_lt_inv in K1, K2. unfold int64. destruct neg; lia. }
        eapply (cb_plain _ _ _ (Finite neg m e) c r); auto.
        -- rewrite <- E, T. now apply (plain_no_exponent neg _ (six d x)).
        -- rewrite <- E. exact Z2.
      * constructor. destruct (six_bounds d x (proj1 B)) as [U1 U2]. pose proof (p10_le (x - 5) 0 ltac:(lia)) as U3. change (10 ^ 0) with 1 in U3. pose proof (p10_pos x).
        assert (inject_Z z < inject_Z 1000000) as K1 by (change (inject_Z 1000000) with 1000000; lra). assert (inject_Z 0 < inject_Z (z + 1)) as K2 by (change (inject_Z 0) with 0; lra).
        apply inj_lt_inv in K1, K2. unfold int64. destruct neg; lia.
    + assert (W : with_exponent (binary m e)) by (now apply (notation_chosen _ _ _ B)).
      destruct (exponent_chars neg t d x S) as (c & r & E & H1 & H2 & H3 & H4). rewrite <- T in *.
      assert (R : exists m' e', stod_float (float_to_stream (Finite neg m e)) = Converted (Finite neg m' e') /\ float32 m' e' /\ m' <> 0%N /\ with_exponent (binary m' e') /\
        (Qabs (binary m' e' - binary m e) <= binary m e * (6 # 1000000) \/ binary m e < 2 ^ (-126) /\ Qabs (binary m' e' - binary m e) <= binary m e * (6 # 1000000) + 2 ^ (-150)) /\
        stod_float (float_to_stream (Finite neg m' e')) = Converted (Finite neg m' e')).
      { destruct (Qlt_le_dec (binary m e) (2 ^ (-126))) as [L|L].
        - destruct (read_small neg m e F M L) as (m' & R & F' & M' & L' & C' & Y). exists m', (-149)%Z.
          split; [exact R|]. split; [exact F'|]. split; [exact M'|]. split; [now apply small_notation|]. split; [now right|exact Y].
        - destruct (read_back neg m e F L W) as (m' & e' & R & F' & C' & T' & M' & W'). exists m', e'. split; [exact R|]. split; [exact F'|].
          split; [exact M'|]. split; [exact W'|]. split; [now left|]. now rewrite T'. }
      destruct R as (m' & e' & R & F' & M' & W' & C' & Y). exists (JFloat (Finite neg m' e')). split; [|split].
      * exists neg, m, e. split; [reflexivity|]. right; right. exists m', e'. auto.
      * eapply (cb_real _ _ _ (Finite neg m e) c r); auto. unfold real_of. rewrite <- E, concat_chars. exact R.
      * destruct (text_of neg m' e' M') as (d2 & x2 & t2 & B2 & T2 & S2 & _). destruct S2 as [[X2 _]|[X2 S2]]; [now apply (notation_chosen _ _ _ B2) in W'|].
        destruct (exponent_chars neg t2 d2 x2 S2) as (c2 & r2 & E2 & G1 & G2 & G3 & G4). rewrite <- T2 in *.
        now apply (pr_float _ _ (Finite neg m' e') c2 r2).
Qed.
Lemma document v : savable finite_float v -> exists v', replaced float_back v v' /\ comes v v' /\ stays v' /\ parts v' = parts v.
Proof.
  induction v as [|ms IH|l IH|u|f|z|b] using json_ind'; intros S; inversion S as [| | | | |? A|? ND A]; subst.
  - exists JNull. repeat split; constructor.
  - assert (exists ms', Forall2 (fun m m' => fst m' = fst m /\ replaced float_back (snd m) (snd m')) ms ms' /\
      Forall2 (fun m m' => fst m' = fst m /\ text (fst m) /\ ~ In (ch 0x22%N) (fst m) /\ comes (snd m) (snd m')) ms ms' /\
      Forall (fun m => text (fst m) /\ ~ In (ch 0x22%N) (fst m) /\ stays (snd m)) ms' /\ keys ms' = keys ms /\ parts (JObj ms') = parts (JObj ms)) as (ms' & R & C & Y & K & Q).
    { clear S ND. induction ms as [|[k x] ms IHm]; [exists []; repeat split; constructor|].
      apply Forall_cons_iff in IH as [H IH], A as [(A1 & A2 & A3) A]. cbn [fst snd] in *. destruct (IHm IH A) as (ms' & R & C & Y & K & Q). destruct (H A3) as (x' & R' & C' & Y' & Q').
      exists ((k, x') :: ms'). repeat match goal with |- _ /\ _ => split end; try (constructor; cbn [fst snd]; auto; fail).
      - unfold keys in *. cbn. now rewrite K.
      - rewrite !parts_obj in *. unfold member_parts in *. cbn [map concat fst snd]. now rewrite Q, Q'. }
    exists (JObj ms'). assert (ND' : NoDup (keys ms')) by (now rewrite K). repeat match goal with |- _ /\ _ => split end.
    + now constructor.
    + rewrite <- (collect_id (NotANumber false) float_to_stream stod_float ms' ND'). now constructor.
    + now constructor.
    + exact Q.
  - assert (exists l', Forall2 (replaced float_back) l l' /\ Forall2 comes l l' /\ Forall stays l' /\ parts (JArr l') = parts (JArr l)) as (l' & R & C & Y & Q).
    { clear S. induction l as [|x l IHl]; [exists []; repeat split; constructor|].
      apply Forall_cons_iff in IH as [H IH], A as [A1 A]. destruct (IHl IH A) as (l' & R & C & Y & Q). destruct (H A1) as (x' & R' & C' & Y' & Q').
      exists (x' :: l'). repeat match goal with |- _ /\ _ => split end; try (constructor; auto; fail).
      rewrite !parts_arr in *. unfold element_parts in *. cbn [map concat]. now rewrite Q, Q'. }
    exists (JArr l'). repeat match goal with |- _ /\ _ => split end; try (now constructor). exact Q.
  - exists (JStr u). repeat match goal with |- _ /\ _ => split end; try (now constructor).
    econstructor; [assumption|eapply plain_string; assumption|assumption|now left].
  - destruct (float_leaf f) as (w & B & C & Y); [assumption|]. exists w. repeat match goal with |- _ /\ _ => split end; auto; [now constructor|].
    destruct B as (neg & m & e & _ & [[_ ->]|[(d & x & z & _ & _ & _ & _ & ->)|(m' & e' & _ & _ & _ & _ & ->)]]); reflexivity.
  - exists (JInt z). repeat match goal with |- _ /\ _ => split end; now constructor.
  - exists (JBool b). repeat match goal with |- _ /\ _ => split end; now constructor.
Qed.
