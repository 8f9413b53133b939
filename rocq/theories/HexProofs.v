(** std::stoi and std::stoul in base 16 read exactly what the C library is specified to read. *)
From Coq Require Import List NArith ZArith Bool Lia ZifyBool ZifyN.
From Verif Require Import Outcome CharModel StrModel StrUtil SpecUtf8 SpecStr SpecStrUtil CharProofs StrProofs StrUtilProofs.
Import ListNotations.
Local Open Scope N_scope.

Lemma hex_digit_some b v : hex_digit b = Some v -> hexdig b v.
Proof.
  unfold hex_digit. destruct ((48 <=? b) && (b <=? 57)) eqn:A; [intros [= <-]; constructor; lia|].
  destruct ((65 <=? b) && (b <=? 70)) eqn:B; [intros [= <-]; replace (b - 55) with (b - 0x41 + 10) by lia; constructor; lia|].
  destruct ((97 <=? b) && (b <=? 102)) eqn:C; [intros [= <-]; replace (b - 87) with (b - 0x61 + 10) by lia; constructor; lia|discriminate].
Qed.
Lemma hex_digit_none b v : hex_digit b = None -> ~ hexdig b v.
Proof. intros H D. apply hexdig_digit in D as [D _]. congruence. Qed.

Lemma hex_run_stop a r : ~ starts_hex r -> hex_run a r = a.
Proof.
  intros H. destruct r as [|b r]; [reflexivity|]. cbn [hex_run]. destruct (hex_digit b) as [v|] eqn:E; [|reflexivity].
  exfalso. apply H. exists b, v, r. split; [now apply hex_digit_some|reflexivity].
Qed.
Lemma hex_run_digits ds n : hex_digits ds n -> forall r, hex_run 0 (ds ++ r) = hex_run n r.
Proof.
  induction 1 as [d v D|ds n d v H IH D]; intros r.
  - cbn [app hex_run]. apply hexdig_digit in D as [-> _]. f_equal; lia.
  - rewrite <- app_assoc, IH. cbn [app hex_run]. apply hexdig_digit in D as [-> _]. reflexivity.
Qed.
Lemma hex_digits_head ds n : hex_digits ds n -> exists d v ds', hexdig d v /\ ds = d :: ds'.
Proof.
  induction 1 as [d v D|ds n d v H (d' & v' & ds' & D' & ->) D]; [eauto|]. exists d', v', (ds' ++ [d]). split; [assumption|reflexivity].
Qed.
(** Digits after digits already read. *)
Lemma hex_run_split ds0 a r : hex_digits ds0 a -> exists ds n r', ds0 ++ r = ds ++ r' /\ hex_digits ds n /\ ~ starts_hex r' /\ hex_run a r = n.
Proof.
  revert ds0 a. induction r as [|b r IH]; intros ds0 a H.
  - exists ds0, a, []. repeat split; try assumption. intros (d & v & r' & _ & E). discriminate.
  - cbn [hex_run]. destruct (hex_digit b) as [v|] eqn:E.
    + destruct (IH (ds0 ++ [b]) (a * 16 + v)) as (ds & n & r' & E1 & E2 & E3 & E4).
      { constructor; [assumption|now apply hex_digit_some]. }
      exists ds, n, r'. rewrite <- app_assoc in E1. repeat split; assumption.
    + exists ds0, a, (b :: r). repeat split; try assumption. intros (d & v & r' & D & [= -> ->]). now apply (hex_digit_none _ v) in E.
Qed.

(** The nested matches on literals, as tests. *)
Lemma hex_magnitude_eq s : hex_magnitude s =
  match s with
  | b :: r =>
      if (b =? 48) && match r with x :: _ :: _ => (x =? 120) || (x =? 88) | _ => false end
      then match r with
           | x :: h :: r' => match hex_digit h with Some _ => Some (hex_run 0 (h :: r')) | None => Some 0 end
           | _ => None
           end
      else match hex_digit b with Some _ => Some (hex_run 0 s) | None => None end
  | [] => None
  end.
Proof.
  destruct s as [|b r]; [reflexivity|]. destruct (N.eqb_spec b 48) as [->|N].
  - cbn [andb]. destruct r as [|x [|h r]]; reflexivity.
  - cbn [andb]. unfold hex_magnitude.
    destruct b as [|[[[[[[?|?|]|[?|?|]|]|[[?|?|]|[?|?|]|]|]|[[[?|?|]|[?|?|]|]|[[?|?|]|[?|?|]|]|]|]|[[[[?|?|]|[?|?|]|]|[[?|?|]|[?|?|]|]|]|[[[?|?|]|[?|?|]|]|[[?|?|]|[?|?|]|]|]|]|]|[[[[[?|?|]|[?|?|]|]|[[?|?|]|[?|?|]|]|]|[[[?|?|]|[?|?|]|]|[[?|?|]|[?|?|]|]|]|]|[[[[?|?|]|[?|?|]|]|[[?|?|]|[?|?|]|]|]|[[[?|?|]|[?|?|]|]|[[?|?|]|[?|?|]|]|]|]|]|]]; try reflexivity. congruence.
Qed.
Definition split_sign (s : list N) : bool * list N :=
  match s with b :: r => if b =? 45 then (true, r) else if b =? 43 then (false, r) else (false, s) | [] => (false, s) end.
Lemma split_sign_eq s : match s with 45 :: r => (true, r) | 43 :: r => (false, r) | _ => (false, s) end = split_sign s.
Proof.
  destruct s as [|b r]; [reflexivity|]. unfold split_sign. destruct (N.eqb_spec b 45) as [->|N1]; [reflexivity|].
  destruct (N.eqb_spec b 43) as [->|N2]; [reflexivity|].
  destruct b as [|[[[[[[?|?|]|[?|?|]|]|[[?|?|]|[?|?|]|]|]|[[[?|?|]|[?|?|]|]|[[?|?|]|[?|?|]|]|]|]|[[[[?|?|]|[?|?|]|]|[[?|?|]|[?|?|]|]|]|[[[?|?|]|[?|?|]|]|[[?|?|]|[?|?|]|]|]|]|]|[[[[[?|?|]|[?|?|]|]|[[?|?|]|[?|?|]|]|]|[[[?|?|]|[?|?|]|]|[[?|?|]|[?|?|]|]|]|]|[[[[?|?|]|[?|?|]|]|[[?|?|]|[?|?|]|]|]|[[[?|?|]|[?|?|]|]|[[?|?|]|[?|?|]|]|]|]|]|]]; try reflexivity; congruence.
Qed.

(** Prefix and digits. *)
Inductive magnitude : list N -> N -> Prop :=
| magnitude_text pre ds r n : c_prefix pre -> hex_digits ds n -> ~ starts_hex r ->
    (pre = [] -> ds = [0x30] -> forall x r', r = x :: r' -> x = 0x78 \/ x = 0x58 -> ~ starts_hex r') ->
    magnitude (pre ++ ds ++ r) n.

Lemma magnitude_head s n : magnitude s n -> exists d v r, hexdig d v /\ s = d :: r.
Proof.
  intros [pre ds r m [] D S P].
  - destruct (hex_digits_head _ _ D) as (d & v & ds' & H & ->). exists d, v, (ds' ++ r). auto.
  - exists 48, 0, ([0x78] ++ ds ++ r). split; [exact hexdig_0|reflexivity].
  - exists 48, 0, ([0x58] ++ ds ++ r). split; [exact hexdig_0|reflexivity].
Qed.

Lemma hex_magnitude_spec s n : hex_magnitude s = Some n <-> magnitude s n.
Proof.
  rewrite hex_magnitude_eq. split.
  - destruct s as [|b r]; [discriminate|].
    destruct (b =? 48) eqn:B; [apply N.eqb_eq in B; subst b|].
    + cbn [andb]. destruct r as [|x [|h r]].
      * cbn. intros [= <-]. apply (magnitude_text [] [48] []); [constructor|constructor; apply hexdig_0| |discriminate].
        intros (d & v & r' & _ & E); discriminate.
      * intros H. destruct (hex_run_split [48] 0 [x]) as (ds & m & r' & E1 & E2 & E3 & E4); [constructor; apply hexdig_0|].
        change (Some (hex_run 0 [x]) = Some n) in H. rewrite E4 in H. injection H as <-.
        change [48; x] with ([48] ++ [x]). rewrite E1. apply (magnitude_text [] ds r'); [constructor|assumption|assumption|].
        intros _ -> y r'' -> _ (d & v & r3 & _ & E). subst r''. apply (f_equal (@length N)) in E1. cbn in E1. lia.
      * destruct ((x =? 120) || (x =? 88)) eqn:X.
        -- destruct (hex_digit h) as [v|] eqn:E.
           ++ intros [= <-]. cbn [hex_run]. rewrite E.
              destruct (hex_run_split [h] v r) as (ds & m & r' & E1 & E2 & E3 & E4); [constructor; now apply hex_digit_some|].
              change (0 * 16 + v) with v. rewrite E4.
              change (48 :: x :: h :: r) with ([48; x] ++ [h] ++ r). rewrite E1. apply (magnitude_text [48; x] ds r'); [|assumption|assumption|discriminate].
              apply orb_prop in X as [X|X]; apply N.eqb_eq in X; subst; constructor.
           ++ intros [= <-]. apply (magnitude_text [] [48] (x :: h :: r)); [constructor|constructor; apply hexdig_0| |].
              ** intros (d & v & r' & D & [= <- <-]). apply hexdig_digit in D. lia.
              ** intros _ _ y r' [= <- <-] _ (d & v & r'' & D & [= <- <-]). now apply (hex_digit_none _ v) in E.
        -- intros H. change (Some (hex_run 0 (x :: h :: r)) = Some n) in H.
           destruct (hex_run_split [48] 0 (x :: h :: r)) as (ds & m & r' & E1 & E2 & E3 & E4); [constructor; apply hexdig_0|].
           rewrite E4 in H. injection H as <-. change (48 :: x :: h :: r) with ([48] ++ x :: h :: r). rewrite E1.
           apply (magnitude_text [] ds r'); [constructor|assumption|assumption|].
           intros _ -> y r'' -> Y. injection E1 as <- _. lia.
    + cbn [andb]. destruct (hex_digit b) as [v|] eqn:E; [|discriminate]. intros [= <-]. cbn [hex_run]. rewrite E.
      destruct (hex_run_split [b] v r) as (ds & m & r' & E1 & E2 & E3 & E4); [constructor; now apply hex_digit_some|].
      change (0 * 16 + v) with v. rewrite E4. change (b :: r) with ([b] ++ r). rewrite E1.
      apply (magnitude_text [] ds r'); [constructor|assumption|assumption|].
      intros _ -> y r'' -> _. injection E1 as -> _. discriminate.
  - intros [pre ds r m HP D S P]. destruct (hex_digits_head _ _ D) as (d & v & ds' & Hd & E).
    destruct HP.
    + cbn [app]. specialize (P eq_refl). pose proof (hex_run_digits _ _ D r) as R. rewrite (hex_run_stop _ _ S) in R. subst ds.
      cbn [app] in *. destruct (hexdig_digit _ _ Hd) as (Hv & _).
      destruct ((d =? 48) && match ds' ++ r with x :: _ :: _ => (x =? 120) || (x =? 88) | _ => false end) eqn:B.
      * apply andb_prop in B as [B1 B2]. apply N.eqb_eq in B1. subst d. destruct ds' as [|e ds'].
        -- cbn [app] in *. destruct r as [|x [|h r]]; [discriminate..|].
           assert (NS : ~ starts_hex (h :: r)) by (apply (P eq_refl x (h :: r)); [reflexivity|lia]).
           destruct (hex_digit h) as [w|] eqn:Eh.
           ++ exfalso. apply NS. exists h, w, r. split; [now apply hex_digit_some|reflexivity].
           ++ f_equal. rewrite <- R. cbn [hex_run]. change (hex_digit 48) with (Some 0).
              destruct (hex_digit x) as [w|] eqn:Ex; [|reflexivity]. apply hex_digit_some, hexdig_digit in Ex. lia.
        -- exfalso. cbn [app] in B2. assert (He : exists w, hexdig e w).
           { clear -D. assert (G : forall ds n, hex_digits ds n -> Forall (fun d => exists w, hexdig d w) ds).
             { induction 1; [constructor; eauto|]. apply Forall_app. split; [assumption|]. constructor; eauto. }
             apply G in D. inversion D as [|? ? _ D']; subst. now inversion D'. }
           destruct He as [w He]. apply hexdig_digit in He. destruct (ds' ++ r); [discriminate|]. lia.
      * rewrite Hv. now rewrite R.
    + cbn [app]. rewrite E in *. cbn [app]. cbn [N.eqb Pos.eqb andb orb]. destruct (hexdig_digit _ _ Hd) as (-> & _).
      change (d :: ds' ++ r) with ((d :: ds') ++ r). now rewrite (hex_run_digits _ _ D), hex_run_stop.
    + cbn [app]. rewrite E in *. cbn [app]. cbn [N.eqb Pos.eqb andb orb]. destruct (hexdig_digit _ _ Hd) as (-> & _).
      change (d :: ds' ++ r) with ((d :: ds') ++ r). now rewrite (hex_run_digits _ _ D), hex_run_stop.
Qed.

Lemma c_isspace_iff b : c_isspace b = true <-> c_space b.
Proof. unfold c_isspace, c_space. lia. Qed.
Lemma skip_split s : exists ws, Forall c_space ws /\ s = ws ++ skip_cspace s /\ (forall b r, skip_cspace s = b :: r -> ~ c_space b).
Proof.
  induction s as [|b s (ws & F & E & N)]; [exists []; repeat split; [constructor|discriminate]|]. cbn [skip_cspace]. destruct (c_isspace b) eqn:B.
  - exists (b :: ws). split; [constructor; [now apply c_isspace_iff|assumption]|]. split; [cbn; now f_equal|assumption].
  - exists []. split; [constructor|]. split; [reflexivity|]. intros b' r [= <- <-] H. apply c_isspace_iff in H. congruence.
Qed.
Lemma skip_app ws s : Forall c_space ws -> (forall b r, s = b :: r -> ~ c_space b) -> skip_cspace (ws ++ s) = s.
Proof.
  intros F N. induction F as [|b ws B F IH]; cbn [app skip_cspace].
  - destruct s as [|b r]; [reflexivity|]. cbn. destruct (c_isspace b) eqn:B; [|reflexivity]. apply c_isspace_iff in B. now apply (N b r) in B.
  - apply c_isspace_iff in B. now rewrite B.
Qed.

(** What both conversions compute first. *)
Definition scan (s : list N) : bool * option N := let '(neg, t) := split_sign (skip_cspace s) in (neg, hex_magnitude t).

Lemma scan_spec s neg n : scan s = (neg, Some n) <-> c_hex s neg n.
Proof.
  unfold scan. split.
  - destruct (skip_split s) as (ws & F & E & NS). destruct (split_sign (skip_cspace s)) as [g t] eqn:S.
    intros [= <- H]. apply hex_magnitude_spec in H as H'. assert (G : exists sg, c_sign sg g /\ skip_cspace s = sg ++ t).
    { unfold split_sign in S. destruct (skip_cspace s) as [|b r] eqn:K.
      - injection S as <- <-. exists []. split; [constructor|reflexivity].
      - destruct (N.eqb_spec b 45) as [->|]; [injection S as <- <-; exists [45]; split; [constructor|reflexivity]|].
        destruct (N.eqb_spec b 43) as [->|]; [injection S as <- <-; exists [43]; split; [constructor|reflexivity]|].
        injection S as <- <-. exists []. split; [constructor|reflexivity]. }
    destruct G as (sg & Hs & E2). rewrite E, E2. destruct H' as [pre ds r m P D Sx Q]. now apply c_hex_text.
  - intros [ws sg pre ds r g m F Hs P D S Q]. assert (M : magnitude (pre ++ ds ++ r) m) by now constructor.
    destruct (magnitude_head _ _ M) as (d & v & t & Hd & E). apply hex_magnitude_spec in M. rewrite E in *. apply hexdig_digit in Hd.
    assert (Nc : ~ c_space d) by (intros K; apply c_isspace_iff in K; destruct Hd as (_ & _ & _ & _ & _ & _ & _ & _ & Hd); congruence).
    destruct Hs; cbn [app] in *.
    + rewrite skip_app; [|assumption|now intros ? ? [= <- <-]]. unfold split_sign. replace (d =? 45) with false by lia. replace (d =? 43) with false by lia. now rewrite M.
    + rewrite skip_app; [|assumption|intros ? ? [= <- <-]; unfold c_space; lia]. cbn [split_sign N.eqb Pos.eqb]. now rewrite M.
    + rewrite skip_app; [|assumption|intros ? ? [= <- <-]; unfold c_space; lia]. cbn [split_sign N.eqb Pos.eqb]. now rewrite M.
Qed.

Lemma c_hex_unique s g n g' n' : c_hex s g n -> c_hex s g' n' -> g = g' /\ n = n'.
Proof. intros A B. apply scan_spec in A, B. split; congruence. Qed.

Lemma stoi16_scan s : stoi16 s = match scan s with
  | (_, None) => Throw EInvalidArgument
  | (neg, Some m) => if ((-2147483648 <=? signed neg m) && (signed neg m <=? 2147483647))%Z then Ok (signed neg m) else Throw EOutOfRange
  end.
Proof.
  unfold stoi16, scan. cbv zeta. rewrite split_sign_eq. destruct (split_sign (skip_cspace s)) as [g t]. destruct (hex_magnitude t); reflexivity.
Qed.

Lemma stoi16_spec s : (forall z, stoi16 s = Ok z <-> exists neg n, c_hex s neg n /\ z = signed neg n /\ (-2147483648 <= z <= 2147483647)%Z) /\
  (stoi16 s = Throw EInvalidArgument <-> forall neg n, ~ c_hex s neg n).
Proof.
  rewrite stoi16_scan. destruct (scan s) as [g [m|]] eqn:E.
  - apply scan_spec in E. split.
    + intros z. split.
      * destruct (((-2147483648 <=? signed g m) && (signed g m <=? 2147483647))%Z) eqn:R; [|discriminate]. intros [= <-]. exists g, m. repeat split; [assumption|lia..].
      * intros (g' & m' & H & -> & R). destruct (c_hex_unique _ _ _ _ _ E H) as [<- <-]. now replace (((-2147483648 <=? signed g m) && (signed g m <=? 2147483647))%Z) with true by lia.
    + split; [destruct (_ && _); discriminate|]. intros H. now apply H in E.
  - assert (N : forall g' m', ~ c_hex s g' m') by (intros g' m' H; apply scan_spec in H; congruence). split.
    + intros z. split; [discriminate|]. intros (g' & m' & H & _). now apply N in H.
    + split; [intros _; exact N|reflexivity].
Qed.

(** Four characters hold at most four digits, so std::stoi never finds the value too large. *)
Lemma hex_digits_bound ds n : hex_digits ds n -> n < 16 ^ N.of_nat (length ds).
Proof.
  induction 1 as [d v D|ds n d v H IH D].
  - apply hexdig_digit in D as (_ & D & _). cbn. lia.
  - apply hexdig_digit in D as (_ & D & _). rewrite app_length. cbn [length]. replace (N.of_nat (length ds + 1)) with (N.succ (N.of_nat (length ds))) by lia.
    rewrite N.pow_succ_r'. lia.
Qed.
Definition low (l : list N) : nat := length (filter (fun b => b <? 128) l).
Lemma low_app a b : low (a ++ b) = (low a + low b)%nat.
Proof. unfold low. now rewrite filter_app, app_length. Qed.
Lemma low_digits ds n : hex_digits ds n -> low ds = length ds.
Proof.
  induction 1 as [d v D|ds n d v H IH D].
  - apply hexdig_digit in D. unfold low. cbn [filter]. now replace (d <? 128) with true by lia.
  - rewrite low_app, app_length, IH. f_equal. apply hexdig_digit in D. unfold low. cbn [filter]. now replace (d <? 128) with true by lia.
Qed.
Lemma low_text q : text q -> (low (concat q) <= length q)%nat.
Proof.
  induction 1 as [|c q [U _] T IH]; [cbn; lia|]. cbn [concat length]. rewrite low_app. enough (low c <= 1)%nat by lia.
  destruct U; unfold low, continuation in *; cbn [filter]; repeat match goal with |- context [?x <? 128] => destruct (N.ltb_spec x 128) end; cbn; lia.
Qed.
Lemma four_characters q neg n : text q -> length q = 4%nat -> c_hex (concat q) neg n -> n < 65536.
Proof.
  intros T L H. remember (concat q) as s eqn:E. destruct H as [ws sg pre ds r g m F Hs P D S Q].
  assert (length ds <= 4)%nat.
  { rewrite <- (low_digits _ _ D). pose proof (low_text _ T) as B. rewrite <- E, !low_app in B. lia. }
  apply hex_digits_bound in D. eapply N.lt_le_trans; [exact D|]. change 65536 with (16 ^ 4). apply N.pow_le_mono_r; lia.
Qed.
Lemma stoi16_four q : text q -> length q = 4%nat ->
  (forall z, stoi16 (concat q) = Ok z <-> exists neg n, c_hex (concat q) neg n /\ z = signed neg n) /\
  (stoi16 (concat q) = Throw EInvalidArgument <-> forall neg n, ~ c_hex (concat q) neg n).
Proof.
  intros T L. destruct (stoi16_spec (concat q)) as [A B]. split; [|exact B]. intros z. rewrite A. split.
  - intros (g & m & H & E & _). eauto.
  - intros (g & m & H & ->). exists g, m. split; [assumption|]. split; [reflexivity|]. pose proof (four_characters _ _ _ T L H). destruct g; cbn; lia.
Qed.

Lemma simple_escape_some c b : simple_escape c = Some b -> exists e, c = [e] /\ simple_esc e b.
Proof.
  unfold simple_escape. intros H.
  repeat match type of H with (if is_ascii c ?x then _ else _) = _ =>
    destruct (is_ascii c x) eqn:E; [apply is_ascii_iff in E; injection H as <-; exists x; split; [assumption|constructor]|clear E] end.
  discriminate.
Qed.

(** EscapeString, exactly. *)
Lemma escape_loop_exact fuel : forall s, text s -> (length s < fuel)%nat ->
  (forall b, escape_loop fuel s = Ok b <-> lib_escaped s b) /\
  ((exists b, escape_loop fuel s = Ok b) \/ escape_loop fuel s = Throw EInvalidArgument).
Proof.
  induction fuel as [|f IH]; intros s T L; [lia|]. destruct s as [|c rest].
  { cbn [escape_loop]. split; [|eauto]. intros b. split; [intros [= <-]; constructor|]. inversion 1; reflexivity. }
  inversion T as [|? ? Tc Tr]; subst. cbn [length] in L. cbn [escape_loop]. rewrite (cstr_id c) by now apply text_char_no_nul.
  destruct (is_ascii c 0x5C) eqn:E; [apply is_ascii_iff in E; subst c|].
  2:{ assert (N : c <> [0x5C]) by (intros ->; discriminate). destruct (IH rest Tr) as [A B]; [lia|]. split.
      - intros b. split.
        + destruct (escape_loop f rest) as [o| | |] eqn:R; try discriminate. cbn [bind]. intros [= <-]. apply le_plain; [assumption|]. now apply A.
        + inversion 1; subst; try congruence. match goal with H : lib_escaped rest _ |- _ => apply A in H; rewrite H end. reflexivity.
      - destruct B as [[o ->]| ->]; cbn; eauto. }
  destruct rest as [|c1 rest1].
  { destruct (IH [] Tr) as [A B]; [cbn; lia|]. split.
    - intros b. destruct f; [lia|]. cbn [escape_loop bind app]. split; [intros [= <-]; constructor|]. inversion 1; subst; [reflexivity|congruence].
    - destruct B as [[o ->]| ->]; cbn; eauto. }
  inversion Tr as [|? ? Tc1 Tr1]; subst. cbn [length] in L. destruct (simple_escape c1) as [v|] eqn:SE.
  { destruct (simple_escape_some _ _ SE) as (e & -> & He). destruct (IH rest1 Tr1) as [A B]; [lia|]. split.
    - intros b. split.
      + destruct (escape_loop f rest1) as [o| | |] eqn:R; try discriminate. cbn [bind]. intros [= <-]. apply le_simple; [assumption|]. now apply A.
      + inversion 1; subst; try congruence.
        * match goal with H : lib_escaped rest1 _ |- _ => apply A in H; rewrite H end. cbn.
          match goal with H : simple_esc e ?w |- _ => apply simple_escape_spec in H end. congruence.
        * inversion He.
        * exfalso. match goal with H : ~ _ |- _ => solve [apply H; eauto] end.
    - destruct B as [[o ->]| ->]; cbn; eauto. }
  assert (NS : forall e w, c1 = [e] -> ~ simple_esc e w) by (intros e w -> H; apply simple_escape_spec in H; congruence).
  destruct (is_ascii c1 0x75 && Nat.ltb 5 (length ([0x5C] :: c1 :: rest1))) eqn:U.
  - apply andb_prop in U as [U1 U2]. apply is_ascii_iff in U1. subst c1. apply Nat.ltb_lt in U2. cbn [length] in U2.
    set (q := firstn 4 rest1). set (t := skipn 4 rest1). assert (EQ : rest1 = q ++ t) by (symmetry; apply firstn_skipn).
    assert (LQ : length q = 4%nat) by (unfold q; rewrite firstn_length; lia).
    rewrite EQ in Tr1. apply Forall_app in Tr1 as [Tq Tt]. rewrite (s_str_text q Tq).
    destruct (stoi16_four q Tq LQ) as [SA SB]. destruct (IH t Tt) as [A B]; [unfold t; rewrite skipn_length; lia|]. clearbody q t.
    assert (UQ : forall q' t', q' ++ t' = rest1 -> length q' = 4%nat -> q' = q /\ t' = t).
    { intros q' t' E' L'. rewrite EQ in E'. revert E' L' LQ. clear. intros E' L' LQ.
      split; [apply (f_equal (firstn 4)) in E'|apply (f_equal (skipn 4)) in E'].
      - rewrite !firstn_app, L', LQ, Nat.sub_diag, !firstn_O, !app_nil_r in E'. rewrite !firstn_all2 in E' by lia. exact E'.
      - rewrite !skipn_app, L', LQ, Nat.sub_diag, !skipn_O in E'. rewrite !skipn_all2 in E' by lia. exact E'. }
    split.
    + intros b. split.
      * destruct (stoi16 (concat q)) as [z| | |] eqn:Z; try discriminate. cbn [bind].
        destruct (escape_loop f t) as [o| | |] eqn:R; try discriminate. cbn [bind]. intros [= <-].
        destruct (proj1 (SA z) eq_refl) as (g & n & H & ->). rewrite EQ. apply le_unicode; [assumption|assumption|]. now apply A.
      * inversion 1; subst; try congruence.
        -- match goal with H : simple_esc 0x75 _ |- _ => inversion H end.
        -- destruct (UQ _ _ ltac:(eassumption) ltac:(eassumption)) as [-> ->].
           match goal with H : lib_escaped t _ |- _ => apply A in H; rewrite H end.
           match goal with H : c_hex _ ?g ?n |- _ => rewrite (proj2 (SA (signed g n))) by eauto end. reflexivity.
        -- exfalso. match goal with H : ~ (_ /\ _) |- _ => apply H end. split; [reflexivity|lia].
    + destruct (scan (concat q)) as [g [n|]] eqn:SC.
      * apply scan_spec in SC. rewrite (proj2 (SA (signed g n))) by eauto. cbn [bind]. destruct B as [[o ->]| ->]; cbn; eauto.
      * right. rewrite (proj2 SB); [reflexivity|]. intros g' n' H. apply scan_spec in H. congruence.
  - assert (NU : ~ (c1 = [0x75] /\ (4 <= length rest1)%nat)).
    { intros [-> H]. apply andb_false_iff in U as [U|U]; [discriminate|]. apply Nat.ltb_ge in U. cbn in U. lia. }
    destruct (IH (c1 :: rest1) Tr) as [A B]; [cbn; lia|]. rewrite (cstr_id c1) by now apply text_char_no_nul. split.
    + intros b. split.
      * destruct (escape_loop f (c1 :: rest1)) as [o| | |] eqn:R; try discriminate. cbn [bind]. intros [= <-]. apply le_other; [|assumption|now apply A].
        intros (e & w & E & H). now apply (NS e w E).
      * inversion 1; subst; try congruence.
        -- exfalso. now eapply NS; [reflexivity|eassumption].
        -- exfalso. apply NU. split; [reflexivity|]. rewrite app_length. lia.
        -- match goal with H : lib_escaped (c1 :: rest1) _ |- _ => apply A in H; rewrite H end. reflexivity.
    + destruct B as [[o ->]| ->]; cbn; eauto.
Qed.

Lemma unit_is_bytes c : utf8_unit c -> Forall is_byte c.
Proof. intros U. destruct U; unfold continuation in *; repeat constructor; unfold is_byte; lia. Qed.
Lemma of_std_text b : Forall is_byte b -> forall u, string_of_std b = Ok u <-> text u /\ (b = concat u \/ exists r, b = concat u ++ 0 :: r).
Proof.
  intros B u. unfold string_of_std. split.
  - intros H. apply string_of_cstr_ok in H as (Tu & r & E).
    2:{ apply Forall_app. split; [exact B|]. repeat constructor. }
    split; [exact Tu|]. destruct r as [|x r] using rev_ind.
    + left. apply app_inj_tail in E as [E _]. exact E.
    + right. exists r. change (0 :: r ++ [x]) with ((0 :: r) ++ [x]) in E. rewrite app_assoc in E. apply app_inj_tail in E as [E _]. exact E.
  - intros (Tu & [->|(r & ->)]).
    + now rewrite string_of_cstr_text.
    + rewrite <- app_assoc. cbn [app]. now rewrite string_of_cstr_text.
Qed.
Lemma lib_escaped_bytes s b : text s -> lib_escaped s b -> Forall is_byte b.
Proof.
  intros T H. revert T. induction H as [| |c s b N H IH|e v s b He H IH|q s b g n L X H IH|c s b N1 N2 H IH]; intros T.
  - constructor.
  - repeat constructor.
  - inversion T as [|? ? [U _] T']; subst. apply Forall_app. split; [now apply unit_is_bytes|auto].
  - inversion T as [|? ? _ T']; subst. inversion T' as [|? ? _ T'']; subst. constructor; [inversion He; unfold is_byte; lia|auto].
  - inversion T as [|? ? _ T']; subst. inversion T' as [|? ? _ T'']; subst. apply Forall_app in T'' as [_ T'']. constructor; [|auto].
    unfold is_byte. pose proof (Z.mod_pos_bound (signed g n) 256 ltac:(lia)). lia.
  - inversion T as [|? ? _ T']; subst. inversion T' as [|? ? [U _] T'']; subst. constructor; [unfold is_byte; lia|]. apply Forall_app. split; [now apply unit_is_bytes|auto].
Qed.

Lemma escape_string_exact s : text s ->
  (forall u, escape_string s = Ok u <-> exists b, lib_escaped s b /\ text u /\ (b = concat u \/ exists r, b = concat u ++ 0 :: r)) /\
  ((forall b, ~ lib_escaped s b) -> escape_string s = Throw EInvalidArgument).
Proof.
  intros T. destruct (escape_loop_exact (S (length s)) s T) as [A B]; [lia|]. unfold escape_string.
  assert (C : forall o, lib_escaped s o -> escape_loop (S (length s)) s = Ok o) by (intros o; apply A). split.
  - intros u. split.
    + intros H. destruct B as [[b E]|E]; rewrite E in H; [|discriminate]. cbn [bind] in H. apply A in E as E'. exists b. split; [assumption|].
      apply of_std_text in H; [exact H|]. eapply lib_escaped_bytes; eassumption.
    + intros (b & E & H). rewrite (C b E). cbn [bind]. apply of_std_text; [|exact H]. eapply lib_escaped_bytes; eassumption.
  - intros H. destruct B as [[b E]|E]; [|now rewrite E]. apply A in E. now apply H in E.
Qed.
