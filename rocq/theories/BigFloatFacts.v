(** The facts behind BigFloatProps.v. *)
From Coq Require Import List NArith ZArith Bool Arith Lia ZifyBool ZifyN ZifyNat.
From Verif Require Import Outcome CharModel CharUtil StrModel StrUtil Dec BigInt SpecUtf8 SpecChar SpecStr SpecInt
  CharProofs CharUtilProofs StrProofs DecProofs BigIntProofs BigIntStates BigIntFacts BigFloat SpecFloat BigFloatProofs
  BigFloatOps BigFloatStates.
Import ListNotations.
Local Open Scope Z_scope.

Local Notation ascii t := (Forall (fun b => 1 <= b < 128)%N t).

(** ** Every BigFloat is some [fl x p] *)
Definition is_fl (f : bigfloat) : Prop := exists x p, f = fl x p.

Lemma align_num fuel : forall p n a, bf_align fuel (num p) n = Ok a -> exists z, a = num z.
Proof.
  induction fuel as [|f IH]; intros p n a E; cbn [bf_align] in E; destruct (Nat.ltb (bi_size (num p)) n); try discriminate;
    try (injection E as <-; eauto).
  rewrite <- num_10, num_mul in E. cbn [bind] in E. eapply IH, E.
Qed.
Lemma dotted_fl i f r : bi_wf i -> bi_wf f -> (s <- dotted i f ;; bf_of_string s) = Ok r -> is_fl r.
Proof. intros Wi Wf E. rewrite of_dotted_wf in E by assumption. injection E as <-. now eexists _, _. Qed.

Lemma wf_add a b r : bi_wf a -> bi_wf b -> bi_add a b = Ok r -> bi_wf r.
Proof. intros Wa Wb E. destruct (bi_add_spec a b Wa Wb) as (r' & E' & W & _). congruence. Qed.
Lemma wf_sub a b r : bi_wf a -> bi_wf b -> bi_sub a b = Ok r -> bi_wf r.
Proof. intros Wa Wb E. destruct (bi_sub_spec a b Wa Wb) as (r' & E' & W & _). congruence. Qed.
Lemma wf_mul a b r : bi_wf a -> bi_wf b -> bi_mul a b = Ok r -> bi_wf r.
Proof. intros Wa Wb E. destruct (bi_mul_spec a b Wa Wb) as (r' & E' & [W _] & _). congruence. Qed.
Lemma wf_of_int z r : bi_of_int z = Ok r -> bi_wf r.
Proof. rewrite num_of_int. intros E. injection E as <-. apply num_wf. Qed.
Lemma wf_ten : bi_wf big_ten. Proof. rewrite <- num_10. apply num_wf. Qed.
Lemma wf_one : bi_wf big_one. Proof. rewrite <- num_1. apply num_wf. Qed.


Lemma add_is_fl n a b r : is_fl a -> is_fl b -> bf_add n a b = Ok r -> is_fl r.
Proof.
  intros (x & p & ->) (y & q & ->) E. unfold bf_add, fl in E. cbn [bf_int bf_frac] in E.
  apply bind_Ok in E as (tf & E1 & E). apply align_num in E1 as [z1 ->].
  apply bind_Ok in E as (of & E2 & E). apply align_num in E2 as [z2 ->].
  apply bind_Ok in E as (fr & E3 & E). apply wf_add in E3; auto using num_wf.
  apply bind_Ok in E as (fr' & E4 & E). apply bind_Ok in E as (ir & E5 & E). apply wf_add in E5; auto using num_wf.
  apply bind_Ok in E as (ir' & E6 & E).
  assert (bi_wf fr').
  { destruct (Nat.ltb _ _); [|congruence]. apply bind_Ok in E4 as (m & E41 & E4). apply bind_Ok in E4 as (d & E42 & E4).
    apply wf_of_int in E41. apply wf_mul in E42; [|apply wf_ten|exact E41]. eapply wf_sub; [| |exact E4]; assumption. }
  assert (bi_wf ir') by (destruct (Nat.ltb _ _); [eapply wf_add; [| |exact E6]; [assumption|apply wf_one]|congruence]).
  eapply dotted_fl; [| |exact E]; assumption.
Qed.
Lemma sub_is_fl n a b r : is_fl a -> is_fl b -> bf_sub n a b = Ok r -> is_fl r.
Proof.
  intros (x & p & ->) (y & q & ->) E. unfold bf_sub, fl in E. cbn [bf_int bf_frac] in E.
  apply bind_Ok in E as (tf & E1 & E). apply align_num in E1 as [z1 ->].
  apply bind_Ok in E as (of & E2 & E). apply align_num in E2 as [z2 ->].
  apply bind_Ok in E as (tf' & E3 & E). apply bind_Ok in E as (fr & E4 & E).
  apply bind_Ok in E as (ir & E5 & E). apply wf_sub in E5; auto using num_wf.
  apply bind_Ok in E as (ir' & E6 & E).
  assert (bi_wf tf').
  { destruct (bi_lt _ _); [|injection E3 as <-; auto using num_wf]. apply bind_Ok in E3 as (m & E31 & E3). apply bind_Ok in E3 as (d & E32 & E3).
    apply wf_of_int in E31. apply wf_mul in E32; [|apply wf_ten|exact E31]. eapply wf_add; [| |exact E3]; [apply num_wf|assumption]. }
  apply wf_sub in E4; auto using num_wf.
  assert (bi_wf ir') by (destruct (bi_lt _ _); [eapply wf_sub; [| |exact E6]; [assumption|apply wf_one]|congruence]).
  eapply dotted_fl; [| |exact E]; assumption.
Qed.

Lemma ascii_firstn n t : ascii t -> ascii (firstn n t).
Proof. intros F. rewrite <- (firstn_skipn n t) in F. now apply Forall_app in F. Qed.
Lemma ascii_skipn n t : ascii t -> ascii (skipn n t).
Proof. intros F. rewrite <- (firstn_skipn n t) in F. now apply Forall_app in F. Qed.
Lemma place_ascii t T s : ascii t -> place_point (ascii_chars t) T = Ok s -> exists t', s = ascii_chars t' /\ ascii t'.
Proof.
  intros A E. unfold place_point in E. apply bind_Ok in E as (u & E1 & E2).
  assert (exists t', u = ascii_chars t' /\ ascii t') as (t' & -> & A').
  { destruct (_ <=? _)%N; [|injection E1 as <-; eauto].
    apply bind_Ok in E1 as (z & Ez & E1). unfold zeros in Ez. destruct (_ <? _)%N; [discriminate|].
    rewrite fill_zero in Ez. injection Ez as <-. unfold s_insert in E1. destruct (_ <? 0)%N; [discriminate|]. injection E1 as <-.
    unfold vec_insert. cbn [N.to_nat firstn skipn app]. rewrite <- ascii_app. eexists. split; [reflexivity|].
    apply Forall_app. split; [|exact A]. apply Forall_forall. intros x I. apply repeat_spec in I. subst. lia. }
  unfold s_insert_n_char in E2. destruct (_ <? _)%N; [discriminate|]. injection E2 as <-.
  unfold vec_insert. set (n := N.to_nat _). rewrite firstn_ascii, skipn_ascii. cbn [repeat]. change (char_of_byte 46) with [46%N].
  exists (firstn n t' ++ 46%N :: skipn n t'). rewrite ascii_app. split; [reflexivity|].
  apply Forall_app. split; [now apply ascii_firstn|]. constructor; [lia|now apply ascii_skipn].
Qed.
Lemma mul_is_fl a b r : is_fl a -> is_fl b -> bf_mul a b = Ok r -> is_fl r.
Proof.
  intros (x & p & ->) (y & q & ->) E. unfold bf_mul in E. rewrite !full_text_fl in E. cbn [bind] in E.
  assert (A : forall u v, ascii (dec_of_Z u ++ dec_of_Z v)) by (intros; apply Forall_app; split; apply dec_bytes).
  apply bind_Ok in E as (na & E1 & E). apply ascii_canon in E1 as [z1 ->]; [|apply A].
  apply bind_Ok in E as (nb & E2 & E). apply ascii_canon in E2 as [z2 ->]; [|apply A].
  rewrite num_mul in E. cbn [bind] in E. rewrite num_to_string in E. cbn [bind] in E.
  apply bind_Ok in E as (s & E3 & E). apply place_ascii in E3 as (t & -> & At); [|apply dec_bytes].
  apply ascii_fl in E; [|exact At]. exact E.
Qed.
Lemma div_is_fl a b r : is_fl a -> is_fl b -> bf_div a b = Ok r -> is_fl r.
Proof.
  intros (x & p & ->) (y & q & ->) E. unfold bf_div in E. destruct (bf_equal _ _); [discriminate|].
  rewrite !full_text_fl in E. cbn [bind] in E.
  assert (A : forall u v, ascii (dec_of_Z u ++ dec_of_Z v)) by (intros; apply Forall_app; split; apply dec_bytes).
  apply bind_Ok in E as (na & E1 & E). apply ascii_canon in E1 as [z1 ->]; [|apply A].
  apply bind_Ok in E as (nb & E2 & E). apply ascii_canon in E2 as [z2 ->]; [|apply A].
  destruct (Z.eq_dec z2 0) as [->|N]; [rewrite div_zero in E by reflexivity; discriminate|].
  rewrite num_div in E by exact N. cbn [bind] in E. rewrite num_to_string in E. cbn [bind] in E.
  apply bind_Ok in E as (s & E3 & E). apply place_ascii in E3 as (t & -> & At); [|apply dec_bytes].
  apply ascii_fl in E; [|exact At]. exact E.
Qed.
Lemma fl_is x p : is_fl (fl x p).
Proof. now eexists _, _. Qed.
Lemma pow_is_fl fuel : forall e a b r, is_fl a -> is_fl b -> bf_pow_loop fuel e a b = Ok r -> is_fl r.
Proof.
  induction fuel as [|f IH]; intros e a b r Ha Hb E; cbn [bf_pow_loop] in E; destruct (0 <? e); try discriminate; try (now injection E as <-).
  apply bind_Ok in E as (a' & E1 & E). apply bind_Ok in E as (b' & E2 & E).
  eapply IH; [| |exact E]; [|eapply mul_is_fl; [| |exact E2]; assumption].
  destruct (_ =? 1); [eapply mul_is_fl; [| |exact E1]; assumption|congruence].
Qed.
Lemma sqrt_is_fl fuel : forall a low high r, is_fl low -> is_fl high -> bf_sqrt_loop fuel a low high = Ok r -> is_fl r.
Proof.
  induction fuel as [|f IH]; intros a low high r Hl Hh E; cbn [bf_sqrt_loop] in E; destruct (_ || _); try discriminate; try (now injection E as <-).
  apply bind_Ok in E as (s & E1 & E). apply bind_Ok in E as (mid & E2 & E). apply bind_Ok in E as (sq & E3 & E).
  apply add_is_fl in E1; auto. apply div_is_fl in E2; auto using fl_is; [|rewrite fl_two; apply fl_is].
  destruct (bf_equal sq a); [congruence|]. destruct (bf_lt sq a); apply bind_Ok in E as (m & E4 & E).
  - apply add_is_fl in E4; [eapply IH; [| |exact E]; auto|auto|rewrite fl_one; apply fl_is].
  - apply sub_is_fl in E4; [eapply IH; [| |exact E]; auto|auto|rewrite fl_one; apply fl_is].
Qed.
Lemma bf_built_fl f : bf_built f -> is_fl f.
Proof.
  induction 1 as [|t f A E|n a b r _ Ha _ Hb E|n a b r _ Ha _ Hb E|a b r _ Ha _ Hb E|a b r _ Ha _ Hb E|a _ (x & p & ->)|a e r _ Ha E|a r _ Ha E|a n r _ Ha E].
  - now exists 0, 0.
  - eapply ascii_fl; eauto.
  - eapply add_is_fl; [| |exact E]; auto.
  - eapply sub_is_fl; [| |exact E]; auto.
  - eapply mul_is_fl; [| |exact E]; auto.
  - eapply div_is_fl; [| |exact E]; auto.
  - apply fl_is.
  - unfold bf_pow in E. destruct (e <? 0); [discriminate|]. eapply pow_is_fl; [| |exact E]; auto. rewrite fl_one. apply fl_is.
  - eapply mul_is_fl; [| |exact E]; auto.
  - unfold bf_sqrt in E. destruct (bf_neg a); [discriminate|]. destruct (_ || _); [congruence|].
    eapply sqrt_is_fl; [| |exact E]; auto. rewrite fl_one. apply fl_is.
Qed.

(** ** What is shown determines the value *)
Lemma fl_shows x p : fshows (fl x p) x p.
Proof.
  exists (dec_of_Z x), (dec_of_Z p). split; [apply dec_of_Z_canonical|]. split; [apply dec_of_Z_canonical|]. apply to_string_fl.
Qed.
Lemma split_dot a b a' b' : ~ In 46%N a -> ~ In 46%N a' -> a ++ 46%N :: b = a' ++ 46%N :: b' -> a = a' /\ b = b'.
Proof.
  revert a'. induction a as [|x a IH]; intros [|x' a'] H H' E; cbn in *.
  - injection E. auto.
  - injection E as <- _. exfalso. tauto.
  - injection E as -> _. exfalso. tauto.
  - injection E as <- E. destruct (IH a') as [-> ->]; auto.
Qed.
Lemma print_inj x p y q : print x p = print y q -> x = y /\ p = q.
Proof.
  unfold print. intros E.
  assert (I : forall u v, dec_of_Z u = dec_of_Z v -> u = v).
  { intros u v K. pose proof (canonical_is_numeral _ _ (dec_of_Z_canonical u)) as A.
    pose proof (canonical_is_numeral _ _ (dec_of_Z_canonical v)) as B. rewrite <- K in B. eapply int_numeral_fun; eauto. }
  destruct (p =? 0) eqn:P, (q =? 0) eqn:Q.
  - split; [now apply I|lia].
  - exfalso. apply (dec_no_dot x). rewrite E. apply in_or_app. right. now left.
  - exfalso. apply (dec_no_dot y). rewrite <- E. apply in_or_app. right. now left.
  - apply split_dot in E as [E1 E2]; auto using dec_no_dot.
Qed.
Lemma fshows_fl f x p : bf_built f -> fshows f x p -> f = fl x p.
Proof.
  intros B (ti & tp & C1 & C2 & E). apply bf_built_fl in B as (y & q & ->). rewrite to_string_fl in E. injection E as E.
  apply ascii_chars_inj in E.
  rewrite (canonical_numeral_inj _ _ _ C1 (dec_of_Z_canonical x)), (canonical_numeral_inj _ _ _ C2 (dec_of_Z_canonical p)) in E.
  change (print y q = print x p) in E. apply print_inj in E as [-> ->]. reflexivity.
Qed.
Lemma fl_built x p : bf_built (fl x p).
Proof.
  apply bf_built_text with (dec_of_Z x ++ 46%N :: dec_of_Z p); [|apply of_dotted].
  apply Forall_app. split; [apply dec_bytes|]. constructor; [lia|apply dec_bytes].
Qed.
Lemma built_shows f : bf_built f -> exists x p, fshows f x p.
Proof. intros B. apply bf_built_fl in B as (x & p & ->). exists x, p. apply fl_shows. Qed.

(** What x.p denotes *)
Lemma fl_denotes x p k : 0 <= p -> num_digits p k -> denotes (fl x p) (joined x p k) k.
Proof.
  intros H D. rewrite <- (Nat.add_0_l k) at 1.
  exists (print x p), (joined x p k), k. split; [apply to_string_fl|]. split; [|reflexivity].
  unfold print. destruct (p =? 0) eqn:P.
  - assert (p = 0) as -> by lia. rewrite (num_digits_fun 0 k 0 D digits_0).
    replace (joined x 0 0) with x by (unfold joined; change (10 ^ Z.of_nat 0) with 1; destruct (x <? 0); lia).
    apply dec_whole, canonical_is_numeral, dec_of_Z_canonical.
  - destruct (digits_range p k ltac:(lia) D) as [K _]. destruct (dec_nonneg p H) as [F V].
    pose proof (length_dec p k H D) as L. replace (Nat.max 1 k) with k in L by lia.
    unfold joined. destruct (x <? 0) eqn:N.
    + destruct (dec_nonneg (- x) ltac:(lia)) as [F' V']. rewrite (dec_neg x) by lia. cbn [app].
      replace (x * 10 ^ Z.of_nat k - p) with (- digits_value (dec_of_Z (- x) ++ dec_of_Z p)) by (rewrite digits_value_app, V, V', L; lia).
      rewrite <- L. apply dec_minus; auto using dec_nonempty.
    + destruct (dec_nonneg x ltac:(lia)) as [F' V'].
      replace (x * 10 ^ Z.of_nat k + p) with (digits_value (dec_of_Z x ++ dec_of_Z p)) by (rewrite digits_value_app, V, V', L; lia).
      rewrite <- L. apply dec_plain; auto using dec_nonempty.
Qed.
(** The same when the fraction has [k] digits, zero or without a leading zero. *)
Lemma fl_denotes' x p k : 0 <= p < 10 ^ Z.of_nat k -> no_lost_zero p k -> denotes (fl x p) (joined x p k) k.
Proof.
  intros H N. destruct (Z.eq_dec p 0) as [->|P].
  - destruct (fl_denotes x 0 0 (Z.le_refl 0) digits_0) as (t & m' & k' & E & D & S).
    exists t, m', k'. split; [exact E|]. split; [exact D|]. unfold same_number, joined in *. change (10 ^ Z.of_nat 0) with 1 in S.
    destruct (x <? 0); nia.
  - apply fl_denotes; [lia|]. destruct N as [N|N]; [lia|]. right. split; [|lia].
    destruct k; [cbn in H; lia|lia].
Qed.
Lemma denotes_same f m k m' k' : denotes f m k -> same_number m k m' k' -> denotes f m' k'.
Proof.
  intros (t & a & b & E & D & S) S'. exists t, a, b. split; [exact E|]. split; [exact D|].
  unfold same_number in *. pose proof (p10 k). pose proof (p10 b). pose proof (p10 k').
  assert (a * 10 ^ Z.of_nat k' * 10 ^ Z.of_nat k = m' * 10 ^ Z.of_nat b * 10 ^ Z.of_nat k); [|nia].
  rewrite <- Z.mul_assoc, (Z.mul_comm (10 ^ Z.of_nat k')), Z.mul_assoc, S. nia.
Qed.
Lemma decimal_fun t m k m' k' : decimal t m k -> decimal t m' k' -> m = m' /\ k = k'.
Proof.
  assert (ND : forall ds, Forall ascii_digit ds -> ~ In 46%N ds).
  { intros ds F I. rewrite Forall_forall in F. specialize (F _ I). unfold ascii_digit in F. lia. }
  assert (W : forall a b z, int_numeral (a ++ 46%N :: b) z -> False).
  { intros a b z H. eapply numeral_no_dot; [exact H|]. apply in_or_app. right. now left. }
  intros D D'. inversion D as [? ? H|ds fs A B F G|ds fs A B F G]; subst; inversion D' as [? ? H'|ds' fs' A' B' F' G' E|ds' fs' A' B' F' G' E]; subst.
  - split; [|reflexivity]. eapply int_numeral_fun; eauto.
  - exfalso. eapply W; eauto.
  - exfalso. eapply (W (45%N :: ds')); eauto.
  - exfalso. eapply W; eauto.
  - apply split_dot in E as [-> ->]; auto.
  - exfalso. destruct ds as [|d ds]; [congruence|]. cbn in E. injection E as <- _. inversion F as [|? ? K]. unfold ascii_digit in K. lia.
  - exfalso. eapply (W (45%N :: ds)); eauto.
  - exfalso. destruct ds' as [|d ds']; [congruence|]. cbn in E. injection E as -> _. inversion F' as [|? ? K]. unfold ascii_digit in K. lia.
  - apply split_dot in E as [-> ->]; auto.
Qed.
Lemma denotes_fun f m k m' k' : denotes f m k -> denotes f m' k' -> same_number m k m' k'.
Proof.
  intros (t & a & b & E & D & S) (t' & a' & b' & E' & D' & S'). rewrite E in E'. injection E' as E'. apply ascii_chars_inj in E'. subst t'.
  destruct (decimal_fun _ _ _ _ _ D D') as [-> ->]. unfold same_number in *. pose proof (p10 b').
  assert (m * 10 ^ Z.of_nat k' * 10 ^ Z.of_nat b' = m' * 10 ^ Z.of_nat k * 10 ^ Z.of_nat b'); [|nia].
  rewrite <- Z.mul_assoc, (Z.mul_comm (10 ^ Z.of_nat k')), Z.mul_assoc, <- S.
  rewrite <- (Z.mul_assoc m'), (Z.mul_comm (10 ^ Z.of_nat k)), Z.mul_assoc, <- S'. lia.
Qed.
