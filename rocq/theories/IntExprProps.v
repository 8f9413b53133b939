(** Property C135: arithmetic expressions over BigInteger. *)
From Coq Require Import List NArith ZArith Lia.
From Verif Require Import Outcome StrModel BigInt SpecInt DecProofs BigIntStates BigIntProofs BigIntFacts BigIntProps IntExpr.
Import ListNotations.
Local Open Scope Z_scope.

(** ** What an expression means; None: refused *)
Definition means_binary (o : binary) (x y : Z) : option Z :=
  match o with
  | OAdd => Some (x + y) | OSub => Some (x - y) | OMul => Some (x * y)
  | ODiv => if y =? 0 then None else Some (Z.quot x y)
  | OMod => if y =? 0 then None else Some (Z.rem x y)
  end.
Definition means_unary (u : unary) (x : Z) : option Z :=
  match u with
  | UAbs => Some (Z.abs x) | USqr => Some (x * x)
  | USqrt => if x <? 0 then None else Some (Z.sqrt x)
  | UPow e => if e <? 0 then None else Some (x ^ e)
  end.
Inductive means : iexpr -> option Z -> Prop :=
| m_text t z : int_numeral t z -> means (XText t) (Some z)
| m_int z : - 2 ^ 63 <= z < 2 ^ 64 -> means (XInt z) (Some z)
| m_binary o a b x y : means a (Some x) -> means b (Some y) -> means (XBin o a b) (means_binary o x y)
| m_left o a b : means a None -> means (XBin o a b) None
| m_right o a b x : means a (Some x) -> means b None -> means (XBin o a b) None
| m_unary u a x : (forall e, u = UPow e -> e <= 2147483647) -> means a (Some x) -> means (XUn u a) (means_unary u x)
| m_inner u a : means a None -> means (XUn u a) None.

(** The operands on which the operators are right *)
Definition fine (o : binary) (x y : Z) : Prop :=
  match o with
  | OAdd => (0 <= x \/ y < 0 \/ 0 < y /\ 0 <= x + y) /\ ~ (0 < x /\ x + y = 0)
  | OSub => 0 <= x /\ 0 <= y \/ x = 0 \/ y = 0 \/ x = y
  | OMod => y = 0 \/ 0 <= x \/ Z.rem x y <> 0
  | OMul | ODiv => True
  end.
Fixpoint tame (e : iexpr) : Prop :=
  match e with
  | XText _ | XInt _ => True
  | XBin o a b => tame a /\ tame b /\ forall x y, means a (Some x) -> means b (Some y) -> fine o x y
  | XUn _ a => tame a
  end.

(** ** Proofs *)
Lemma canon_sign b : bi_canon b -> bi_neg b = (bi_value b <? 0).
Proof.
  intros C. destruct (Z.ltb_spec (bi_value b) 0) as [L|L]; [apply value_neg; [apply C|exact L]|now destruct (canon_nonneg b C L)].
Qed.
Lemma canon_default_equal b : bi_canon b -> bi_value b = 0 -> bi_equal b bi_default = true.
Proof. intros C V. rewrite equal_canon by (auto using canon_zero). rewrite V. reflexivity. Qed.

(** One operator on canonical operands *)
Lemma binary_fine o a b : bi_canon a -> bi_canon b -> fine o (bi_value a) (bi_value b) ->
  match means_binary o (bi_value a) (bi_value b) with
  | Some z => exists r, run_binary o a b = Ok r /\ bi_canon r /\ bi_value r = z
  | None => run_binary o a b = Throw EInvalidArgument
  end.
Proof.
  intros Ca Cb Fi. pose proof (canon_sign a Ca) as Na. pose proof (canon_sign b Cb) as Nb.
  destruct o; cbn [means_binary run_binary fine] in *.
  - destruct (bi_add_spec a b (proj1 Ca) (proj1 Cb)) as (r & E & W & V & C). exists r. split; [exact E|].
    assert (V1 : bi_value r = bi_value a + bi_value b).
    { rewrite V. unfold add_result. rewrite Na, Nb. destruct (Z.ltb_spec (bi_value a) 0), (Z.ltb_spec (bi_value b) 0); cbn [Bool.eqb]; try lia;
        destruct (Z.ltb_spec (Z.abs (bi_value b)) (Z.abs (bi_value a))); lia. }
    split; [|exact V1]. destruct C as [C|(Z0 & A & B)]; [exact C|]. exfalso. rewrite A in Na. rewrite B in Nb. symmetry in Na, Nb.
    apply Z.ltb_ge in Na. apply Z.ltb_lt in Nb. lia.
  - destruct (bi_sub_spec a b (proj1 Ca) (proj1 Cb)) as (r & E & W & V & C). exists r. split; [exact E|].
    assert (V1 : bi_value r = bi_value a - bi_value b).
    { rewrite V. unfold sub_result. rewrite Na, Nb. destruct (Z.ltb_spec (bi_value a) 0), (Z.ltb_spec (bi_value b) 0); cbn [Bool.eqb]; lia. }
    split; [|exact V1]. destruct C as [C|(Z0 & A & B)]; [exact C|]. exfalso. rewrite A in Na. rewrite B in Nb. symmetry in Na, Nb.
    apply Z.ltb_lt in Na. apply Z.ltb_ge in Nb. lia.
  - destruct (bi_mul_spec a b (proj1 Ca) (proj1 Cb)) as (r & E & C & V). eauto.
  - destruct (Z.eqb_spec (bi_value b) 0) as [Z0|Z0]; [apply div_zero, canon_default_equal; auto|].
    destruct (bi_div_spec a b (proj1 Ca) (proj1 Cb) Z0) as (r & E & C & V). eauto.
  - destruct (Z.eqb_spec (bi_value b) 0) as [Z0|Z0]; [unfold bi_mod; now rewrite div_zero by (apply canon_default_equal; auto)|].
    destruct (bi_mod_spec a b (proj1 Ca) (proj1 Cb) Z0) as (r & E & W & V & N). exists r. split; [exact E|]. split; [|exact V].
    split; [exact W|]. intros D. rewrite N, Na. destruct (Z.ltb_spec (bi_value a) 0); [|reflexivity]. exfalso.
    assert (bi_value r = 0) by (unfold bi_value; rewrite D; now destruct (bi_neg r)). rewrite V in *. lia.
Qed.
Lemma unary_fine u a : bi_canon a -> (forall e, u = UPow e -> e <= 2147483647) ->
  match means_unary u (bi_value a) with
  | Some z => exists n r, (forall fuel, (n <= fuel)%nat -> run_unary fuel u a = Ok r) /\ bi_canon r /\ bi_value r = z
  | None => forall fuel, run_unary fuel u a = Throw EInvalidArgument
  end.
Proof.
  intros Ca B. destruct u as [| | |e]; cbn [means_unary run_unary].
  - exists 0%nat, (bi_abs a). split; [reflexivity|]. destruct (bi_abs_wf a (proj1 Ca)) as [C V]. split; [exact C|].
    rewrite V. symmetry. apply abs_value, Ca.
  - destruct (bi_mul_spec a a (proj1 Ca) (proj1 Ca)) as (r & E & C & V). exists 0%nat, r. split; [intros; exact E|auto].
  - pose proof (canon_sign a Ca) as Na. destruct (Z.ltb_spec (bi_value a) 0) as [L|L].
    + intros fuel. unfold bi_sqrt. now rewrite Na.
    + destruct (bi_sqrt_spec a (4 * length (bi_digits a))%nat (proj1 Ca) Na (le_n _)) as (r & E & C & V).
      exists (4 * length (bi_digits a))%nat, r. split; [|auto]. intros fuel Lf.
      destruct (bi_sqrt_spec a fuel (proj1 Ca) Na Lf) as (r' & E' & C' & V'). rewrite E'. f_equal. apply canon_inj; auto; congruence.
  - destruct (Z.ltb_spec e 0) as [L|L]; [intros; now apply pow_negative|].
    destruct (bi_pow_spec a e (proj1 Ca) (conj L (B e eq_refl))) as (r & E & C & V). exists 0%nat, r. split; [intros; exact E|auto].
Qed.

Lemma run_means e r : means e r -> tame e ->
  match r with
  | Some z => exists n b, (forall fuel, (n <= fuel)%nat -> run fuel e = Ok b) /\ bi_canon b /\ bi_value b = z
  | None => exists n, forall fuel, (n <= fuel)%nat -> run fuel e = Throw EInvalidArgument
  end.
Proof.
  induction 1 as [t z H|z H|o a b x y Ma IHa Mb IHb|o a b Ma IHa|o a b x Ma IHa Mb IHb|u a x B Ma IHa|u a Ma IHa]; cbn [tame]; intros T.
  - destruct (of_string_numeral t z H) as (b & E & C & V). exists 0%nat, b. split; [intros; exact E|auto].
  - destruct (bi_of_int_spec z) as (b & E & C & V). exists 0%nat, b. split; [intros; exact E|auto].
  - destruct T as (Ta & Tb & Fi). destruct (IHa Ta) as (n & va & Ea & Ca & Va). destruct (IHb Tb) as (m & vb & Eb & Cb & Vb).
    specialize (Fi x y Ma Mb). subst x y. pose proof (binary_fine o va vb Ca Cb Fi) as H.
    destruct (means_binary o (bi_value va) (bi_value vb)) as [z|].
    + destruct H as (r & E & C & V). exists (Nat.max n m), r. split; [|auto]. intros fuel L. cbn [run]. rewrite Ea, Eb by lia. exact E.
    + exists (Nat.max n m). intros fuel L. cbn [run]. rewrite Ea, Eb by lia. exact H.
  - destruct (IHa (proj1 T)) as (n & E). exists n. intros fuel L. cbn [run]. now rewrite E.
  - destruct T as (Ta & Tb & _). destruct (IHa Ta) as (n & va & Ea & _). destruct (IHb Tb) as (m & Eb).
    exists (Nat.max n m). intros fuel L. cbn [run]. rewrite Ea, Eb by lia. reflexivity.
  - destruct (IHa T) as (n & va & Ea & Ca & Va). subst x. pose proof (unary_fine u va Ca B) as H.
    destruct (means_unary u (bi_value va)) as [z|].
    + destruct H as (m & r & E & C & V). exists (Nat.max n m), r. split; [|auto]. intros fuel L. cbn [run]. rewrite Ea by lia. apply E. lia.
    + exists n. intros fuel L. cbn [run]. rewrite Ea by lia. apply H.
  - destruct (IHa T) as (n & E). exists n. intros fuel L. cbn [run]. now rewrite E.
Qed.

(** C135.  The number an expression shows is its value; refused operations throw invalid_argument. *)
Theorem C135_value_partial : forall e z, means e (Some z) -> tame e ->
  exists n b, (forall fuel, (n <= fuel)%nat -> run fuel e = Ok b) /\ shows b z /\ reads_back b.
Proof.
  intros e z M T. destruct (run_means e (Some z) M T) as (n & b & E & C & V). exists n, b. split; [exact E|].
  split; [subst; apply shows_wf, C|now apply canon_reads_back].
Qed.
Print Assumptions C135_value_partial.
Theorem C135_refused_partial : forall e, means e None -> tame e ->
  exists n, forall fuel, (n <= fuel)%nat -> run fuel e = Throw EInvalidArgument.
Proof. intros e M T. exact (run_means e None M T). Qed.
Print Assumptions C135_refused_partial.
(** Expressions whose subexpressions are all non-negative are among these. *)
Fixpoint natural (e : iexpr) : Prop :=
  (forall z, means e (Some z) -> 0 <= z) /\
  match e with XText _ | XInt _ => True | XBin _ a b => natural a /\ natural b | XUn _ a => natural a end.
Theorem C135_natural : forall e, natural e -> tame e.
Proof.
  induction e as [t|z|o a IHa b IHb|u a IHa]; cbn [tame natural]; intros [P N]; auto. destruct N as [A B].
  split; [auto|]. split; [auto|]. intros x y X Y.
  assert (0 <= x) by (destruct a; apply (proj1 A x X)). assert (0 <= y) by (destruct b; apply (proj1 B y Y)).
  destruct o; cbn; try lia.
Qed.
Print Assumptions C135_natural.
(** Two expressions compare as their values do, if not both are negative. *)
Theorem C135_compare_partial : forall e f x y, means e (Some x) -> tame e -> means f (Some y) -> tame f ->
  exists n a b, (forall fuel, (n <= fuel)%nat -> run fuel e = Ok a /\ run fuel f = Ok b) /\
    bi_equal a b = (x =? y) /\ bi_ne a b = negb (x =? y) /\
    (0 <= x \/ 0 <= y -> bi_lt a b = (x <? y) /\ bi_gt a b = (y <? x) /\ bi_le a b = (x <=? y) /\ bi_ge a b = (y <=? x)).
Proof.
  intros e f x y Me Te Mf Tf. destruct (run_means e _ Me Te) as (n & a & Ea & Ca & Va). destruct (run_means f _ Mf Tf) as (m & b & Eb & Cb & Vb).
  exists (Nat.max n m), a, b. split; [intros fuel L; split; [apply Ea|apply Eb]; lia|].
  assert (Eq : bi_equal a b = (x =? y)) by (rewrite equal_canon by auto; congruence).
  split; [exact Eq|]. split; [unfold bi_ne; now rewrite Eq|]. intros P.
  assert (Lt : bi_lt a b = (x <? y)).
  { rewrite bi_lt_spec by (apply canon_wf; assumption). rewrite !canon_sign, Va, Vb by assumption.
    destruct (Z.ltb_spec x 0), (Z.ltb_spec y 0); cbn [Bool.eqb negb]; try lia.
    rewrite (proj2 (canon_nonneg a Ca ltac:(lia))), (proj2 (canon_nonneg b Cb ltac:(lia))). congruence. }
  unfold bi_le, bi_ge, bi_gt. rewrite Lt, Eq. split; [reflexivity|].
  destruct (Z.ltb_spec x y), (Z.eqb_spec x y), (Z.ltb_spec y x), (Z.leb_spec x y), (Z.leb_spec y x); cbn; try lia; repeat split; reflexivity.
Qed.
Print Assumptions C135_compare_partial.
(** The condition is exact: on operands that are right, an operator outside it gives a result that shows another
    number or does not equal the number it shows. *)
Theorem C135_exact_partial : forall o a b x y z r, built a -> built b -> shows a x -> shows b y -> reads_back a -> reads_back b ->
  means_binary o x y = Some z -> run_binary o a b = Ok r -> (shows r z /\ reads_back r <-> fine o x y).
Proof.
  intros o a b x y z r Ba Bb Sa Sb Ra Rb M E. values. apply reads_back_canon in Ra; [|assumption]. apply reads_back_canon in Rb; [|assumption].
  pose proof (canon_sign a Ra) as Na. pose proof (canon_sign b Rb) as Nb. split.
  - intros [S R]. destruct o; cbn [fine means_binary run_binary] in *; auto.
    + destruct (bi_add_spec a b Ba Bb) as (r' & E' & W & V & _). rewrite E in E'. injection E' as <-.
      apply shows_value in S; [|exact W]. apply reads_back_canon in R; [|exact W]. injection M as <-. rewrite <- S in V.
      unfold add_result in V. rewrite Na, Nb in V. subst x y.
      pose proof (canon_sign r R) as Nr. rewrite <- S in Nr.
      assert (K : ~ (0 < bi_value a /\ bi_value a + bi_value b = 0)).
      { intros [P Q]. replace (bi_value a <? 0) with false in Na by lia. replace (bi_value b <? 0) with true in Nb by lia.
        unfold bi_add in E. rewrite Na, Nb in E. cbn [Bool.eqb] in E.
        destruct (bi_abs_wf a Ba) as [Ca2 Va2]. destruct (bi_abs_wf b Bb) as [Cb2 Vb2].
        rewrite bi_gt_spec in E by (try apply canon_wf; auto). cbn [bi_abs bi_digits] in E.
        rewrite <- !abs_value in E by assumption. replace (Z.abs (bi_value b) <? Z.abs (bi_value a)) with false in E by lia.
        apply bind_Ok in E as (q & _ & E). injection E as <-. cbn [bi_neg] in Nr. replace (bi_value a + bi_value b <? 0) with false in Nr by lia. congruence. }
      split; [|exact K]. destruct (Z.ltb_spec (bi_value a) 0), (Z.ltb_spec (bi_value b) 0); cbn [Bool.eqb] in V; try lia.
      destruct (Z.ltb_spec (Z.abs (bi_value b)) (Z.abs (bi_value a))); lia.
    + destruct (bi_sub_spec a b Ba Bb) as (r' & E' & W & V & _). rewrite E in E'. injection E' as <-.
      apply shows_value in S; [|exact W]. injection M as <-. rewrite <- S in V. subst x y.
      unfold sub_result in V. rewrite Na, Nb in V.
      destruct (Z.ltb_spec (bi_value a) 0), (Z.ltb_spec (bi_value b) 0); cbn [Bool.eqb] in V; lia.
    + destruct (Z.eqb_spec y 0); [now left|]. injection M as <-. destruct (bi_mod_spec a b Ba Bb) as (r' & E' & W & V & N); [congruence|].
      rewrite E in E'. injection E' as <-. apply reads_back_canon in R; [|exact W]. right.
      destruct (Z.ltb_spec (bi_value a) 0); [|left; lia]. right. subst x y. rewrite <- V. intros Q.
      pose proof (canon_sign r R) as Nr. rewrite Q in Nr. cbn in Nr. congruence.
  - intros Fi. subst x y. pose proof (binary_fine o a b Ra Rb Fi) as H. rewrite M in H. destruct H as (r' & E' & C & V).
    rewrite E in E'. injection E' as <-. split; [subst z; apply shows_wf, C|now apply canon_reads_back].
Qed.
Print Assumptions C135_exact_partial.
(** (3 - 8) + 2 shows 3. *)
Theorem C135_negative_refuted : exists e z b, means e (Some z) /\ (forall fuel, run fuel e = Ok b) /\ ~ shows b z.
Proof.
  exists (XBin OAdd (XBin OSub (XInt 3) (XInt 8)) (XInt 2)), (-3), (int_lit 3). split; [|split; [reflexivity|]].
  - apply (m_binary OAdd _ _ (-5) 2); [apply (m_binary OSub _ _ 3 8)|]; apply m_int; lia.
  - apply (not_shows _ 3); [apply int_lit_shows|lia].
Qed.
Print Assumptions C135_negative_refuted.
(** Sqrt(20 * 20 + 21 * 21 - 0) % 10 ^ 2, and 7 / (5 - 5) *)
Example C135_ex :
  let e := XBin OMod (XUn USqrt (XBin OSub (XBin OAdd (XBin OMul (XInt 20) (XInt 20)) (XUn USqr (XInt (-21)))) (XText [48; 48]%N))) (XUn (UPow 2) (XInt 5)) in
  (means e (Some 4) /\ tame e /\ run 40 e = Ok (int_lit 4)) /\
  let d := XBin ODiv (XInt 7) (XBin OSub (XInt 5) (XInt 5)) in means d None /\ natural d /\ run 0 d = Throw EInvalidArgument.
Proof.
  cbv zeta. assert (I : forall z x, means (XInt z) (Some x) -> x = z) by (intros z x H; inversion H; auto).
  assert (T0 : int_numeral [48; 48]%N 0) by (apply (num_plain [48; 48]%N); [discriminate|repeat constructor; discriminate]).
  assert (D : forall e r, means e r -> forall r', means e r' -> r = r').
  { induction 1; inversion 1; subst; auto; repeat match goal with IH : forall r', means ?a r' -> Some _ = r' , H : means ?a _ |- _ => apply IH in H; try discriminate H; injection H as <- 
      | IH : forall r', means ?a r' -> None = r' , H : means ?a _ |- _ => apply IH in H; discriminate H end; auto.
    f_equal. eapply int_numeral_fun; eauto. }
  split.
  - assert (M1 : means (XBin OAdd (XBin OMul (XInt 20) (XInt 20)) (XUn USqr (XInt (-21)))) (Some 841)).
    { apply (m_binary OAdd _ _ 400 441); [apply (m_binary OMul _ _ 20 20); apply m_int; lia|].
      apply (m_unary USqr _ (-21)); [discriminate|apply m_int; lia]. }
    assert (M2 : means (XBin OSub (XBin OAdd (XBin OMul (XInt 20) (XInt 20)) (XUn USqr (XInt (-21)))) (XText [48; 48]%N)) (Some 841)).
    { apply (m_binary OSub _ _ 841 0); [exact M1|now apply m_text]. }
    assert (M3 : means (XUn USqrt (XBin OSub (XBin OAdd (XBin OMul (XInt 20) (XInt 20)) (XUn USqr (XInt (-21)))) (XText [48; 48]%N))) (Some 29)).
    { apply (m_unary USqrt _ 841); [discriminate|exact M2]. }
    assert (M4 : means (XUn (UPow 2) (XInt 5)) (Some 25)).
    { apply (m_unary (UPow 2) _ 5); [intros e H; injection H as <-; discriminate|apply m_int; lia]. }
    split; [apply (m_binary OMod _ _ 29 25); assumption|]. split; [|vm_compute; reflexivity].
    cbn [tame fine]. repeat match goal with |- _ /\ _ => split end; try exact Logic.I; intros x y X Y; [exact Logic.I| | |].
    + assert (A : means (XBin OMul (XInt 20) (XInt 20)) (Some 400)) by (apply (m_binary OMul _ _ 20 20); apply m_int; lia).
      assert (B : means (XUn USqr (XInt (-21))) (Some 441)) by (apply (m_unary USqr _ (-21)); [discriminate|apply m_int; lia]).
      pose proof (D _ _ A _ X) as Q1. pose proof (D _ _ B _ Y) as Q2. injection Q1 as <-. injection Q2 as <-. lia.
    + pose proof (D _ _ M1 _ X) as Q1. pose proof (D _ _ (m_text _ _ T0) _ Y) as Q2. injection Q1 as <-. injection Q2 as <-. lia.
    + pose proof (D _ _ M3 _ X) as Q1. injection Q1 as <-. lia.
  - assert (S5 : means (XBin OSub (XInt 5) (XInt 5)) (Some 0)) by (apply (m_binary OSub _ _ 5 5); apply m_int; lia).
    assert (M : means (XBin ODiv (XInt 7) (XBin OSub (XInt 5) (XInt 5))) None) by (apply (m_binary ODiv _ _ 7 0); [apply m_int; lia|exact S5]).
    split; [exact M|]. split; [|reflexivity]. cbn [natural]. repeat match goal with |- _ /\ _ => split end; try exact Logic.I; intros z H.
    + pose proof (D _ _ M _ H). discriminate.
    + apply I in H. lia.
    + pose proof (D _ _ S5 _ H) as Q. injection Q as <-. lia.
    + apply I in H. lia.
    + apply I in H. lia.
Qed.
