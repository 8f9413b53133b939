(** Proofs about SharedPtr. *)
From Coq Require Import List NArith Arith Bool Lia ZifyBool ZifyN ZifyNat.
From Verif Require Import Outcome SharedPtr.
Import ListNotations.

Lemma fset_same {A} (m : nat -> A) x v : fset m x v x = v.
Proof. unfold fset. now rewrite Nat.eqb_refl. Qed.
Lemma fset_other {A} (m : nat -> A) x v y : y <> x -> fset m x v y = m y.
Proof. intros N. unfold fset. now apply Nat.eqb_neq in N as ->. Qed.
Lemma mem_in i l : mem i l = true <-> In i l.
Proof.
  unfold mem. rewrite existsb_exists. split.
  - intros (y & I & E). now apply Nat.eqb_eq in E as ->.
  - intros I. exists i. now rewrite Nat.eqb_refl.
Qed.

(** Counting. *)
Lemma number_ext (P Q : nat -> Prop) n : (forall x, P x <-> Q x) -> number_of P n -> number_of Q n.
Proof. intros E (l & N & I & L). exists l. split; [assumption|]. split; [|assumption]. intros x. now rewrite I. Qed.
Lemma number_add (P Q : nat -> Prop) n x : ~ P x -> (forall z, Q z <-> z = x \/ P z) -> number_of P n -> number_of Q (n + 1).
Proof.
  intros Nx E (l & N & I & L). exists (x :: l). split; [constructor; [now rewrite I|assumption]|]. split.
  - intros z. rewrite E. cbn. rewrite I. intuition.
  - cbn [length]. lia.
Qed.
Lemma number_remove (P Q : nat -> Prop) n x : P x -> (forall z, Q z <-> z <> x /\ P z) -> number_of P n -> (0 < n)%N /\ number_of Q (n - 1).
Proof.
  intros Px E (l & N & I & L). apply I in Px. destruct (in_split _ _ Px) as (l1 & l2 & ->).
  pose proof (NoDup_remove _ _ _ N) as [N1 N2]. rewrite app_length in L. cbn in L. split; [lia|].
  exists (l1 ++ l2). split; [assumption|]. split; [|rewrite app_length; lia].
  intros z. rewrite E, <- I. rewrite !in_app_iff in *. cbn. split.
  - intros H. split; [intros ->; tauto|tauto].
  - intros [H [H1|[H1|H1]]]; auto. congruence.
Qed.
Lemma number_unique (P : nat -> Prop) n m : number_of P n -> number_of P m -> n = m.
Proof.
  intros (l & N & I & L) (l' & N' & I' & L').
  assert (length l = length l'); [|lia].
  apply Nat.le_antisymm; apply NoDup_incl_length; try assumption; intros z; rewrite I, I'; auto.
Qed.
Lemma number_zero (P : nat -> Prop) : (forall x, ~ P x) -> number_of P 0.
Proof. intros H. exists []. split; [constructor|]. split; [|reflexivity]. intros x. split; [intros []|apply H]. Qed.

(** Calls in progress other than the one considered. *)
Definition rbusy (rest : list (sop * list instr)) (x : nat) : Prop := exists p, In p rest /\ target (fst p) = x.

(** The counters are right when [hole] is not counted. *)
Record V (s : sstate) (rest : list (sop * list instr)) (hole : option nat) : Prop := {
  v_sdel : sdel s = [];
  v_cdel : cdel s = [];
  v_bound : forall x o, svars s x = Some (Some o) -> o < smade s;
  v_count : forall o, o < smade s -> number_of (fun z => svars s z = Some (Some o) /\ ~ rbusy rest z /\ hole <> Some z) (counts s o) }.

Lemma v_release s rest x p : V s rest None -> svars s x = Some p -> ~ rbusy rest x ->
  exists s', iexec s (IRelease x) = Ok (s', []) /\ V s' rest (Some x) /\ svars s' = svars s /\ pend s' = pend s.
Proof.
  intros [SD CD BO CO] X B. cbn. rewrite X. destruct p as [o|].
  - rewrite CD. cbn. pose proof (CO o (BO _ _ X)) as C.
    assert (R : forall z, (svars s z = Some (Some o) /\ ~ rbusy rest z /\ Some x <> Some z) <->
      z <> x /\ (svars s z = Some (Some o) /\ ~ rbusy rest z /\ @None nat <> Some z)).
    { intros z. split.
      - intros (H1 & H2 & H3). split; [congruence|]. repeat split; auto; discriminate.
      - intros (H1 & H2 & H3 & _). repeat split; auto. congruence. }
    assert (Px : svars s x = Some (Some o) /\ ~ rbusy rest x /\ @None nat <> Some x) by (split; [exact X|split; [exact B|discriminate]]).
    pose proof (number_remove _ _ _ x Px R C) as [Pos C'].
    destruct (N.eqb_spec (counts s o) 0) as [E|_]; [lia|].
    eexists. split; [reflexivity|]. split; [|split; reflexivity]. constructor; cbn; try assumption.
    intros o' Ho'. unfold fset. destruct (Nat.eqb_spec o' o) as [->|N]; [exact C'|].
    eapply number_ext; [|apply CO; exact Ho']. intros z. cbn. split.
    + intros (H1 & H2 & _). repeat split; auto. congruence.
    + intros (H1 & H2 & _). repeat split; auto. discriminate.
  - eexists. split; [reflexivity|]. split; [|split; reflexivity]. constructor; try assumption.
    intros o Ho. eapply number_ext; [|apply CO; exact Ho]. intros z. cbn. split.
    + intros (H1 & H2 & _). repeat split; auto. congruence.
    + intros (H1 & H2 & _). repeat split; auto. discriminate.
Qed.

(** A variable that does not point to an object may be counted or not. *)
Lemma v_hole s rest x : (forall o, svars s x <> Some (Some o)) -> V s rest None <-> V s rest (Some x).
Proof.
  intros H. split; intros [SD CD BO CO]; constructor; try assumption; intros o Ho;
  (eapply number_ext; [|apply CO; exact Ho]); intros z; cbn; split; intros (H1 & H2 & H3); repeat split; auto; try discriminate.
  all: intros E; injection E as ->; now apply (H o).
Qed.

Lemma v_copy s rest x y p : V s rest (Some x) -> svars s y = Some p -> V (set_var s x (Some p)) rest (Some x).
Proof.
  intros [SD CD BO CO] Y. constructor; cbn; try assumption.
  - intros z o. unfold fset. destruct (Nat.eqb_spec z x) as [->|N]; [|apply BO]. intros H. injection H as ->. now apply (BO y).
  - intros o Ho. eapply number_ext; [|apply CO; exact Ho]. intros z. cbn. unfold fset.
    destruct (Nat.eqb_spec z x) as [->|N]; [|tauto]. split; intros (_ & _ & C); congruence.
Qed.
Lemma v_set s rest x v : V s rest (Some x) -> (forall o, v <> Some (Some o)) -> V (set_var s x v) rest None.
Proof.
  intros [SD CD BO CO] Y. constructor; cbn; try assumption.
  - intros z o. unfold fset. destruct (Nat.eqb_spec z x) as [->|N]; [|apply BO]. intros H. now apply Y in H.
  - intros o Ho. eapply number_ext; [|apply CO; exact Ho]. intros z. cbn. unfold fset.
    destruct (Nat.eqb_spec z x) as [->|N].
    + split; [intros (_ & _ & C); congruence|]. intros (C & _). now apply Y in C.
    + split; intros (H1 & H2 & _); repeat split; auto; congruence.
Qed.
Lemma v_inc s rest x o : V s rest (Some x) -> svars s x = Some (Some o) -> ~ rbusy rest x ->
  V (set_count s o (counts s o + 1)) rest None.
Proof.
  intros [SD CD BO CO] X B. constructor; cbn; try assumption.
  intros o' Ho'. unfold fset. destruct (Nat.eqb_spec o' o) as [->|N].
  - eapply number_add with (x := x); [| |exact (CO o Ho')].
    + cbn. intros (_ & _ & C). now apply C.
    + intros z. cbn. split.
      * intros (H1 & H2 & _). destruct (Nat.eq_dec z x) as [|Nz]; [now left|]. right. repeat split; auto. congruence.
      * intros [->|(H1 & H2 & H3)]; repeat split; auto; discriminate.
  - eapply number_ext; [|apply CO; exact Ho']. intros z. cbn. split.
    + intros (H1 & H2 & _). repeat split; auto. discriminate.
    + intros (H1 & H2 & _). repeat split; auto. intros E. injection E as ->. congruence.
Qed.
Lemma v_new s rest x : V s rest (Some x) -> ~ rbusy rest x ->
  V (SState (fset (svars s) x (Some (Some (smade s)))) (fset (counts s) (smade s) 1%N) (S (smade s)) (sdel s) (cdel s) (pend s)) rest None.
Proof.
  intros [SD CD BO CO] B. constructor; cbn; try assumption.
  - intros z o. unfold fset. destruct (Nat.eqb_spec z x) as [->|N]; [intros H; injection H as <-; lia|]. intros H. apply BO in H. lia.
  - intros o Ho. unfold fset at 2. destruct (Nat.eqb_spec o (smade s)) as [->|N].
    + exists [x]. split; [repeat constructor; intros []|]. split; [|reflexivity]. intros z. unfold fset. cbn.
      destruct (Nat.eqb_spec z x) as [->|Nz].
      * split; [|auto]. intros _. repeat split; auto. discriminate.
      * split; [intros [C|[]]; congruence|]. intros (H & _). apply BO in H. lia.
    + eapply number_ext; [|apply (CO o); lia]. intros z. cbn. unfold fset. destruct (Nat.eqb_spec z x) as [->|Nz].
      * split; [intros (_ & _ & C); congruence|]. intros (H & _). congruence.
      * split; intros (H1 & H2 & _); repeat split; auto; congruence.
Qed.
Lemma v_move s rest x y p : V s rest (Some x) -> x <> y -> svars s y = Some p -> ~ rbusy rest x -> ~ rbusy rest y ->
  V (set_var (set_var s x (Some p)) y (Some None)) rest None.
Proof.
  intros [SD CD BO CO] XY Y Bx By. constructor; cbn; try assumption.
  - intros z o. unfold fset. destruct (Nat.eqb_spec z y) as [->|N]; [discriminate|].
    destruct (Nat.eqb_spec z x) as [->|Nx]; [|apply BO]. intros H. injection H as ->. now apply (BO y).
  - intros o Ho.
    assert (E : forall z, fset (fset (svars s) x (Some p)) y (Some None) z = Some (Some o) <->
      (z = x /\ p = Some o) \/ (z <> x /\ z <> y /\ svars s z = Some (Some o))).
    { intros z. unfold fset. destruct (Nat.eqb_spec z y) as [->|Ny].
      - split; [discriminate|]. intros [[? _]|(_ & ? & _)]; congruence.
      - destruct (Nat.eqb_spec z x) as [->|Nx]; [|tauto]. split; [intros H; injection H as ->; auto|].
        intros [[_ ->]|(? & _)]; [reflexivity|congruence]. }
    specialize (CO o Ho). destruct p as [q|].
    + destruct (Nat.eq_dec q o) as [->|Nq].
      * assert (C1 : number_of (fun z => z <> y /\ svars s z = Some (Some o) /\ ~ rbusy rest z /\ Some x <> Some z) (counts s o - 1) /\ (0 < counts s o)%N).
        { apply and_comm. eapply number_remove with (x := y); [| |exact CO]; cbn; [repeat split; auto; congruence|]. tauto. }
        destruct C1 as [C1 Pos]. replace (counts s o) with ((counts s o - 1) + 1)%N by lia.
        eapply number_add with (x := x); [| |exact C1]; cbn.
        -- intros (_ & _ & _ & C). now apply C.
        -- intros z. rewrite E. split.
           ++ intros ([[-> _]|(H1 & H2 & H3)] & H4 & _); [now left|]. right. repeat split; auto. congruence.
           ++ intros [->|(H1 & H2 & H3 & H4)]; repeat split; auto; try discriminate. right. repeat split; auto; congruence.
      * eapply number_ext; [|exact CO]. intros z. cbn. rewrite E. split.
        -- intros (H1 & H2 & H3). repeat split; auto; [|discriminate]. right. repeat split; congruence.
        -- intros ([[_ H]|(H1 & H2 & H3)] & H4 & _); [congruence|]. repeat split; auto. congruence.
    + eapply number_ext; [|exact CO]. intros z. cbn. rewrite E. split.
      * intros (H1 & H2 & H3). repeat split; auto; [|discriminate]. right. repeat split; congruence.
      * intros ([[_ H]|(H1 & H2 & H3)] & H4 & _); [congruence|]. repeat split; auto. congruence.
Qed.

(** What a call in progress still has to do. *)
Definition shape (s : sstate) (p : sop * list instr) : Prop :=
  match fst p with
  | SCopy x y => snd p = [IInc x] /\ x <> y /\ svars s y <> None /\ svars s x = svars s y
  | SAssign x y => x <> y /\ svars s x <> None /\ svars s y <> None /\
      (snd p = [ICopy x y; IIncIf x] \/ (snd p = [IIncIf x] /\ svars s x = svars s y))
  | SMoveAssign x y => x <> y /\ svars s x <> None /\ svars s y <> None /\ snd p = [IMove x y]
  | SReset x => snd p = [ISetNull x]
  | SResetNew x => snd p = [ISetNew x]
  | SDestroy x => snd p = [IDrop x]
  | _ => False
  end.
Definition uses (o : sop) : list nat := writes o ++ reads o.
Lemma shape_frame s s' p : (forall z, In z (uses (fst p)) -> svars s' z = svars s z) -> shape s p -> shape s' p.
Proof.
  intros F. unfold shape, uses in *. destruct p as [o c]. cbn [fst snd] in *.
  destruct o as [x|x|x y|x y|x|x y|x y|x|x|x|x]; cbn in F; auto.
  - intros (H1 & H2 & H3 & H4). rewrite (F x), (F y) by auto. auto.
  - intros (H1 & H2 & H3 & H4). apply Nat.eqb_neq in H1 as H1'. rewrite H1' in F. cbn in F. rewrite (F x), (F y) by auto. auto.
  - intros (H1 & H2 & H3 & H4). apply Nat.eqb_neq in H1 as H1'. rewrite H1' in F. cbn in F. rewrite (F x), (F y) by auto. auto.
Qed.
Lemma shape_target s p : shape s p -> In (target (fst p)) (writes (fst p)).
Proof.
  unfold shape. destruct p as [o c]. cbn [fst snd]. destruct o as [x|x|x y|x y|x|x y|x y|x|x|x|x]; cbn; auto; intros [H _];
  apply Nat.eqb_neq in H; rewrite H; cbn; auto.
Qed.

Lemma overlap_false l m : overlap l m = false <-> forall z, In z l -> ~ In z m.
Proof.
  unfold overlap. induction l as [|a l IH]; cbn; [split; [tauto|reflexivity]|].
  rewrite orb_false_iff, IH. split.
  - intros [H1 H2] z [<-|I]; [|auto]. intros C. apply mem_in in C. congruence.
  - intros H. split; [|auto]. destruct (mem a m) eqn:E; [|reflexivity]. apply mem_in in E. exfalso. exact (H a (or_introl eq_refl) E).
Qed.
Lemma no_conflict o p : conflict o p = false -> (forall z, In z (writes o) -> ~ In z (uses p)) /\ (forall z, In z (writes p) -> ~ In z (uses o)).
Proof. unfold conflict. rewrite orb_false_iff, !overlap_false. auto. Qed.
Lemma conflict_sym o p : conflict o p = conflict p o.
Proof. unfold conflict. apply orb_comm. Qed.

Definition nc (p q : sop * list instr) : Prop := conflict (fst p) (fst q) = false.
Fixpoint pairwise (l : list (sop * list instr)) : Prop :=
  match l with [] => True | p :: r => Forall (nc p) r /\ pairwise r end.
Lemma pairwise_mid l1 e l2 : pairwise (l1 ++ e :: l2) <-> Forall (nc e) (l1 ++ l2) /\ pairwise (l1 ++ l2).
Proof.
  induction l1 as [|p l1 IH]; cbn; [tauto|]. rewrite IH, !Forall_app, !Forall_cons_iff, Forall_app. unfold nc.
  rewrite (conflict_sym (fst e) (fst p)). tauto.
Qed.

Record inv (s : sstate) : Prop := {
  iv_v : V s (pend s) None;
  iv_shape : Forall (shape s) (pend s);
  iv_pair : pairwise (pend s) }.

Lemma inv0 : inv sstate0.
Proof.
  constructor; cbn; auto. constructor; cbn; auto; try discriminate. intros. lia.
Qed.

(** A call in progress between the others: its target is not counted. *)
Lemma v_split s l1 o c l2 : In (target o) (writes o) -> Forall (nc (o, c)) (l1 ++ l2) ->
  V s (l1 ++ (o, c) :: l2) None <-> V s (l1 ++ l2) (Some (target o)).
Proof.
  intros T F.
  assert (B : forall z, rbusy (l1 ++ (o, c) :: l2) z <-> rbusy (l1 ++ l2) z \/ target o = z).
  { intros z. unfold rbusy. split.
    - intros (p & I & H). rewrite in_app_iff in I. cbn in I. destruct I as [I|[<-|I]]; [left|now right|left]; exists p; rewrite in_app_iff; auto.
    - intros [(p & I & H)|H]; [|exists (o, c); rewrite in_app_iff; cbn; auto].
      exists p. rewrite in_app_iff in *. cbn. tauto. }
  split; intros [SD CD BO CO]; constructor; try assumption; intros q Hq; (eapply number_ext; [|apply CO; exact Hq]);
  intros z; cbn; rewrite B; split.
  - intros (H1 & H2 & _). repeat split; auto. intros E. injection E as E. auto.
  - intros (H1 & H2 & H3). repeat split; auto; [|discriminate]. intros [C|C]; [auto|]. now rewrite C in H3.
  - intros (H1 & H2 & H3). repeat split; auto; [|discriminate]. intros [C|C]; [auto|]. now rewrite C in H3.
  - intros (H1 & H2 & _). repeat split; auto. intros E. injection E as E. auto.
Qed.

Lemma not_rbusy s o rest z : Forall (fun p => conflict o (fst p) = false) rest -> Forall (shape s) rest ->
  In z (uses o) -> ~ rbusy rest z.
Proof.
  intros F Sh U (p & I & T). rewrite Forall_forall in F, Sh. pose proof (no_conflict _ _ (F _ I)) as [_ H].
  apply (H z); [|assumption]. rewrite <- T. apply shape_target with (s := s). now apply Sh.
Qed.

(** Rebuilding the invariant after an instruction of [o]. *)
Lemma rebuild s s' l1 l2 o c :
  Forall (fun p => conflict o (fst p) = false) (l1 ++ l2) -> Forall (shape s) (l1 ++ l2) -> pairwise (l1 ++ l2) ->
  (forall z, ~ In z (writes o) -> svars s' z = svars s z) ->
  (c = [] /\ V s' (l1 ++ l2) None \/
   c <> [] /\ V s' (l1 ++ l2) (Some (target o)) /\ shape s' (o, c)) ->
  inv (set_pend s' (l1 ++ residue o c ++ l2)).
Proof.
  intros F Sh P W C.
  assert (Sh' : Forall (shape s') (l1 ++ l2)).
  { rewrite Forall_forall in *. intros p I. apply shape_frame with (s := s); [|now apply Sh].
    intros z U. apply W. intros Wz. pose proof (no_conflict _ _ (F _ I)) as [H _]. now apply (H z). }
  assert (E : forall q, V s' q None -> V (set_pend s' q) q None) by (intros q [A B D G]; constructor; assumption).
  assert (ES : forall q l, Forall (shape s') l -> Forall (shape (set_pend s' q)) l).
  { intros q l H. apply Forall_forall. rewrite Forall_forall in H. intros p I. apply shape_frame with (s := s'); auto. }
  destruct C as [[-> V']|(N & V' & S')].
  - cbn. constructor; cbn; auto.
  - destruct c as [|i c]; [congruence|]. cbn [residue app].
    assert (F' : Forall (nc (o, i :: c)) (l1 ++ l2)) by exact F.
    pose proof (shape_target _ _ S') as T. cbn in T.
    constructor; cbn [pend set_pend].
    + apply E. apply v_split; auto.
    + apply ES. apply Forall_app in Sh' as [A B]. apply Forall_app. split; [assumption|]. constructor; assumption.
    + apply pairwise_mid. auto.
Qed.

(** The undefined case: the increment of a copy of a null pointer. *)
Definition null_copy (s : sstate) (e : event) : Prop :=
  exists n x y, e = ERun n /\ nth_error (pend s) n = Some (SCopy x y, [IInc x]) /\
    svars s x = Some None /\ svars s y = Some None.

Lemma exists_true s x : exists_ s x = true -> exists p, svars s x = Some p.
Proof. unfold exists_. destruct (svars s x); [eauto|discriminate]. Qed.
Lemma exists_false s x : exists_ s x = false -> svars s x = None.
Proof. unfold exists_. destruct (svars s x); [discriminate|reflexivity]. Qed.

Ltac outside := intros ? ?; cbn [svars set_var set_count]; unfold fset;
  repeat match goal with |- context [Nat.eqb ?a ?b] => destruct (Nat.eqb_spec a b); subst end; auto;
  try (exfalso; match goal with H : ~ In _ _ |- _ => apply H; cbn; auto end).

Lemma start_inv s o : inv s -> allowed s (EStart o) = true -> exists s', sstep s (EStart o) = Ok s' /\ inv s'.
Proof.
  intros I A. cbn in A. apply andb_true_iff in A as [Sc Cf].
  destruct I as [Iv Is Ip].
  assert (F : Forall (fun p => conflict o (fst p) = false) (pend s ++ [])).
  { rewrite app_nil_r. rewrite Forall_forall. rewrite forallb_forall in Cf. intros [p c] Hp. apply Cf in Hp. now apply negb_true_iff in Hp. }
  rewrite <- (app_nil_r (pend s)) in Is, Ip, Iv.
  pose proof (fun z => not_rbusy s o _ z F Is) as NB.
  assert (RB : forall s' c,
    (forall z, ~ In z (writes o) -> svars s' z = svars s z) ->
    (c = [] /\ V s' (pend s ++ []) None \/ c <> [] /\ V s' (pend s ++ []) (Some (target o)) /\ shape s' (o, c)) ->
    inv (set_pend s' (pend s ++ residue o c))).
  { intros s' c W C. rewrite <- (app_nil_r (residue o c)). eapply rebuild; eassumption. }
  destruct o as [x|x|x y|x y|x|x y|x y|x|x|x|x]; cbn [sstep code in_scope] in *.
  - apply negb_true_iff, exists_false in Sc. cbn. eexists. split; [reflexivity|]. apply (RB _ []); [outside|]. left. split; [reflexivity|].
    apply v_set; [|discriminate]. apply v_hole; [let o := fresh in let H := fresh in intros o H; cbn in H; congruence|assumption].
  - apply negb_true_iff, exists_false in Sc. cbn. eexists. split; [reflexivity|]. apply (RB _ []); [outside|]. left. split; [reflexivity|].
    apply v_new; [|apply NB; cbn; auto]. apply v_hole; [let o := fresh in let H := fresh in intros o H; cbn in H; congruence|assumption].
  - apply andb_true_iff in Sc as [Nx Hy]. apply negb_true_iff, exists_false in Nx. apply exists_true in Hy as [p Hy].
    cbn. rewrite Hy. cbn. eexists. split; [reflexivity|]. apply (RB _ [IInc x]); [outside|]. right. split; [discriminate|]. split.
    + apply v_copy with (y := y); [|assumption]. apply v_hole; [let o := fresh in let H := fresh in intros o H; cbn in H; congruence|assumption].
    + cbn. assert (x <> y) by congruence. rewrite fset_same, fset_other by congruence. repeat split; auto; congruence.
  - apply andb_true_iff in Sc as [Nx Hy]. apply negb_true_iff, exists_false in Nx. apply exists_true in Hy as [p Hy].
    cbn. rewrite Hy. cbn. eexists. split; [reflexivity|]. apply (RB _ []); [outside|]. left. split; [reflexivity|].
    apply v_move; [apply v_hole; [let o := fresh in let H := fresh in intros o H; cbn in H; congruence|assumption]|congruence|assumption|apply NB; cbn; auto|apply NB; cbn; auto].
  - apply exists_true in Sc as [p Hx].
    destruct (v_release s _ x p Iv Hx) as (s' & E & V' & Sv & _); [apply NB; cbn; auto|].
    cbn [bind]. rewrite E. cbn. eexists. split; [reflexivity|]. apply (RB _ [IDrop x]); [intros; now rewrite Sv|]. right. split; [discriminate|]. split; [exact V'|reflexivity].
  - apply andb_true_iff in Sc as [Hx Hy]. apply exists_true in Hx as [p Hx]. apply exists_true in Hy as [q Hy].
    destruct (Nat.eqb_spec x y) as [->|N]; [exists s; split; [reflexivity|rewrite app_nil_r in *; constructor; assumption]|].
    destruct (v_release s _ x p Iv Hx) as (s' & E & V' & Sv & _); [apply NB; unfold uses; cbn; apply Nat.eqb_neq in N as ->; cbn; auto|].
    rewrite E. cbn. eexists. split; [reflexivity|]. apply (RB _ [ICopy x y; IIncIf x]); [intros; now rewrite Sv|]. right. split; [discriminate|]. split; [exact V'|].
    cbn. rewrite Sv. repeat split; auto; congruence.
  - apply andb_true_iff in Sc as [Hx Hy]. apply exists_true in Hx as [p Hx]. apply exists_true in Hy as [q Hy].
    destruct (Nat.eqb_spec x y) as [->|N]; [exists s; split; [reflexivity|rewrite app_nil_r in *; constructor; assumption]|].
    destruct (v_release s _ x p Iv Hx) as (s' & E & V' & Sv & _); [apply NB; unfold uses; cbn; apply Nat.eqb_neq in N as ->; cbn; auto|].
    rewrite E. cbn. eexists. split; [reflexivity|]. apply (RB _ [IMove x y]); [intros; now rewrite Sv|]. right. split; [discriminate|]. split; [exact V'|].
    cbn. rewrite Sv. repeat split; auto; congruence.
  - apply exists_true in Sc as [p Hx]. rewrite Hx. destruct p as [q|]; [|exists s; split; [reflexivity|rewrite app_nil_r in *; constructor; assumption]].
    destruct (v_release s _ x (Some q) Iv Hx) as (s' & E & V' & Sv & _); [apply NB; cbn; auto|].
    rewrite E. cbn. eexists. split; [reflexivity|]. apply (RB _ [ISetNull x]); [intros; now rewrite Sv|]. right. split; [discriminate|]. split; [exact V'|reflexivity].
  - apply exists_true in Sc as [p Hx].
    destruct (v_release s _ x p Iv Hx) as (s' & E & V' & Sv & _); [apply NB; cbn; auto|].
    rewrite E. cbn. eexists. split; [reflexivity|]. apply (RB _ [ISetNew x]); [intros; now rewrite Sv|]. right. split; [discriminate|]. split; [exact V'|reflexivity].
  - exists s. split; [reflexivity|]. rewrite app_nil_r in *. constructor; assumption.
  - apply exists_true in Sc as [p Hx]. cbn. rewrite Hx.
    assert (inv (set_pend s (pend s ++ residue (SDeref x) []))) by (apply (RB _ []); [auto|left; auto]).
    destruct p as [q|]; [|cbn; eauto]. rewrite (v_sdel _ _ _ Iv). cbn. eauto.
Qed.

Lemma run_inv s n : inv s -> allowed s (ERun n) = true ->
  (exists s', sstep s (ERun n) = Ok s' /\ inv s') \/ (sstep s (ERun n) = UB /\ null_copy s (ERun n)).
Proof.
  intros [Iv Is Ip] A. cbn in A. apply Nat.ltb_lt in A.
  destruct (nth_error (pend s) n) as [[o c]|] eqn:Nth; [|apply nth_error_None in Nth; lia].
  destruct (nth_error_split _ _ Nth) as (l1 & l2 & P & L).
  cbn [sstep]. rewrite Nth.
  assert (FN : firstn n (pend s) = l1) by (rewrite P, <- L, firstn_app, Nat.sub_diag, firstn_all, firstn_O; apply app_nil_r).
  assert (SN : skipn (S n) (pend s) = l2).
  { rewrite P, <- L. change (l1 ++ (o, c) :: l2) with (l1 ++ [(o, c)] ++ l2). rewrite app_assoc.
    replace (S (length l1)) with (length (l1 ++ [(o, c)])) by (rewrite app_length; cbn; lia).
    rewrite skipn_app, Nat.sub_diag, skipn_all. reflexivity. }
  rewrite FN, SN.
  rewrite P in Iv, Is, Ip. apply pairwise_mid in Ip as [F Ip].
  assert (Sh : shape s (o, c)) by (apply Forall_app in Is as [_ Is]; now inversion Is).
  assert (Is' : Forall (shape s) (l1 ++ l2)) by (apply Forall_app in Is as [Is1 Is2]; apply Forall_app; split; [assumption|now inversion Is2]).
  pose proof (shape_target _ _ Sh) as T. cbn in T.
  apply (v_split s l1 o c l2 T F) in Iv.
  assert (F' : Forall (fun p => conflict o (fst p) = false) (l1 ++ l2)) by exact F.
  pose proof (fun z => not_rbusy s o _ z F' Is') as NB.
  assert (RB : forall s' c',
    (forall z, ~ In z (writes o) -> svars s' z = svars s z) ->
    (c' = [] /\ V s' (l1 ++ l2) None \/ c' <> [] /\ V s' (l1 ++ l2) (Some (target o)) /\ shape s' (o, c')) ->
    inv (set_pend s' (l1 ++ residue o c' ++ l2))).
  { intros s' c' W C. eapply rebuild; eassumption. }
  unfold shape in Sh. cbn [fst snd] in Sh.
  destruct o as [x|x|x y|x y|x|x y|x y|x|x|x|x]; cbn in Sh; try contradiction.
  - destruct Sh as (-> & XY & Hy & Hxy). cbn. destruct (svars s x) as [[q|]|] eqn:X; [| |congruence].
    + left. rewrite (v_cdel _ _ _ Iv). cbn. eexists. split; [reflexivity|]. apply (RB _ []); [outside|]. left. split; [reflexivity|].
      apply v_inc with (x := x); auto. apply NB. cbn. auto.
    + right. split; [reflexivity|]. exists n, x, y. auto.
  - subst c. left. cbn. eexists. split; [reflexivity|]. apply (RB _ []); [outside|]. left. split; [reflexivity|]. apply v_set; [assumption|discriminate].
  - left. destruct Sh as (XY & Hx & Hy & C). apply Nat.eqb_neq in XY as XY'. destruct C as [-> |[-> Hxy]].
    + cbn. destruct (svars s y) as [q|] eqn:Y; [|contradiction]. cbn. eexists. split; [reflexivity|].
      apply (RB _ [IIncIf x]); [|right; split; [discriminate|split]].
      * intros z Hz. cbn in Hz. rewrite XY' in Hz. cbn in Hz |- *. apply fset_other. intros ->. apply Hz. auto.
      * apply v_copy with (y := y); assumption.
      * cbn. rewrite fset_same, fset_other by congruence. rewrite Y. repeat split; auto; discriminate.
    + cbn. destruct (svars s x) as [[q|]|] eqn:X; [| |contradiction].
      * rewrite (v_cdel _ _ _ Iv). cbn. eexists. split; [reflexivity|]. apply (RB _ []); [outside|]. left. split; [reflexivity|].
        apply v_inc with (x := x); auto. apply NB. unfold uses. cbn. rewrite XY'. cbn. auto.
      * eexists. split; [reflexivity|]. apply (RB _ []); [auto|]. left. split; [reflexivity|]. eapply v_hole; [|exact Iv]. cbn. congruence.
  - left. destruct Sh as (XY & Hx & Hy & ->). apply Nat.eqb_neq in XY as XY'. cbn.
    destruct (svars s y) as [q|] eqn:Y; [|contradiction]. cbn. eexists. split; [reflexivity|]. apply (RB _ []).
    + intros z Hz. cbn in Hz. rewrite XY' in Hz. cbn in Hz |- *. rewrite !fset_other; [reflexivity| |]; intros ->; apply Hz; auto.
    + left. split; [reflexivity|]. apply v_move; auto; apply NB; unfold uses; cbn; rewrite XY'; cbn; auto.
  - subst c. left. cbn. eexists. split; [reflexivity|]. apply (RB _ []); [outside|]. left. split; [reflexivity|]. apply v_set; [assumption|discriminate].
  - subst c. left. cbn. eexists. split; [reflexivity|]. apply (RB _ []); [outside|]. left. split; [reflexivity|].
    apply v_new; [assumption|]. apply NB. cbn. auto.
Qed.

Lemma step_inv s e : inv s -> allowed s e = true ->
  (exists s', sstep s e = Ok s' /\ inv s') \/ (sstep s e = UB /\ null_copy s e).
Proof. intros I A. destruct e as [o|n]; [left; now apply start_inv|now apply run_inv]. Qed.

Lemma sexec_inv es : forall s r, inv s -> sexec s es = Some r ->
  (exists s', r = Ok s' /\ inv s') \/
  (r = UB /\ exists es1 e es2 s1, es = es1 ++ e :: es2 /\ sexec s es1 = Some (Ok s1) /\ null_copy s1 e).
Proof.
  induction es as [|e es IH]; intros s r I H; cbn in H; [injection H as <-; eauto|].
  destruct (allowed s e) eqn:A; [|discriminate].
  destruct (step_inv s e I A) as [(s' & E & I')|[E C]]; rewrite E in H.
  - destruct (IH s' r I' H) as [|(-> & es1 & e1 & es2 & s1 & -> & X & C)]; [auto|]. right. split; [reflexivity|].
    exists (e :: es1), e1, es2, s1. split; [reflexivity|]. split; [cbn; now rewrite A, E|assumption].
  - injection H as <-. right. split; [reflexivity|]. exists [], e, es, s. auto.
Qed.

(** The counter is the number of owners. *)
Lemma count_owners es s o : sexec sstate0 es = Some (Ok s) -> o < smade s -> number_of (owner s o) (counts s o).
Proof.
  intros H Ho. destruct (sexec_inv es _ _ inv0 H) as [(s' & E & I)|[E _]]; [|discriminate]. injection E as <-.
  eapply number_ext; [|exact (v_count _ _ _ (iv_v _ I) o Ho)]. intros z. unfold owner, busy. cbn. split.
  - intros (H1 & H2 & _). auto.
  - intros (H1 & H2). repeat split; auto. discriminate.
Qed.
Lemma never_deleted es s : sexec sstate0 es = Some (Ok s) -> sdel s = [] /\ cdel s = [].
Proof.
  intros H. destruct (sexec_inv es _ _ inv0 H) as [(s' & E & I)|[E _]]; [|discriminate]. injection E as <-.
  split; [apply (v_sdel _ _ _ (iv_v _ I))|apply (v_cdel _ _ _ (iv_v _ I))].
Qed.
Lemma only_null_copies es : forall r, sexec sstate0 es = Some r ->
  (exists s, r = Ok s) \/
  (r = UB /\ exists es1 e es2 s1, es = es1 ++ e :: es2 /\ sexec sstate0 es1 = Some (Ok s1) /\ null_copy s1 e).
Proof. intros r H. destruct (sexec_inv es _ _ inv0 H) as [(s' & E & I)|E]; eauto. Qed.

(** A variable changes only through the calls that write it. *)
Definition call_of (s : sstate) (e : event) : option sop :=
  match e with EStart o => Some o | ERun n => match nth_error (pend s) n with Some (o, _) => Some o | None => None end end.
Lemma step_frame s e s' w : inv s -> allowed s e = true -> sstep s e = Ok s' ->
  (forall o, call_of s e = Some o -> ~ In w (writes o)) -> svars s' w = svars s w.
Proof.
  intros I A E W. destruct e as [o|n]; cbn [call_of] in W.
  - specialize (W o eq_refl). cbn [sstep] in E.
    destruct o as [x|x|x y|x y|x|x y|x y|x|x|x|x]; cbn [code] in E; try (injection E as <-; reflexivity); cbn in W;
    try (destruct (Nat.eqb_spec x y) as [XY|XY]; [injection E as <-; reflexivity|apply Nat.eqb_neq in XY as XY'; try rewrite XY' in W; cbn in W]);
    try (cbn in E; destruct (svars s y) as [p|] eqn:Y; [|discriminate]; cbn in E; injection E as <-; cbn; rewrite ?fset_other by (intros ->; apply W; cbn; auto); reflexivity);
    try (cbn in E; injection E as <-; cbn; rewrite ?fset_other by (intros ->; apply W; cbn; auto); reflexivity);
    try (destruct (svars s x) as [[q|]|] eqn:X; try (injection E as <-; reflexivity));
    cbn in E; rewrite ?X in E; repeat match type of E with context [if ?b then _ else _] => destruct b end;
    repeat match type of E with context [match svars ?a ?b with _ => _ end] => destruct (svars a b) as [[?|]|] end;
    repeat match type of E with context [if ?b then _ else _] => destruct b end;
    try discriminate E; cbn in E; injection E as <-; reflexivity.
  - destruct I as [Iv Is _]. cbn in A. apply Nat.ltb_lt in A. cbn [sstep] in E.
    destruct (nth_error (pend s) n) as [[o c]|] eqn:Nth; [|apply nth_error_None in Nth; lia]. specialize (W o eq_refl).
    rewrite Forall_forall in Is. pose proof (Is _ (nth_error_In _ _ Nth)) as Sh. unfold shape in Sh. cbn [fst snd] in Sh.
    assert (SP : forall a p, svars (set_pend a p) w = svars a w) by reflexivity.
    destruct o as [x|x|x y|x y|x|x y|x y|x|x|x|x]; cbn in Sh; try contradiction; cbn in W.
    + destruct Sh as (-> & _). cbn in E. destruct (svars s x) as [[q|]|]; try discriminate E. destruct (mem q (cdel s)); [discriminate E|].
      cbn in E. injection E as <-. reflexivity.
    + subst c. cbn in E. injection E as <-. cbn. apply fset_other. intros ->. apply W. auto.
    + destruct Sh as (XY & _ & _ & C). apply Nat.eqb_neq in XY as XY'. rewrite XY' in W. cbn in W. destruct C as [-> |[-> _]]; cbn in E.
      * destruct (svars s y); [|discriminate E]. cbn in E. injection E as <-. cbn. apply fset_other. intros ->. apply W. auto.
      * destruct (svars s x) as [[q|]|]; try discriminate E; [destruct (mem q (cdel s)); [discriminate E|]|]; cbn in E; injection E as <-; reflexivity.
    + destruct Sh as (XY & _ & _ & ->). apply Nat.eqb_neq in XY as XY'. rewrite XY' in W. cbn in W, E.
      destruct (svars s y); [|discriminate E]. cbn in E. injection E as <-. cbn. rewrite !fset_other; [reflexivity| |]; intros ->; apply W; auto.
    + subst c. cbn in E. injection E as <-. cbn. apply fset_other. intros ->. apply W. auto.
    + subst c. cbn in E. injection E as <-. cbn. apply fset_other. intros ->. apply W. auto.
Qed.

(** A call that runs without interruption from a state with other calls in progress: its
    instructions are at the end of [pend]. *)
Lemma nth_last {A} (l : list A) e : nth_error (l ++ [e]) (length l) = Some e.
Proof. rewrite nth_error_app2, Nat.sub_diag by lia. reflexivity. Qed.
Lemma firstn_last {A} (l : list A) e : firstn (length l) (l ++ [e]) = l.
Proof. rewrite firstn_app, Nat.sub_diag, firstn_all, firstn_O. apply app_nil_r. Qed.
Lemma skipn_last {A} (l : list A) e : skipn (S (length l)) (l ++ [e]) = [].
Proof. apply skipn_all2. rewrite app_length. cbn. lia. Qed.
Lemma allowed_last s l e : pend s = l ++ [e] -> allowed s (ERun (length l)) = true.
Proof. intros E. cbn. rewrite E, app_length. cbn. apply Nat.ltb_lt. lia. Qed.

Lemma copy_null_ub s x y : allowed s (EStart (SCopy x y)) = true -> svars s y = Some None ->
  sexec s [EStart (SCopy x y); ERun (length (pend s))] = Some UB.
Proof.
  intros A Y. cbn [sexec]. rewrite A. cbn [sstep code iexec]. rewrite Y. cbn [bind app residue].
  rewrite (allowed_last _ (pend s) (SCopy x y, [IInc x])) by reflexivity.
  cbn [sstep pend set_pend]. rewrite nth_last. cbn. rewrite fset_same. reflexivity.
Qed.

Lemma assign_null_ok es s x y : sexec sstate0 es = Some (Ok s) -> allowed s (EStart (SAssign x y)) = true -> x <> y ->
  svars s y = Some None ->
  exists s', sexec s [EStart (SAssign x y); ERun (length (pend s)); ERun (length (pend s))] = Some (Ok s') /\
    svars s' x = Some None /\ svars s' y = Some None /\ pend s' = pend s.
Proof.
  intros H A N Y. destruct (sexec_inv es _ _ inv0 H) as [(s0 & E & I)|[E _]]; [|discriminate]. injection E as <-.
  pose proof (start_inv s _ I A) as (s1 & E1 & I1). cbn [sexec]. rewrite A, E1.
  cbn [sstep code] in E1. apply Nat.eqb_neq in N as N'. rewrite N' in E1.
  assert (S1 : pend s1 = pend s ++ [(SAssign x y, [ICopy x y; IIncIf x])] /\ svars s1 = svars s).
  { pose proof A as A'. cbn in A'. apply andb_true_iff in A' as [Sc Cf]. apply andb_true_iff in Sc as [Hx _]. apply exists_true in Hx as [p Hx].
    destruct (v_release s (pend s) x p (iv_v _ I) Hx) as (s2 & E2 & _ & Sv & _).
    - apply (not_rbusy s (SAssign x y)); [|exact (iv_shape _ I)|unfold uses; cbn; rewrite N'; cbn; auto].
      rewrite Forall_forall. rewrite forallb_forall in Cf. intros [q c] Hq. apply Cf in Hq. now apply negb_true_iff in Hq.
    - rewrite E2 in E1. cbn in E1. injection E1 as <-. cbn. auto. }
  destruct S1 as [P1 V1]. rewrite (allowed_last _ _ _ P1). cbn [sstep]. rewrite P1, nth_last. cbn [iexec]. rewrite V1, Y.
  cbn [bind app residue]. rewrite firstn_last, skipn_last.
  rewrite (allowed_last _ (pend s) (SAssign x y, [IIncIf x])) by reflexivity.
  cbn [sstep pend set_pend]. rewrite nth_last. cbn [iexec svars set_var set_pend]. rewrite fset_same. cbn [bind app residue].
  rewrite firstn_last, skipn_last, app_nil_r. eexists. split; [reflexivity|]. cbn. rewrite fset_same, fset_other, V1 by congruence. auto.
Qed.

Lemma frame es s e s' w : sexec sstate0 es = Some (Ok s) -> sexec s [e] = Some (Ok s') ->
  (forall o, call_of s e = Some o -> ~ In w (writes o)) -> svars s' w = svars s w.
Proof.
  intros H E W. destruct (sexec_inv es _ _ inv0 H) as [(s0 & Q & I)|[Q _]]; [|discriminate]. injection Q as <-.
  cbn in E. destruct (allowed s e) eqn:A; [|discriminate]. destruct (sstep s e) as [s1|x| |] eqn:S; try discriminate. injection E as ->.
  eapply step_frame; eassumption.
Qed.
