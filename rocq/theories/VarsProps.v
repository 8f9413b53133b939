(** Properties C126, C127: copying, moving and swapping BigIntegers, BigFloats and Strings. *)
From Coq Require Import List NArith ZArith Bool Arith Lia.
From Verif Require Import Outcome CharModel StrModel BigInt BigFloat SpecInt SpecUtf8 SpecStr StrProofs BigIntStates BigIntFacts BigIntProps
  Vars SpecVars VarsProofs.
Import ListNotations.

(** The integers that the operations of the program stand for; division by zero is refused, and so is what is no
    numeral and a negative exponent. *)
Local Open Scope Z_scope.
Definition numeral_value (t : list N) : option Z :=
  let value ds := match ds with [] => None | _ => if forallb (fun b => (48 <=? b)%N && (b <=? 57)%N) ds then Some (digits_value ds) else None end in
  match t with
  | 45%N :: ds => option_map Z.opp (value ds)
  | 43%N :: ds => value ds
  | _ => value t
  end.
Definition int_op (o : bi_op) (x y : Z) : option Z :=
  match o with
  | OpMul => Some (x * y)
  | OpDiv => if y =? 0 then None else Some (Z.quot x y)
  | OpAbs => Some (Z.abs y)
  | OpPow e => if e <? 0 then None else Some (y ^ e)
  | OpText t => numeral_value t
  end.
(** Exponents are ints; the texts are numerals. *)
Definition int_good (o : bi_op) (_ : bool) : Prop :=
  match o with OpPow e => e <= 2147483647 | OpText t => numeral_value t <> None | _ => True end.
Definition good_program (p : list (stmt bi_op)) : Prop := Forall (good_stmt int_good) p.

Lemma numeral_value_ok t z : numeral_value t = Some z -> int_numeral t z.
Proof.
  assert (V : forall ds z, match ds with [] => None | _ => if forallb (fun b => (48 <=? b)%N && (b <=? 57)%N) ds then Some (digits_value ds) else None end = Some z ->
    ds <> [] /\ Forall ascii_digit ds /\ z = digits_value ds).
  { intros ds z0 H. destruct ds as [|d r]; [discriminate|]. destruct (forallb _ (d :: r)) eqn:E; [|discriminate]. injection H as <-.
    split; [discriminate|]. split; [|reflexivity]. rewrite Forall_forall. rewrite forallb_forall in E. intros b I. specialize (E b I).
    apply andb_true_iff in E as [A B]. unfold ascii_digit. apply N.leb_le in A, B. lia. }
  intros H. unfold numeral_value in H.
  destruct t as [|b r]; [discriminate|].
  assert (K : b = 45%N \/ b = 43%N \/ (b <> 45%N /\ b <> 43%N)) by lia. destruct K as [->|[->|[Kn Kp]]].
  - destruct (match r with [] => None | _ => _ end) as [v|] eqn:E; cbn in H; [|discriminate]. injection H as <-.
    apply V in E as (N & F & ->). now apply num_minus.
  - apply V in H as (N & F & ->). now apply num_plus.
  - assert (H' : match b :: r with [] => None | _ => if forallb (fun b => (48 <=? b)%N && (b <=? 57)%N) (b :: r) then Some (digits_value (b :: r)) else None end = Some z).
    { destruct b as [|p]; [exact H|]. repeat (destruct p as [p|p|]; try exact H; try (exfalso; apply Kn; reflexivity); try (exfalso; apply Kp; reflexivity)). }
    apply V in H' as (N & F & ->). now apply num_plain.
Qed.

Definition int_rel (b : bigint) (z : Z) : Prop := built b /\ shows b z /\ reads_back b.
Lemma big_eta b : mkBig (bi_digits b) (bi_neg b) = b. Proof. now destruct b. Qed.
Lemma default_rel : int_rel bi_default 0.
Proof.
  split; [apply built_default|]. split; [exists [48%N]; split; [reflexivity|constructor]|].
  eexists _, _. split; [reflexivity|]. split; reflexivity.
Qed.
Lemma zero_is_default b : int_rel b 0 -> bi_equal b bi_default = true.
Proof.
  intros (B & S & Rd). destruct default_rel as (B' & S' & R').
  now rewrite (C48_equal_partial b bi_default 0 0 B B' S S' Rd R').
Qed.

(** C126.  Every program that declares, copies, moves, swaps, multiplies, divides and raises BigIntegers computes the
    integers it stands for, a BigInteger that was moved from being 0; and it ends with invalid_argument exactly when
    it divides by zero or uses a negative exponent. *)
Theorem C126_integer_programs : forall p, scoped 0 p -> good_program p ->
  match ideal 0 int_op (0%nat, fun _ => 0) p with
  | Some (n, value) => exists s, run bi_cls bi_apply [] p = Ok s /\ length s = n /\
      forall i b, nth_error s i = Some b -> shows b (value i) /\ reads_back b
  | None => run bi_cls bi_apply [] p = Throw EInvalidArgument
  end.
Proof.
  intros p S G.
  pose proof (run_refines bi_cls bi_apply 0 int_op int_rel int_good EInvalidArgument) as M.
  specialize (M default_rel).
  assert (M1 : forall a v, int_rel a v -> int_rel (copied bi_cls a) v) by (intros a v H; cbn; now rewrite big_eta).
  assert (M2 : forall a v, int_rel a v -> int_rel (fst (moved bi_cls a)) v /\ int_rel (snd (moved bi_cls a)) 0).
  { intros a v H. cbn. rewrite big_eta. split; [exact H|apply default_rel]. }
  assert (M3 : forall a v b w, int_rel a v -> int_rel b w -> int_rel (assigned bi_cls a b) w) by (intros a v b w _ H; cbn; now rewrite big_eta).
  assert (M4 : forall a v, int_rel a v -> int_rel (assigned_self bi_cls a) v) by auto.
  assert (M5 : forall a v b w, int_rel a v -> int_rel b w ->
    int_rel (fst (move_assigned bi_cls a b)) w /\ int_rel (snd (move_assigned bi_cls a b)) 0).
  { intros a v b w _ H. cbn. rewrite big_eta. split; [exact H|apply default_rel]. }
  assert (M6 : forall a v, int_rel a v -> int_rel (move_assigned_self bi_cls a) v) by auto.
  specialize (M M1 M2 M3 M4 M5 M6).
  assert (M7 : forall o self a v b w, int_good o self -> int_rel a v -> int_rel b w -> (self = true -> a = b /\ v = w) ->
    match int_op o v w with Some r => exists a', bi_apply o self a b = Ok a' /\ int_rel a' r | None => bi_apply o self a b = Throw EInvalidArgument end).
  { intros o self a v b w Go Ha Hb _. pose proof Ha as (Ba & Sa & Ra). pose proof Hb as (Bb & Sb & Rb).
    unfold bi_apply. destruct o as [| | |ex|t]; cbn [int_op].
    - destruct (C42_multiply a b v w Ba Bb Sa Sb) as (r & E & Sr & Rr). rewrite E. cbn [bind bi_move_assigned vec_moved fst]. rewrite big_eta.
      eexists. split; [reflexivity|]. split; [now apply built_mul with a b|auto].
    - destruct (w =? 0) eqn:Z0.
      + apply Z.eqb_eq in Z0 as ->. rewrite (C43_divide_by_zero a b); [reflexivity|]. now apply zero_is_default.
      + apply Z.eqb_neq in Z0. destruct (C43_divide a b v w Ba Bb Sa Sb Z0) as (r & E & Sr & Rr). rewrite E. cbn [bind bi_move_assigned vec_moved fst]. rewrite big_eta.
        eexists. split; [reflexivity|]. split; [|auto]. apply built_div with a b; auto. intros X. apply Z0. now apply (C39_shows_one_number b).
    - cbn [bind bi_move_assigned vec_moved fst]. rewrite big_eta. destruct (C45_abs b w Bb Sb) as [X Y].
      eexists. split; [reflexivity|]. split; [now apply built_abs|auto].
    - cbn in Go. destruct (ex <? 0) eqn:N0.
      + apply Z.ltb_lt in N0. now rewrite (C45_pow_negative_exponent b ex N0).
      + apply Z.ltb_ge in N0. destruct (C45_pow b w ex Bb Sb) as (r & E & Sr & Rr); [lia|]. rewrite E. cbn [bind bi_move_assigned vec_moved fst]. rewrite big_eta.
        eexists. split; [reflexivity|]. split; [now apply built_pow with b ex|auto].
    - cbn in Go. destruct (numeral_value t) as [z|] eqn:V; [|congruence]. apply numeral_value_ok in V.
      destruct (C39_from_text t z V) as (r & E & Sr & Rr). rewrite E. cbn [bind bi_move_assigned vec_moved fst]. rewrite big_eta.
      eexists. split; [reflexivity|]. split; [now apply built_text with t z|auto]. }
  specialize (M M7 p [] (0%nat, fun _ => 0) (rel_start int_rel _) S G).
  destruct (ideal 0 int_op (0%nat, fun _ => 0) p) as [[n f]|]; [|exact M].
  destruct M as (s & E & L & H). exists s. split; [exact E|]. split; [exact L|]. intros i b X. apply H in X as (_ & X). exact X.
Qed.
Print Assumptions C126_integer_programs.
(** x = -12; y = std::move(x); z = y; z = z * y; swap(x, z); y = y / z *)
Definition C126_prog : list (stmt bi_op) :=
  [SNew; SOp 0 (OpText [45; 49; 50]%N) 0; SNewMove 0; SNewCopy 1; SOp 2 OpMul 1; SSwap 0 2; SMove 1 1].
Example C126_ex : scoped 0 C126_prog /\ good_program C126_prog /\
  match ideal 0 int_op (0%nat, fun _ => 0) C126_prog with Some (n, f) => n = 3%nat /\ map f [0; 1; 2]%nat = [144; -12; 0] | None => False end /\
  (s <- run bi_cls bi_apply [] C126_prog ;; mapM bi_to_string s) = Ok (map ascii_chars [[49; 52; 52]; [45; 49; 50]; [48]]%N) /\
  run bi_cls bi_apply [] (C126_prog ++ [SOp 1 OpDiv 2]) = Throw EInvalidArgument.
Proof.
  split; [cbn; repeat split; repeat constructor|]. split; [repeat constructor; cbn; discriminate|].
  split; [vm_compute; auto|]. split; vm_compute; reflexivity.
Qed.

(** C127.  Strings: every program that declares, copies, moves, swaps and appends, never a String to itself, ends with
    the texts it stands for, a String that was moved from being empty. *)
Definition text_op (o : str_op) (u v : Str) : option Str :=
  match o with OpAppend | OpPlus => Some (u ++ v) | OpSet s => Some s end.
Definition not_itself (o : str_op) (self : bool) : Prop := match o with OpAppend => self = false | _ => True end.
Theorem C127_string_programs_partial : forall p, scoped 0 p -> Forall (good_stmt not_itself) p ->
  exists n value s, ideal [] text_op (0%nat, fun _ => []) p = Some (n, value) /\ run str_cls str_apply [] p = Ok s /\
    length s = n /\ forall i x, nth_error s i = Some x -> x = value i.
Proof.
  intros p S G.
  assert (M : match ideal [] text_op (0%nat, fun _ => []) p with Some m' => exists s', run str_cls str_apply [] p = Ok s' /\ rel eq s' m' | None => run str_cls str_apply [] p = Throw EInvalidArgument end).
  { apply (run_refines str_cls str_apply [] text_op eq not_itself EInvalidArgument); auto; cbn; try (intros; subst; auto; fail).
    - intros o self a v b w Go -> -> _. destruct o as [| |s]; cbn [text_op str_apply].
      + cbn in Go. rewrite Go. eexists. split; [|reflexivity]. reflexivity.
      + eexists. split; [|reflexivity]. apply s_plus_app.
      + eauto.
    - apply rel_start. }
  destruct (ideal [] text_op (0%nat, fun _ => []) p) as [[n f]|] eqn:E.
  - destruct M as (s & R & L & H). exists n, f, s. repeat split; auto.
  - exfalso. clear M. assert (X : forall p m, ideal [] text_op m p <> None).
    { clear. induction p as [|st p IH]; intros [n f]; cbn; [discriminate|].
      destruct st as [|j|j|i j|i j|i j|i o j]; cbn; try apply IH. destruct o; cbn; apply IH. }
    now apply (X p (0%nat, fun _ => [])).
Qed.
Print Assumptions C127_string_programs_partial.
(** Appending a String to itself is undefined (C16). *)
Theorem C127_self_append_refuted : exists p, scoped 0 p /\ ideal [] text_op (0%nat, fun _ => []) p <> None /\ run str_cls str_apply [] p = UB.
Proof.
  exists [SNew; SOp 0 (OpSet [[97]]%N) 0; SOp 0 OpAppend 0]. split; [cbn; repeat split; repeat constructor|].
  split; [cbn; discriminate|reflexivity].
Qed.
Print Assumptions C127_self_append_refuted.
(** BigFloats: every variable prints the text its value was built with; moved from, it prints 0. *)
Definition bf_text (o : bf_op) (a b : bigfloat) : option bigfloat :=
  match o with OpDecimal t => match bf_of_string t with Ok f => Some f | _ => None end | OpFAbs => Some (bf_abs b) end.
Definition bf_good (o : bf_op) (_ : bool) : Prop := match o with OpDecimal t => exists f, bf_of_string t = Ok f | _ => True end.
Theorem C127_bigfloat_programs : forall p, scoped 0 p -> Forall (good_stmt bf_good) p ->
  bf_to_string bf_default = Ok (ascii_chars [48]%N) /\
  exists n value s, ideal bf_default bf_text (0%nat, fun _ => bf_default) p = Some (n, value) /\ run bf_cls bf_apply [] p = Ok s /\
    length s = n /\ forall i x, nth_error s i = Some x -> x = value i.
Proof.
  intros p S G. split; [reflexivity|].
  assert (Eta : forall f, mkBF (mkBig (bi_digits (bf_int f)) (bi_neg (bf_int f))) (mkBig (bi_digits (bf_frac f)) (bi_neg (bf_frac f))) (bf_neg f) = f)
    by (intros [[] [] ?]; reflexivity).
  assert (M : match ideal bf_default bf_text (0%nat, fun _ => bf_default) p with Some m' => exists s', run bf_cls bf_apply [] p = Ok s' /\ rel eq s' m' | None => run bf_cls bf_apply [] p = Throw EInvalidArgument end).
  { apply (run_refines bf_cls bf_apply bf_default bf_text eq bf_good EInvalidArgument); auto; cbn; try (intros; subst; rewrite ?Eta; auto; fail).
    - intros o self a v b w Go -> -> _. unfold bf_apply. destruct o as [t|]; cbn [bf_text].
      + destruct Go as [f E]. rewrite E. cbn. rewrite Eta. eauto.
      + cbn. rewrite !big_eta. eauto.
    - apply rel_start. }
  destruct (ideal bf_default bf_text (0%nat, fun _ => bf_default) p) as [[n f]|] eqn:E.
  - destruct M as (s & R & L & H). exists n, f, s. repeat split; auto.
  - exfalso. clear M S. assert (X : forall p m, Forall (good_stmt bf_good) p -> ideal bf_default bf_text m p <> None).
    { clear. induction p as [|st p IH]; intros [n f] H; cbn; [discriminate|]. inversion_clear H as [|? ? H0 H1].
      destruct st as [|j|j|i j|i j|i j|i o j]; cbn; try (now apply IH). destruct o as [t|]; cbn; [|now apply IH].
      cbn in H0. destruct H0 as [g ->]. now apply IH. }
    now apply (X p (0%nat, fun _ => bf_default) G).
Qed.
Print Assumptions C127_bigfloat_programs.
Example C127_ex : (s <- run str_cls str_apply [] [SNew; SOp 0 (OpSet [[97]; [98]]%N) 0; SNewMove 0; SOp 0 (OpSet [[99]]%N) 0; SOp 0 OpAppend 1; SSwap 0 1] ;; Ok s) = Ok [[[97]; [98]]; [[99]; [97]; [98]]]%N /\
  (s <- run bf_cls bf_apply [] [SNew; SOp 0 (OpDecimal (ascii_chars [45; 50; 46; 53]%N)) 0; SNewMove 0; SCopy 1 1; SNewCopy 1] ;; mapM bf_to_string s) =
    Ok (map ascii_chars [[48]; [45; 50; 46; 53]; [45; 50; 46; 53]]%N).
Proof. split; vm_compute; reflexivity. Qed.
