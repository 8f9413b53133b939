(** Kmp.h with its comparisons counted, and how many there are at most. *)
From Coq Require Import List Arith NArith Bool Lia.
From Verif Require Import Outcome StrModel Kmp SpecStr StrProofs KmpProofs.
Import ListNotations.

(** Kmp.h 37-40 and 57-60, as [kmp_while], with the number of comparisons [pattern[j] != c] made. *)
Fixpoint counted_while (fuel : nat) (pattern : list N) (failure : list kidx) (c : N) (j : kidx) : outcome (kidx * nat) :=
  match j with
  | None => Ok (None, O)
  | Some j' =>
      x <- str_get pattern j' ;;
      if N.eqb x c then Ok (j, 1)
      else match fuel with
           | O => NoFuel
           | S f => j'' <- vec_get failure j' ;; ' (r, n) <- counted_while f pattern failure c j'' ;; Ok (r, S n)
           end
  end.

(** Kmp.h 35-42, as [kmp_failure_loop], with the number of comparisons. *)
Fixpoint counted_failure_loop (n : nat) (pattern : list N) (failure : list kidx) (i : nat) (j : kidx) : outcome (list kidx * nat) :=
  match n with
  | O => Ok (failure, O)
  | S n' =>
      c <- str_get pattern i ;;
      ' (j', a) <- counted_while (S (length pattern)) pattern failure c j ;;
      failure' <- vec_set failure (S i) (Some (kincr j')) ;;
      ' (r, b) <- counted_failure_loop n' pattern failure' (S i) (Some (kincr j')) ;;
      Ok (r, a + b)%nat
  end.

(** Kmp.h 29-44, as [get_kmp_failure_vec], with the number of comparisons. *)
Definition counted_failure_vec (pattern : list N) : outcome (list kidx * nat) :=
  let failure := repeat (Some O) (length pattern + 1) in
  failure <- vec_set failure 0 None ;;
  counted_failure_loop (length pattern) pattern failure 0 None.

(** Kmp.h 54-65, as [kmp_loop], with the number of comparisons. *)
Fixpoint counted_loop (pattern : list N) (failure : list kidx) (text : list N) (j : nat) : outcome (bool * nat) :=
  match text with
  | [] => Ok (false, O)
  | c :: text' =>
      ' (j', a) <- counted_while (S (length pattern)) pattern failure c (Some j) ;;
      if Nat.eqb (kincr j') (length pattern) then Ok (true, a)
      else ' (r, b) <- counted_loop pattern failure text' (kincr j') ;; Ok (r, a + b)%nat
  end.

(** Kmp.h 48-66, as [kmp], with the number of comparisons of characters of the pattern. *)
Definition counted_kmp (pattern text : list N) : outcome (bool * nat) :=
  ' (failure, a) <- counted_failure_vec pattern ;;
  ' (r, b) <- counted_loop pattern failure text 0 ;;
  Ok (r, a + b)%nat.

(** ** Counting changes nothing else *)
Definition forget {A} (m : outcome (A * nat)) : outcome A := ' (a, _) <- m ;; Ok a.

Lemma while_same fuel p failure c : forall j, forget (counted_while fuel p failure c j) = kmp_while fuel p failure c j.
Proof.
  induction fuel as [|f IH]; intros [j|]; cbn [counted_while kmp_while]; try reflexivity.
  - destruct (str_get p j) as [x| | |]; try reflexivity. cbn [bind]. destruct (N.eqb x c); reflexivity.
  - destruct (str_get p j) as [x| | |]; try reflexivity. cbn [bind]. destruct (N.eqb x c); [reflexivity|].
    destruct (vec_get failure j) as [j''| | |]; try reflexivity. cbn [bind]. rewrite <- IH.
    destruct (counted_while f p failure c j'') as [[r n]| | |]; reflexivity.
Qed.
Lemma failure_loop_same n : forall p failure i j, forget (counted_failure_loop n p failure i j) = kmp_failure_loop n p failure i j.
Proof.
  induction n as [|n IH]; intros p failure i j; [reflexivity|]. cbn [counted_failure_loop kmp_failure_loop].
  destruct (str_get p i) as [c| | |]; try reflexivity. cbn [bind]. rewrite <- while_same.
  destruct (counted_while (S (length p)) p failure c j) as [[j' a]| | |]; try reflexivity. cbn [bind forget].
  destruct (vec_set failure (S i) (Some (kincr j'))) as [failure'| | |]; try reflexivity. cbn [bind]. rewrite <- IH.
  destruct (counted_failure_loop n p failure' (S i) (Some (kincr j'))) as [[r b]| | |]; reflexivity.
Qed.
Lemma loop_same p failure text : forall j, forget (counted_loop p failure text j) = kmp_loop p failure text j.
Proof.
  induction text as [|c text IH]; intros j; [reflexivity|]. cbn [counted_loop kmp_loop]. rewrite <- while_same.
  destruct (counted_while (S (length p)) p failure c (Some j)) as [[j' a]| | |]; try reflexivity. cbn [bind forget].
  destruct (Nat.eqb (kincr j') (length p)); [reflexivity|]. rewrite <- IH.
  destruct (counted_loop p failure text (kincr j')) as [[r b]| | |]; reflexivity.
Qed.
Lemma counted_same p text : forget (counted_kmp p text) = kmp p text.
Proof.
  unfold counted_kmp, kmp, counted_failure_vec, get_kmp_failure_vec.
  destruct (vec_set (repeat (Some 0%nat) (length p + 1)) 0 None) as [f0| | |]; try reflexivity. cbn [bind]. rewrite <- failure_loop_same.
  destruct (counted_failure_loop (length p) p f0 0 None) as [[failure a]| | |]; try reflexivity. cbn [bind forget]. rewrite <- loop_same.
  destruct (counted_loop p failure text 0) as [[r b]| | |]; reflexivity.
Qed.

(** ** The bound *)

(** Every entry of the table leads back. *)
Definition falls (failure : list kidx) : Prop := forall t k, nth_error failure t = Some (Some k) -> (k < t)%nat.

Lemma while_cost fuel p failure c : falls failure -> forall j r n, counted_while fuel p failure c j = Ok (r, n) ->
  (n + kincr r <= kincr j + 1)%nat /\ (kincr r <= kincr j)%nat.
Proof.
  intros HF. induction fuel as [|f IH]; intros [j|] r n H; cbn [counted_while] in H.
  - destruct (str_get p j) as [x| | |]; try discriminate. cbn [bind] in H. destruct (N.eqb x c); [injection H as <- <-; cbn; lia|discriminate].
  - injection H as <- <-. cbn. lia.
  - destruct (str_get p j) as [x| | |]; try discriminate. cbn [bind] in H. destruct (N.eqb x c); [injection H as <- <-; cbn; lia|].
    unfold vec_get in H. destruct (nth_error failure j) as [j''|] eqn:E; [|discriminate]. cbn [bind] in H.
    destruct (counted_while f p failure c j'') as [[r' n']| | |] eqn:W; try discriminate. cbn [bind] in H. injection H as <- <-.
    apply IH in W. assert (kincr j'' <= j)%nat by (destruct j'' as [k|]; [apply HF in E; cbn; lia|cbn; lia]). cbn [kincr] in *. lia.
  - injection H as <- <-. cbn. lia.
Qed.
Lemma failure_loop_cost n : forall p failure i j failure' m, falls failure -> (kincr j <= i)%nat ->
  counted_failure_loop n p failure i j = Ok (failure', m) -> falls failure' /\ (m <= kincr j + 2 * n)%nat.
Proof.
  induction n as [|n IH]; intros p failure i j failure' m HF HJ H; cbn [counted_failure_loop] in H.
  - injection H as <- <-. split; [assumption|lia].
  - destruct (str_get p i) as [c| | |]; try discriminate. cbn [bind] in H.
    destruct (counted_while (S (length p)) p failure c j) as [[j' a]| | |] eqn:W; try discriminate. cbn [bind] in H.
    apply while_cost in W; [|assumption].
    destruct (vec_set failure (S i) (Some (kincr j'))) as [f1| | |] eqn:V; try discriminate. cbn [bind] in H.
    destruct (counted_failure_loop n p f1 (S i) (Some (kincr j'))) as [[r b]| | |] eqn:L; try discriminate. cbn [bind] in H. injection H as <- <-.
    assert (LV : (S i < length failure)%nat).
    { destruct (Nat.lt_ge_cases (S i) (length failure)) as [K|K]; [exact K|]. exfalso. revert V K. clear. revert f1.
      generalize (S i) as t. induction failure as [|x l IH]; intros t f1 V K; [discriminate|]. destruct t; [cbn in K; lia|]. cbn [vec_set] in V.
      destruct (vec_set l t (Some (kincr j'))) as [l'| | |] eqn:E; try discriminate. apply (IH t l' E). cbn in K. lia. }
    destruct (vec_set_spec failure (S i) (Some (kincr j')) LV) as (f2 & E & _ & N1 & N2). assert (f2 = f1) as -> by congruence.
    apply IH in L.
    + cbn [kincr] in L. destruct L as [L1 L2]. split; [assumption|lia].
    + intros t k Ht. destruct (Nat.eq_dec t (S i)) as [->|N]; [rewrite N1 in Ht; injection Ht as <-; lia|]. rewrite N2 in Ht by assumption. now apply HF.
    + cbn [kincr]. lia.
Qed.
Lemma loop_cost p failure text : falls failure -> forall j r m, counted_loop p failure text j = Ok (r, m) -> (m <= j + 2 * length text)%nat.
Proof.
  intros HF. induction text as [|c text IH]; intros j r m H; cbn [counted_loop] in H; [injection H as <- <-; lia|].
  destruct (counted_while (S (length p)) p failure c (Some j)) as [[j' a]| | |] eqn:W; try discriminate. cbn [bind] in H.
  apply while_cost in W; [|assumption]. cbn [kincr length] in *. destruct (Nat.eqb (kincr j') (length p)); [injection H as <- <-; lia|].
  destruct (counted_loop p failure text (kincr j')) as [[r' b]| | |] eqn:L; try discriminate. cbn [bind] in H. injection H as <- <-. apply IH in L. lia.
Qed.
Lemma failure_vec_cost p failure m : counted_failure_vec p = Ok (failure, m) -> falls failure /\ (m <= 2 * length p)%nat.
Proof.
  unfold counted_failure_vec. rewrite Nat.add_1_r. cbn [repeat vec_set bind]. intros H. apply failure_loop_cost in H; [exact H| |cbn; lia].
  intros [|t] k E; [discriminate|]. cbn [nth_error] in E. apply nth_error_In, repeat_spec in E. injection E as ->. lia.
Qed.

(** C138 *)
Lemma kmp_cost p text v n : counted_kmp p text = Ok (v, n) -> (n <= 2 * (length p + length text))%nat.
Proof.
  unfold counted_kmp. intros H. destruct (counted_failure_vec p) as [[failure a]| | |] eqn:F; try discriminate. cbn [bind] in H.
  destruct (counted_loop p failure text 0) as [[r b]| | |] eqn:L; try discriminate. cbn [bind] in H. injection H as <- <-.
  apply failure_vec_cost in F as [HF F]. apply loop_cost in L; [lia|exact HF].
Qed.

(** ** No comparison is left out: every character is compared at least once. *)
Lemma while_low fuel p failure c : forall j r n, counted_while fuel p failure c (Some j) = Ok (r, n) -> (1 <= n)%nat.
Proof.
  destruct fuel as [|f]; intros j r n H; cbn [counted_while] in H.
  - destruct (str_get p j) as [x| | |]; try discriminate. cbn [bind] in H. destruct (N.eqb x c); [injection H as <- <-; lia|discriminate].
  - destruct (str_get p j) as [x| | |]; try discriminate. cbn [bind] in H. destruct (N.eqb x c); [injection H as <- <-; lia|].
    destruct (vec_get failure j) as [j''| | |]; try discriminate. cbn [bind] in H.
    destruct (counted_while f p failure c j'') as [[r' n']| | |]; try discriminate. cbn [bind] in H. injection H as <- <-. lia.
Qed.
Lemma failure_loop_low n : forall p failure i j r m, counted_failure_loop n p failure i (Some j) = Ok (r, m) -> (n <= m)%nat.
Proof.
  induction n as [|n IH]; intros p failure i j r m H; [lia|]. cbn [counted_failure_loop] in H.
  destruct (str_get p i) as [c| | |]; try discriminate. cbn [bind] in H.
  destruct (counted_while (S (length p)) p failure c (Some j)) as [[j' a]| | |] eqn:W; try discriminate. cbn [bind] in H. apply while_low in W.
  destruct (vec_set failure (S i) (Some (kincr j'))) as [f1| | |]; try discriminate. cbn [bind] in H.
  destruct (counted_failure_loop n p f1 (S i) (Some (kincr j'))) as [[r' b]| | |] eqn:L; try discriminate. cbn [bind] in H.
  injection H as <- <-. apply IH in L. lia.
Qed.
Lemma failure_loop_low' n p failure i r m : counted_failure_loop n p failure i None = Ok (r, m) -> (n <= m + 1)%nat.
Proof.
  destruct n as [|n]; intros H; [lia|]. cbn [counted_failure_loop] in H.
  destruct (str_get p i) as [c| | |]; try discriminate. cbn [bind] in H.
  destruct (counted_while (S (length p)) p failure c None) as [[j' a]| | |]; try discriminate. cbn [bind] in H.
  destruct (vec_set failure (S i) (Some (kincr j'))) as [f1| | |]; try discriminate. cbn [bind] in H.
  destruct (counted_failure_loop n p f1 (S i) (Some (kincr j'))) as [[r' b]| | |] eqn:L; try discriminate. cbn [bind] in H.
  injection H as <- <-. apply failure_loop_low in L. lia.
Qed.
Lemma failure_vec_low p r m : counted_failure_vec p = Ok (r, m) -> (length p <= m + 1)%nat.
Proof.
  unfold counted_failure_vec. destruct (vec_set (repeat (Some 0%nat) (length p + 1)) 0 None) as [f0| | |]; try discriminate. cbn [bind].
  apply failure_loop_low'.
Qed.
Lemma loop_low p failure text : forall j m, counted_loop p failure text j = Ok (false, m) -> (length text <= m)%nat.
Proof.
  induction text as [|c text IH]; intros j m H; cbn [counted_loop length] in *; [lia|].
  destruct (counted_while (S (length p)) p failure c (Some j)) as [[j' a]| | |] eqn:W; try discriminate. cbn [bind] in H. apply while_low in W.
  destruct (Nat.eqb (kincr j') (length p)); [discriminate|].
  destruct (counted_loop p failure text (kincr j')) as [[r' b]| | |] eqn:L; try discriminate. cbn [bind] in H. injection H as -> <-.
  apply IH in L. lia.
Qed.
Lemma kmp_low p text n : counted_kmp p text = Ok (false, n) -> (length p + length text <= n + 1)%nat.
Proof.
  unfold counted_kmp. intros H. destruct (counted_failure_vec p) as [[failure a]| | |] eqn:F; try discriminate. cbn [bind] in H.
  destruct (counted_loop p failure text 0) as [[r b]| | |] eqn:L; try discriminate. cbn [bind] in H. injection H as -> <-.
  apply failure_vec_low in F. apply loop_low in L. lia.
Qed.
