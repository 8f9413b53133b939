(** C149: the tests for operators tell whether the operators of the library can be used. *)
From Coq Require Import String List Bool Arith Lia.
From Verif Require Import Lookup SpecLookup LookupProofs LookupProps Headers SpecHeaders HeadersProofs HeadersProps HeaderOrder SpecHeaderOrder.
Import ListNotations.
Local Open Scope string_scope.
Local Open Scope list_scope.

Notation inc := (include (S (List.length headers)) Insensitive headers).

Lemma include_all_app (i : string -> list string -> pres) a b d :
  include_all i (a ++ b) d =
  match include_all i a d with Done t d1 => match include_all i b d1 with Done t' d2 => Done (t ++ t') d2 | r => r end | r => r end.
Proof.
  revert d. induction a as [|p a IH]; intros d; cbn [app include_all].
  - destruct (include_all i b d); reflexivity.
  - destruct (i p d) as [t d1| |]; try reflexivity. rewrite IH. destruct (include_all i a d1) as [t' d2| |]; try reflexivity.
    destruct (include_all i b d2) as [t'' d3| |]; try reflexivity. rewrite app_assoc. reflexivity.
Qed.

(** ** A set of headers that includes all it needs gives nothing else *)
Definition closed_set (R : list header) : Prop :=
  forall f q f', In f R -> In q (h_includes f) -> lookup Insensitive headers q = Some f' -> In f' R.
Lemma include_within R : closed_set R -> forall n p f d t d', lookup Insensitive headers p = Some f -> In f R ->
  include n Insensitive headers p d = Done t d' -> incl t R.
Proof.
  intros HR. induction n as [|n IH]; intros p f d t d' Hl Hf H; [discriminate|]. cbn [include] in H. rewrite Hl in H.
  assert (A : forall paths d t d', (forall q, In q paths -> In q (h_includes f)) -> include_all (include n Insensitive headers) paths d = Done t d' -> incl t R).
  { induction paths as [|q r IHp]; intros d0 t0 d0' Hq E; cbn [include_all] in E; [injection E as <- <-; intros x []|].
    destruct (include n Insensitive headers q d0) as [t1 d1| |] eqn:E1; try discriminate.
    destruct (include_all (include n Insensitive headers) r d1) as [t2 d2| |] eqn:E2; try discriminate. injection E as <- <-.
    apply incl_app; [|eapply IHp; [|exact E2]; intros x Hx; apply Hq; right; exact Hx].
    destruct n as [|m]; [discriminate|]. destruct (lookup Insensitive headers q) as [f'|] eqn:Lq.
    - eapply IH; [exact Lq| |exact E1]. eapply HR; eauto. apply Hq. left. reflexivity.
    - cbn [include] in E1. rewrite Lq in E1. discriminate. }
  assert (B : forall d, match include_all (include n Insensitive headers) (h_includes f) d with Done t d' => Done (t ++ [f]) d' | r => r end = Done t d' -> incl t R).
  { intros d0 E. destruct (include_all (include n Insensitive headers) (h_includes f) d0) as [t1 d1| |] eqn:E1; try discriminate. injection E as <- <-.
    apply incl_app; [eapply A; [|exact E1]; auto|]. intros x [<-|[]]. exact Hf. }
  destruct (h_guard f) as [g|]; [|eapply B; exact H]. destruct (is_defined d g); [injection H as <- <-; intros x []|eapply B; exact H].
Qed.
Lemma include_all_within R n : closed_set R -> forall paths d t d',
  (forall p, In p paths -> exists f, lookup Insensitive headers p = Some f /\ In f R) ->
  include_all (include n Insensitive headers) paths d = Done t d' -> incl t R.
Proof.
  intros HR. induction paths as [|p r IH]; intros d t d' Hp E; cbn [include_all] in E; [injection E as <- <-; intros x []|].
  destruct (include n Insensitive headers p d) as [t1 d1| |] eqn:E1; try discriminate.
  destruct (include_all (include n Insensitive headers) r d1) as [t2 d2| |] eqn:E2; try discriminate. injection E as <- <-.
  destruct (Hp p (or_introl eq_refl)) as (f & Lf & Hf). apply incl_app.
  - eapply include_within; eauto.
  - eapply IH; [|exact E2]. intros q Hq. apply Hp. right. exact Hq.
Qed.

(** Checks by computation: R holds all it includes *)
Definition has_path (R : list header) (path : string) : bool := existsb (fun g => h_path g =? path) R.
Definition check_set (R : list header) : bool :=
  forallb (fun f => forallb (fun q => match lookup Insensitive headers q with Some f' => has_path R (h_path f') | None => true end) (h_includes f)) R.
Definition select (keep : string -> bool) : list header := filter (fun f => keep (h_path f)) headers.
Lemma same_header f g : In f headers -> In g headers -> h_path f = h_path g -> f = g.
Proof. apply (paths_of headers). vm_compute. reflexivity. Qed.
Lemma select_in keep f : In f (select keep) <-> In f headers /\ keep (h_path f) = true.
Proof. unfold select. apply filter_In. Qed.
Lemma check_closed_set R : incl R headers -> check_set R = true -> closed_set R.
Proof.
  intros HR H f q f' Hf Hq Hl. unfold check_set in H. rewrite forallb_forall in H. specialize (H f Hf).
  rewrite forallb_forall in H. specialize (H q Hq). rewrite Hl in H.
  unfold has_path in H. apply existsb_exists in H. destruct H as (g & Hg & E). apply String.eqb_eq in E.
  apply lookup_in in Hl. destruct Hl as [Hl _].
  assert (Eq : f' = g) by (apply same_header; [exact Hl|apply HR, Hg|symmetry; exact E]). rewrite Eq. exact Hg.
Qed.
Lemma select_closed keep : check_set (select keep) = true -> closed_set (select keep).
Proof. apply check_closed_set. intros f Hf. apply select_in in Hf. apply Hf. Qed.

(** ** The headers that do not lead to the tests, and those that do not lead to the numbers *)
Definition reach_of (paths : list string) : list string := map h_path (texts_of (preprocess Insensitive headers paths)).
Definition neutral : list string :=
  ["Caitlyn/Algorithms"; "Caitlyn/Char"; "Caitlyn/Collections"; "Caitlyn/DateTime"; "Caitlyn/File"; "Caitlyn/Memory"; "Caitlyn/Serializing";
   "Caitlyn/String"; "Caitlyn/System"; "Caitlyn/Threading"; "Caitlyn/Utility"].
(** The first includes of Caitlyn/Caitlyn, up to the one that brings the tests *)
Definition first_includes : list string :=
  ["Caitlyn/__Caitlyn.h"; "Caitlyn/__Core/Algorithms.h"; "Caitlyn/__Core/Collections.h"; "Caitlyn/__Core/DateTime.h"; "Caitlyn/__Core/Error.h"].
Definition no_tests : list string := Eval vm_compute in reach_of (brings_numbers :: neutral).
Definition no_numbers : list string := Eval vm_compute in reach_of (neutral ++ ["Caitlyn/Error"; "Caitlyn/IO"; "Caitlyn/Testing"; "Caitlyn/Traits"] ++ first_includes).
Definition mem_str (l : list string) (p : string) : bool := existsb (String.eqb p) l.
Notation RT := (select (mem_str no_tests)).
Notation RN := (select (mem_str no_numbers)).
Definition big_integer_h : string := "Caitlyn/__Numeric/Types/BigInteger.h".
Definition big_float_h : string := "Caitlyn/__Numeric/Types/BigFloat.h".

Lemma RT_checked : check_set RT = true. Proof. vm_compute. reflexivity. Qed.
Lemma RN_checked : check_set RN = true. Proof. vm_compute. reflexivity. Qed.
Lemma select_no l p f : mem_str l p = false -> In f (select (mem_str l)) -> h_path f <> p.
Proof. intros N H E. apply select_in in H. destruct H as [_ H]. rewrite E, N in H. discriminate. Qed.
Lemma free_of_tests : mem_str no_tests operators_h = false. Proof. vm_compute. reflexivity. Qed.
Lemma free_of_integers : mem_str no_numbers big_integer_h = false. Proof. vm_compute. reflexivity. Qed.
Lemma free_of_floats : mem_str no_numbers big_float_h = false. Proof. vm_compute. reflexivity. Qed.
Lemma RT_no f : In f RT -> h_path f <> operators_h.
Proof. exact (select_no no_tests operators_h f free_of_tests). Qed.
Lemma RN_no f : In f RN -> h_path f <> big_integer_h /\ h_path f <> big_float_h.
Proof.
  intros H. exact (conj (select_no no_numbers big_integer_h f free_of_integers H) (select_no no_numbers big_float_h f free_of_floats H)).
Qed.
Lemma in_R l p : mem_str l p = true -> (exists f, lookup Insensitive headers p = Some f /\ h_path f = p) ->
  exists f, lookup Insensitive headers p = Some f /\ In f (select (mem_str l)).
Proof.
  intros H (f & Lf & E). exists f. split; [exact Lf|]. apply select_in. split; [|rewrite E; exact H]. apply lookup_in in Lf. apply Lf.
Qed.

(** ** Texts in the order of the includes *)
Lemma in_order_prefix fs x y : in_order fs (x ++ y) -> in_order fs x.
Proof. intros H before f after p E Hp. apply (H before f (after ++ y) p); [|exact Hp]. rewrite E, <- app_assoc. reflexivity. Qed.
Lemma last_cons {A} (l : list A) : forall q p, List.last (q :: l) p = List.last l q.
Proof.
  induction l as [|x r IH]; intros q p; [reflexivity|].
  change (List.last (q :: x :: r) p) with (List.last (x :: r) p). rewrite (IH x p), (IH x q). reflexivity.
Qed.
(** Includes step by step: what is reached by a chain of includes is there *)
Fixpoint chain (p : string) (l : list string) : bool :=
  match l with
  | [] => true
  | q :: r => forallb (fun f => negb (same_path Insensitive (h_path f) p) || mem_str (h_includes f) q) headers && chain q r
  end.
Lemma chain_in T : in_order Insensitive T -> incl T headers -> forall l p, chain p l = true ->
  (exists f, In f T /\ same_path Insensitive (h_path f) p = true) -> exists f, In f T /\ same_path Insensitive (h_path f) (List.last l p) = true.
Proof.
  intros Ho Hi. induction l as [|q r IH]; intros p H Hf; [exact Hf|]. cbn [chain] in H. apply andb_true_iff in H as [H1 H2].
  destruct Hf as (f & Hf & S). rewrite forallb_forall in H1. specialize (H1 f (Hi f Hf)). rewrite S in H1. cbn [negb orb] in H1.
  unfold mem_str in H1. apply existsb_exists in H1 as (q' & Hq & E). apply String.eqb_eq in E. subst q'.
  apply in_split in Hf as (b & a & E). destruct (Ho _ _ _ _ E Hq) as (g & Hg & Sg).
  replace (List.last (q :: r) p) with (List.last r q).
  - apply IH; [exact H2|]. exists g. split; [rewrite E; apply in_or_app; auto|exact Sg].
  - symmetry. apply last_cons.
Qed.

Lemma until_app path x y : (forall f, In f x -> h_path f <> path) -> until path (x ++ y) = x ++ until path y.
Proof.
  induction x as [|f x IH]; intros H; [reflexivity|]. cbn [app until].
  destruct (h_path f =? path) eqn:E; [apply String.eqb_eq in E; elim (H f (or_introl eq_refl) E)|]. f_equal. apply IH. intros g Hg. apply H. right. exact Hg.
Qed.
Lemma until_stops path x y : (exists f, In f x /\ h_path f = path) -> until path (x ++ y) = until path x.
Proof.
  induction x as [|f x IH]; intros (g & Hg & E); [destruct Hg|]. cbn [app until]. destruct (h_path f =? path) eqn:F; [reflexivity|].
  f_equal. apply IH. destruct Hg as [->|Hg]; [apply String.eqb_neq in F; contradiction|eauto].
Qed.
Lemma until_incl path x : incl (until path x) x.
Proof.
  induction x as [|f x IH]; intros g H; [destruct H|]. cbn [until] in H. destruct (h_path f =? path); [destruct H|].
  destruct H as [<-|H]; [left; reflexivity|right; apply IH; exact H].
Qed.

(** More fuel changes nothing *)
Lemma include_more n : forall p d t d', include n Insensitive headers p d = Done t d' -> include (S n) Insensitive headers p d = Done t d'.
Proof.
  induction n as [|n IH]; intros p d t d' H; [discriminate|].
  assert (A : forall paths d t d', include_all (include n Insensitive headers) paths d = Done t d' ->
              include_all (include (S n) Insensitive headers) paths d = Done t d').
  { induction paths as [|q r IHp]; intros d0 t0 d0' E; cbn [include_all] in *; [exact E|].
    destruct (include n Insensitive headers q d0) as [t1 d1| |] eqn:E1; try discriminate. rewrite (IH _ _ _ _ E1).
    destruct (include_all (include n Insensitive headers) r d1) as [t2 d2| |] eqn:E2; try discriminate. rewrite (IHp _ _ _ E2). exact E. }
  cbn [include] in H. change (include (S (S n)) Insensitive headers p d) with
    (match lookup Insensitive headers p with None => Missing p | Some f =>
       match h_guard f with
       | Some g => if is_defined d g then Done [] d else
           match include_all (include (S n) Insensitive headers) (h_includes f) (g :: d) with Done t d' => Done (t ++ [f]) d' | r => r end
       | None => match include_all (include (S n) Insensitive headers) (h_includes f) d with Done t d' => Done (t ++ [f]) d' | r => r end
       end end).
  destruct (lookup Insensitive headers p) as [f|]; [|discriminate]. destruct (h_guard f) as [g|].
  - destruct (is_defined d g); [exact H|]. destruct (include_all (include n Insensitive headers) (h_includes f) (g :: d)) as [t1 d1| |] eqn:E; try discriminate.
    rewrite (A _ _ _ _ E). exact H.
  - destruct (include_all (include n Insensitive headers) (h_includes f) d) as [t1 d1| |] eqn:E; try discriminate.
    rewrite (A _ _ _ _ E). exact H.
Qed.
Lemma include_all_more n paths : forall d t d', include_all (include n Insensitive headers) paths d = Done t d' ->
  include_all (include (S n) Insensitive headers) paths d = Done t d'.
Proof.
  induction paths as [|q r IHp]; intros d0 t0 d0' E; cbn [include_all] in *; [exact E|].
  destruct (include n Insensitive headers q d0) as [t1 d1| |] eqn:E1; try discriminate. rewrite (include_more _ _ _ _ _ E1).
  destruct (include_all (include n Insensitive headers) r d1) as [t2 d2| |] eqn:E2; try discriminate. rewrite (IHp _ _ _ E2). exact E.
Qed.

(** ** The first header that decides *)
Lemma public_known p : In p public -> exists f, In f headers /\ h_path f = p.
Proof.
  intros H. assert (C : forallb (fun p => has_path headers p) public = true) by (vm_compute; reflexivity).
  rewrite forallb_forall in C. specialize (C p H). apply existsb_exists in C as (f & Hf & E). apply String.eqb_eq in E. eauto.
Qed.
Lemma known_lookup p : has_path headers p = true -> exists f, lookup Insensitive headers p = Some f /\ h_path f = p.
Proof.
  intros H. assert (C : forallb (fun f => match lookup Insensitive headers (h_path f) with Some f' => (h_path f' =? h_path f)%string | None => false end) headers = true)
    by (vm_compute; reflexivity).
  apply existsb_exists in H as (f & Hf & E). apply String.eqb_eq in E. subst p. rewrite forallb_forall in C. specialize (C f Hf).
  destruct (lookup Insensitive headers (h_path f)) as [f'|]; [|discriminate]. apply String.eqb_eq in C. eauto.
Qed.
Lemma decide_first u : incl u public -> (exists p, In p u /\ In p bring_tests) ->
  exists a p b, u = a ++ p :: b /\ incl a neutral /\ In p (brings_numbers :: bring_tests).
Proof.
  induction u as [|q u IH]; intros Hu (p & Hp & Ht); [destruct Hp|].
  assert (C : forallb (fun q => mem_str neutral q || mem_str (brings_numbers :: bring_tests) q) public = true) by (vm_compute; reflexivity).
  rewrite forallb_forall in C. specialize (C q (Hu q (or_introl eq_refl))). apply orb_true_iff in C as [C|C];
    apply existsb_exists in C as (q' & Hq & E); apply String.eqb_eq in E; subst q'.
  - destruct IH as (a & p' & b & -> & Ha & Hp').
    + intros x Hx. apply Hu. right. exact Hx.
    + destruct Hp as [->|Hp]; [|eauto]. exfalso.
      assert (D : forallb (fun p => negb (mem_str neutral p)) bring_tests = true) by (vm_compute; reflexivity).
      rewrite forallb_forall in D. specialize (D p Ht). apply negb_true_iff in D.
      rewrite <- not_true_iff_false in D. apply D. apply existsb_exists. exists p. split; [exact Hq|apply String.eqb_refl].
    + exists (q :: a), p', b. split; [reflexivity|]. split; [|exact Hp']. intros x [<-|Hx]; auto.
  - exists [], q, u. split; [reflexivity|]. split; [intros x []|exact Hq].
Qed.
Lemma neutral_not p : In p neutral -> ~ In p bring_tests /\ p <> brings_numbers.
Proof.
  intros H. assert (D : forallb (fun p => negb (mem_str (brings_numbers :: bring_tests) p)) neutral = true) by (vm_compute; reflexivity).
  rewrite forallb_forall in D. specialize (D p H). apply negb_true_iff in D. rewrite <- not_true_iff_false in D.
  split; intros G; apply D, existsb_exists; exists p; (split; [|apply String.eqb_refl]); [right; exact G|left; auto].
Qed.
Lemma first_is a p b : incl a neutral -> In p (brings_numbers :: bring_tests) -> (numbers_first (a ++ p :: b) <-> p = brings_numbers).
Proof.
  intros Ha Hp. split.
  - intros (x & y & E & Hx). revert x E Hx. induction a as [|q a IH]; intros x E Hx; cbn [app] in E.
    + destruct x as [|z x]; [injection E; auto|]. injection E as <- _. destruct Hp as [Hp|Hp]; [auto|]. elim (Hx p (or_introl eq_refl) Hp).
    + destruct x as [|z x].
      * injection E as E _. elim (proj2 (neutral_not q (Ha q (or_introl eq_refl))) E).
      * injection E as <- E. apply (IH (fun v Hv => Ha v (or_intror Hv)) x E). intros v Hv. apply Hx. right. exact Hv.
  - intros ->. exists a, b. split; [reflexivity|]. intros q Hq. apply neutral_not, Ha, Hq.
Qed.

Lemma same_is f q : In f headers -> has_path headers q = true -> same_path Insensitive (h_path f) q = true -> h_path f = q.
Proof.
  intros Hf Hq H.
  assert (C : forallb (fun f => forallb (fun g => negb (same_path Insensitive (h_path f) (h_path g)) || (h_path f =? h_path g)) headers) headers = true) by (vm_compute; reflexivity).
  apply existsb_exists in Hq as (g & Hg & E). apply String.eqb_eq in E. subst q.
  rewrite forallb_forall in C. specialize (C f Hf). rewrite forallb_forall in C. specialize (C g Hg). rewrite H in C. apply String.eqb_eq, C.
Qed.
Lemma reached paths texts defined l p : (forall q, In q paths -> has_path headers q = true) -> preprocess Insensitive headers paths = Done texts defined ->
  In p paths -> chain p l = true -> has_path headers (List.last l p) = true -> exists f, In f texts /\ h_path f = List.last l p.
Proof.
  intros Hk E Hp Hc Hl.
  destruct (C148_any_order paths) as (t & d & E' & Ho & _ & Hi & Ha).
  { intros q Hq. specialize (Hk q Hq). apply existsb_exists in Hk as (f & Hf & Ef). apply String.eqb_eq in Ef. eauto. }
  rewrite E in E'. injection E' as <- <-. destruct (chain_in texts Ho Hi l p Hc) as (f & Hf & S).
  - specialize (Hk p Hp). apply existsb_exists in Hk as (f & Hf & Ef). apply String.eqb_eq in Ef. subst p. exists f. split; [apply Ha; trivial|].
    unfold same_path. apply String.eqb_refl.
  - exists f. split; [exact Hf|]. apply same_is; auto.
Qed.
Lemma within l a n d t d' : check_set (select (mem_str l)) = true -> forallb (mem_str l) a = true -> forallb (has_path headers) a = true ->
  include_all (include n Insensitive headers) a d = Done t d' -> incl t (select (mem_str l)).
Proof.
  intros C Hl Hk E. eapply include_all_within; [apply select_closed, C| |exact E]. intros p Hp.
  rewrite forallb_forall in Hl, Hk. apply in_R; auto. apply known_lookup. auto.
Qed.

Definition is_number_header (f : header) : Prop := h_path f = big_integer_h \/ h_path f = big_float_h.
(** The includes that lead from a header to the tests *)
Definition to_tests : list string := ["Caitlyn/__Core/Traits.h"; "Caitlyn/__Core/Traits/Types.h"; operators_h].
Definition way (p : string) : list string :=
  if p =? "Caitlyn/__Core/Error.h" then "Caitlyn/__Core/Error/Expected.h" :: to_tests
  else if p =? "Caitlyn/Error" then "Caitlyn/__Core/Error.h" :: "Caitlyn/__Core/Error/Expected.h" :: to_tests
  else if p =? "Caitlyn/IO" then "Caitlyn/__Core/IO.h" :: "Caitlyn/__Core/IO/Stream.h" :: to_tests
  else if p =? "Caitlyn/Testing" then "Caitlyn/__Testing/Macro.h" :: "Caitlyn/__Testing/Macro/Assert.h" :: to_tests
  else to_tests.

(** A header without a guard brings first what its first includes bring *)
Lemma include_split n p f a b d t d' : lookup Insensitive headers p = Some f -> h_guard f = None -> h_includes f = a ++ b ->
  include (S n) Insensitive headers p d = Done t d' ->
  exists t1 d1 t2, include_all (include (S n) Insensitive headers) a d = Done t1 d1 /\ t = t1 ++ t2.
Proof.
  intros Hl Hg Hi H. cbn [include] in H. rewrite Hl, Hg, Hi, include_all_app in H.
  destruct (include_all (include n Insensitive headers) a d) as [t1 d1| |] eqn:E1; try discriminate.
  destruct (include_all (include n Insensitive headers) b d1) as [t2 d2| |]; try discriminate. injection H as <- <-.
  exists t1, d1, (t2 ++ [f]). split; [apply include_all_more, E1|]. rewrite <- app_assoc. reflexivity.
Qed.
Lemma everything_h : exists f rest, lookup Insensitive headers "Caitlyn/Caitlyn" = Some f /\ h_guard f = None /\ h_includes f = first_includes ++ rest.
Proof. eexists; eexists; split; [vm_compute; reflexivity|split; [reflexivity|]]. cbn [h_includes first_includes app]. reflexivity. Qed.
Lemma preprocess_is u : preprocess Insensitive headers u = include_all inc u [].
Proof. reflexivity. Qed.

(** What comes up to the first deciding header *)
Lemma neutral_known q : In q neutral -> has_path headers q = true.
Proof. intros Hq. assert (C : forallb (has_path headers) neutral = true) by (vm_compute; reflexivity). rewrite forallb_forall in C. apply C, Hq. Qed.
Lemma neutral_no_tests q : In q neutral -> mem_str no_tests q = true.
Proof. intros Hq. assert (C : forallb (mem_str no_tests) neutral = true) by (vm_compute; reflexivity). rewrite forallb_forall in C. apply C, Hq. Qed.
Lemma neutral_no_numbers q : In q neutral -> mem_str no_numbers q = true.
Proof. intros Hq. assert (C : forallb (mem_str no_numbers) neutral = true) by (vm_compute; reflexivity). rewrite forallb_forall in C. apply C, Hq. Qed.
Lemma forallb_of {A} (f : A -> bool) l : (forall x, In x l -> f x = true) -> forallb f l = true.
Proof. intros H. apply forallb_forall, H. Qed.

Lemma numbers_come a t d : incl a neutral -> preprocess Insensitive headers (a ++ [brings_numbers]) = Done t d ->
  incl t RT /\ (exists f, In f t /\ h_path f = big_integer_h) /\ (exists f, In f t /\ h_path f = big_float_h).
Proof.
  intros Ha E.
  assert (K : forall q, In q (a ++ [brings_numbers]) -> has_path headers q = true).
  { intros q Hq. apply in_app_or in Hq. destruct Hq as [Hq|[<-|[]]]; [apply neutral_known, Ha, Hq|vm_compute; reflexivity]. }
  assert (M : forall q, In q (a ++ [brings_numbers]) -> mem_str no_tests q = true).
  { intros q Hq. apply in_app_or in Hq. destruct Hq as [Hq|[<-|[]]]; [apply neutral_no_tests, Ha, Hq|vm_compute; reflexivity]. }
  split; [|split].
  - rewrite preprocess_is in E. exact (within no_tests _ _ _ _ _ RT_checked (forallb_of _ _ M) (forallb_of _ _ K) E).
  - apply (reached _ _ _ ["Caitlyn/__Numeric/Types.h"; big_integer_h] brings_numbers K E);
      [apply in_or_app; right; left; reflexivity|vm_compute; reflexivity|vm_compute; reflexivity].
  - apply (reached _ _ _ ["Caitlyn/__Numeric/Types.h"; big_float_h] brings_numbers K E);
      [apply in_or_app; right; left; reflexivity|vm_compute; reflexivity|vm_compute; reflexivity].
Qed.

Lemma tests_come a b p t d : incl a neutral -> In p b -> forallb (fun q => has_path headers q && mem_str no_numbers q) b = true ->
  chain p (way p) = true -> List.last (way p) p = operators_h -> preprocess Insensitive headers (a ++ b) = Done t d ->
  incl t RN /\ exists f, In f t /\ h_path f = operators_h.
Proof.
  intros Ha Hp Hb Hc Hl E. rewrite forallb_forall in Hb.
  assert (K : forall q, In q (a ++ b) -> has_path headers q = true).
  { intros q Hq. apply in_app_or in Hq. destruct Hq as [Hq|Hq]; [apply neutral_known, Ha, Hq|]. apply Hb in Hq. apply andb_true_iff in Hq. apply Hq. }
  assert (M : forall q, In q (a ++ b) -> mem_str no_numbers q = true).
  { intros q Hq. apply in_app_or in Hq. destruct Hq as [Hq|Hq]; [apply neutral_no_numbers, Ha, Hq|]. apply Hb in Hq. apply andb_true_iff in Hq. apply Hq. }
  split.
  - rewrite preprocess_is in E. exact (within no_numbers _ _ _ _ _ RN_checked (forallb_of _ _ M) (forallb_of _ _ K) E).
  - rewrite <- Hl. apply (reached _ _ _ (way p) p K E); [apply in_or_app; right; exact Hp|exact Hc|].
    rewrite Hl. vm_compute. reflexivity.
Qed.

Lemma include_all_one (i : string -> list string -> pres) p d t d' : include_all i [p] d = Done t d' -> i p d = Done t d'.
Proof. cbn [include_all]. destruct (i p d) as [t1 d1| |]; try discriminate. rewrite app_nil_r. auto. Qed.
Lemma split_last n q f b rest a d0 t d : lookup Insensitive headers q = Some f -> h_guard f = None -> h_includes f = b ++ rest ->
  include_all (include (S n) Insensitive headers) (a ++ [q]) d0 = Done t d ->
  exists x y d', include_all (include (S n) Insensitive headers) (a ++ b) d0 = Done x d' /\ t = x ++ y.
Proof.
  intros Lf Gf If E. rewrite include_all_app in E.
  destruct (include_all (include (S n) Insensitive headers) a d0) as [ta da| |] eqn:Ea; try discriminate.
  destruct (include_all (include (S n) Insensitive headers) [q] da) as [tp dp| |] eqn:Ep; try discriminate. injection E as <- <-.
  apply include_all_one in Ep. destruct (include_split _ _ _ _ _ _ _ _ Lf Gf If Ep) as (t1 & d3 & t3 & E3 & ->).
  exists (ta ++ t1), t3, d3. rewrite include_all_app, Ea, E3, <- app_assoc. auto.
Qed.
Lemma tests_come_first a p t d : incl a neutral -> In p bring_tests -> preprocess Insensitive headers (a ++ [p]) = Done t d ->
  exists x y, t = x ++ y /\ incl x RN /\ exists f, In f x /\ h_path f = operators_h.
Proof.
  intros Ha Hp E. destruct (string_dec p "Caitlyn/Caitlyn") as [Ep|Np].
  - subst p. rewrite preprocess_is in E. destruct everything_h as (f & rest & Lf & Gf & If).
    destruct (split_last _ _ _ _ _ _ _ _ _ Lf Gf If E) as (x & y & d3 & E4 & ->). rewrite <- preprocess_is in E4.
    exists x, y. split; [reflexivity|].
    apply (tests_come a first_includes "Caitlyn/__Core/Error.h" _ d3); trivial; try (vm_compute; reflexivity).
    cbn [first_includes In]. tauto.
  - assert (Hq : In p ["Caitlyn/Error"; "Caitlyn/IO"; "Caitlyn/Testing"; "Caitlyn/Traits"]).
    { destruct Hp as [Hp|Hp]; [congruence|exact Hp]. }
    assert (C : forallb (fun p => (has_path headers p && mem_str no_numbers p) && chain p (way p) && (List.last (way p) p =? operators_h))
                  ["Caitlyn/Error"; "Caitlyn/IO"; "Caitlyn/Testing"; "Caitlyn/Traits"] = true) by (vm_compute; reflexivity).
    rewrite forallb_forall in C. specialize (C p Hq). apply andb_true_iff in C. destruct C as [C C3]. apply andb_true_iff in C. destruct C as [C1 C2].
    apply String.eqb_eq in C3. exists t, []. split; [rewrite app_nil_r; reflexivity|].
    apply (tests_come a [p] p t d); trivial; [left; reflexivity|]. cbn [forallb]. rewrite C1. reflexivity.
Qed.

Lemma numbers_before u : incl u public -> (exists p, In p u /\ In p bring_tests) -> forall t d, preprocess Insensitive headers u = Done t d ->
  (numbers_first u -> (exists f, In f (until operators_h t) /\ h_path f = big_integer_h) /\ (exists f, In f (until operators_h t) /\ h_path f = big_float_h)) /\
  (~ numbers_first u -> forall f, In f (until operators_h t) -> ~ is_number_header f).
Proof.
  intros Hu Hd t d E. destruct (decide_first u Hu Hd) as (a & p & b & -> & Ha & Hp).
  assert (Hn := first_is a p b Ha Hp).
  assert (S : exists t1 d1 t2, preprocess Insensitive headers (a ++ [p]) = Done t1 d1 /\ t = t1 ++ t2).
  { change (p :: b) with ([p] ++ b) in E. rewrite preprocess_is, app_assoc, include_all_app in E.
    destruct (include_all inc (a ++ [p]) []) as [t1 d1| |] eqn:E1; try discriminate.
    destruct (include_all inc b d1) as [t2 d2| |]; try discriminate. injection E as <- <-.
    exists t1, d1, t2. rewrite preprocess_is. auto. }
  clear E. destruct S as (t1 & d1 & t2 & E1 & ->). split.
  - intros N. apply Hn in N. subst p. destruct (numbers_come a t1 d1 Ha E1) as (I & (f & Hf & Ef) & (g & Hg & Eg)).
    rewrite until_app by (intros h Hh; apply RT_no, I, Hh). split; [exists f|exists g]; split; trivial; apply in_or_app; auto.
  - intros N. assert (Hp' : In p bring_tests) by (destruct Hp as [Hp|Hp]; [elim N; apply Hn; auto|exact Hp]).
    destruct (tests_come_first a p t1 d1 Ha Hp' E1) as (x & y & -> & I & Ex). rewrite <- app_assoc, (until_stops _ _ _ Ex).
    intros f Hf Q. apply until_incl in Hf. apply I in Hf. apply RN_no in Hf. destruct Hf, Q; auto.
Qed.

(** ** C149 *)
Lemma declares_library f : incl (declares f) library.
Proof.
  intros d. unfold declares, library. rewrite !in_app_iff.
  repeat match goal with |- context [if ?b then _ else _] => destruct b end; cbn [In]; tauto.
Qed.
(** Computed: what the operators of the numbers take and no others *)
Definition for_numbers (d : decl) : bool :=
  takes (d_takes d) tBigInteger tBigInteger || takes (d_takes d) tOStream tBigInteger ||
  takes (d_takes d) tBigFloat tBigFloat || takes (d_takes d) tOStream tBigFloat.
Lemma for_numbers_here : forallb for_numbers (integer_operators ++ float_operators) = true.
Proof. vm_compute. reflexivity. Qed.
Lemma for_numbers_elsewhere : forallb (fun d => negb (for_numbers d)) (char_operators ++ string_operators ++ unexpected_operators ++ json_operators) = true.
Proof. vm_compute. reflexivity. Qed.
Lemma number_header d f : In d (integer_operators ++ float_operators) -> In d (declares f) -> is_number_header f.
Proof.
  intros Hd H. assert (A := for_numbers_here). rewrite forallb_forall in A. specialize (A d Hd).
  assert (B := for_numbers_elsewhere). rewrite forallb_forall in B. specialize (B d). rewrite !in_app_iff, A in B.
  unfold declares in H. unfold is_number_header, big_integer_h, big_float_h.
  destruct (h_path f =? "Caitlyn/__Core/Char/Char.h"); [discriminate B; auto|].
  destruct (h_path f =? "Caitlyn/__Core/String/String.h"); [discriminate B; auto|].
  destruct (h_path f =? "Caitlyn/__Core/Error/Unexpected.h"); [discriminate B; auto|].
  destruct (h_path f =? "Caitlyn/__Numeric/Types/BigInteger.h") eqn:E4; [apply String.eqb_eq in E4; auto|].
  destruct (h_path f =? "Caitlyn/__Numeric/Types/BigFloat.h") eqn:E5; [apply String.eqb_eq in E5; auto|].
  destruct (h_path f =? "Caitlyn/__Serializing/Json/Types/Json.h"); [discriminate B; auto|destruct H].
Qed.
(** Computed: no other operator fits the same expression *)
Definition only_one (d : decl) : Prop :=
  d_place d = Space [] /\ exists l r, d_takes d = Types l r /\ existsb (ns_eqb []) (associated l ++ associated r) = false /\
    filter (fun d' => (d_op d' =? d_op d) && takes (d_takes d') l r) library = [d].
Lemma all_only_one : Forall only_one (integer_operators ++ float_operators).
Proof.
  repeat (apply Forall_cons; [split; [reflexivity|eexists; eexists; split; [reflexivity|split; vm_compute; reflexivity]]|]).
  apply Forall_nil.
Qed.
Lemma has_operator_works u o l r :
  has_operator u o l r = true <-> works (test_site (texts_of (preprocess Insensitive headers u))) o l r.
Proof.
  unfold has_operator, works. destruct (usable _ o l r) as [|d ds]; split.
  - discriminate.
  - intros [d []].
  - intros _. exists d. left. reflexivity.
  - reflexivity.
Qed.

(** The tests know an operator of the big numbers exactly when the header of the numbers is included before every header that
    brings the tests, whatever else is included and in whatever order. *)
Theorem C149_numbers :
  forall u d l r, incl u public -> (exists p, In p u /\ In p bring_tests) ->
  In d (integer_operators ++ float_operators) -> d_takes d = Types l r ->
  (has_operator u (d_op d) l r = true <-> numbers_first u).
Proof.
  intros u d l r Hu Ht Hd Hl. rewrite has_operator_works.
  assert (L : In d library) by (unfold library; rewrite !in_app_iff in *; tauto).
  destruct (C148_any_order u) as (T & df & E & _); [intros q Hq; apply public_known, Hu, Hq|].
  destruct (numbers_before u Hu Ht T df E) as [HA HB]. rewrite E. cbn [texts_of].
  assert (G : d_place d = Space [] /\ takes (d_takes d) l r = true /\ from_namespaces l r /\
              forall d', In d' library -> d_op d' = d_op d -> takes (d_takes d') l r = true -> d' = d).
  { assert (O := all_only_one). rewrite Forall_forall in O. destruct (O d Hd) as (Gp & l' & r' & El & N & F). rewrite Hl in El. injection El as <- <-.
    refine (conj Gp (conj _ (conj _ _))).
    - assert (In d [d]) as Q by (left; reflexivity). rewrite <- F in Q. apply filter_In in Q as [_ Q]. apply andb_true_iff in Q. apply Q.
    - unfold from_namespaces. apply not_true_iff_false in N. 
      split; intros Q; apply N, existsb_exists; exists []; (split; [apply in_or_app; auto|reflexivity]).
    - intros d' Hi Ho Ht'. assert (In d' [d]) as Q by (rewrite <- F; apply filter_In; split; [exact Hi|]; rewrite Ho, String.eqb_refl, Ht'; reflexivity).
      destruct Q as [Q|[]]; auto. }
  destruct G as (Gp & Gt & Gn & Gu).
  assert (Sb : incl (s_before (test_site T)) library).
  { intros x Hx. cbn [test_site s_before] in Hx. apply in_flat_map in Hx as (f & _ & Hf). eapply declares_library, Hf. }
  rewrite (works_iff (test_site T) (d_op d) l r d L L eq_refl Gt Gn).
  2:{ intros d' Hi. apply in_app_or in Hi as [Hi|Hi]; [apply Sb in Hi|]; apply Gu; exact Hi. }
  rewrite Gp. split.
  - intros [H|[H _]]; [discriminate|]. cbn [test_site s_before] in H. apply in_flat_map in H as (f & Hf & Hdf).
    assert (D : numbers_first u \/ ~ numbers_first u).
    { destruct (decide_first u Hu Ht) as (a & p & b & -> & Ha & Hp). assert (Q := first_is a p b Ha Hp).
      destruct (string_dec p brings_numbers); tauto. }
    destruct D as [D|D]; [exact D|]. elim (HB D f Hf). eapply number_header; eauto.
  - intros H. right. destruct (HA H) as ((f & Hf & Ef) & (g & Hg & Eg)). split.
    + cbn [test_site s_before]. apply in_flat_map. apply in_app_or in Hd as [Hd|Hd].
      * exists f. split; [exact Hf|]. unfold declares. rewrite Ef. exact Hd.
      * exists g. split; [exact Hg|]. unfold declares. rewrite Eg. exact Hd.
    + intros (sp & Hn & He & d' & Hi & Hd1 & Hd2). apply Sb in Hi. destruct (library_places d' Hi) as [P|P]; congruence.
Qed.
Print Assumptions C149_numbers.

(** The operators of a class are known wherever the tests are. *)
Theorem C149_members :
  forall u d l r, In d library -> d_place d = Member -> takes (d_takes d) l r = true -> has_operator u (d_op d) l r = true.
Proof.
  intros u d l r Hd Hm Ht. apply has_operator_works. exists d. apply usable_iff. split; [exact Ht|]. left. auto.
Qed.
Print Assumptions C149_members.

(** The claim that a test tells whether the operator can be used fails: in the source file, after all its includes, the
    expression can be written, and the test says it cannot; for the numbers with the header that includes everything, for the
    output of a String with the header of the tests. *)
Theorem C149_refuted :
  ~ (forall u o l r, incl u public -> (exists p, In p u /\ In p bring_tests) ->
       let texts := texts_of (preprocess Insensitive headers u) in
       works {| s_space := []; s_before := flat_map declares texts; s_all := flat_map declares texts |} o l r -> has_operator u o l r = true) /\
  has_operator ["Caitlyn/Caitlyn"] "<" tBigInteger tBigInteger = false /\
  has_operator ["Caitlyn/Testing"] "<<" tOStream tString = false.
Proof.
  split; [|split; vm_compute; reflexivity]. intros H.
  specialize (H ["Caitlyn/Caitlyn"] "<" tBigInteger tBigInteger).
  assert (E : has_operator ["Caitlyn/Caitlyn"] "<" tBigInteger tBigInteger = true); [|vm_compute in E; discriminate].
  apply H.
  - intros p [<-|[]]. vm_compute. tauto.
  - exists "Caitlyn/Caitlyn". split; [left; reflexivity|left; reflexivity].
  - exists (op "<" (Types tBigInteger tBigInteger) (Space [])). vm_compute. left. reflexivity.
Qed.
Print Assumptions C149_refuted.

(** Both orders of the same headers *)
Example order_matters :
  has_operator ["Caitlyn/Numeric"; "Caitlyn/Testing"] "<<" tOStream tBigInteger = true /\
  has_operator ["Caitlyn/Testing"; "Caitlyn/Numeric"] "<<" tOStream tBigInteger = false /\
  has_operator ["Caitlyn/String"; "Caitlyn/Testing"] "<<" tOStream tString = true /\
  has_operator ["Caitlyn/Testing"; "Caitlyn/String"] "<<" tOStream tString = false /\
  has_operator ["Caitlyn/Testing"] "==" tString tString = true.
Proof. vm_compute. repeat split. Qed.
Example numbers_first_met : incl ["Caitlyn/Memory"; "Caitlyn/Numeric"; "Caitlyn/Error"] public /\ numbers_first ["Caitlyn/Memory"; "Caitlyn/Numeric"; "Caitlyn/Error"] /\
  ~ numbers_first ["Caitlyn/Error"; "Caitlyn/Numeric"].
Proof.
  split; [|split].
  - intros p H. vm_compute in H. vm_compute. tauto.
  - exists ["Caitlyn/Memory"], ["Caitlyn/Error"]. split; [reflexivity|]. intros p [<-|[]]. cbn. intuition discriminate.
  - intros (x & y & E & H). destruct x as [|z x]; [discriminate|]. injection E as <- _. apply (H "Caitlyn/Error" (or_introl eq_refl)). cbn. tauto.
Qed.
