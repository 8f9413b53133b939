(** Whole programs, in terms of SpecJsonHeap.v. *)
From Coq Require Import List Arith NArith ZArith Bool Lia.
From Verif Require Import Outcome CharModel StrModel StrProofs JsonData JsonDataProofs JsonHeap JsonHeapProofs JsonHeapSteps SpecJsonHeap.
Import ListNotations.

Section Runs.
Context {F : Type}.
Variable f_zero : F.
Notation json := (json F).
Notation hstate := (hstate F).
Notation atree := (@atree F).

(** reading values *)
Lemma tree_reads m (t : atree) : holds m t -> wf t -> reads m (aroot t) (value t).
Proof.
  induction t as [n h l IH] using atree_ind'. intros H W. apply holds_node in H as [Hn Hl]. apply wf_node in W as [Wn Wl].
  assert (K : Forall2 (reads m) (map aroot l) (map value l)).
  { clear - IH Hl Wl. induction l as [|x l IHl]; cbn; [constructor|]. inversion IH; inversion Hl; inversion Wl; subst. constructor; auto. }
  destruct h as [|names| | | | |]; cbn [aroot value build]; cbn in Wn; try (apply length_zero_iff_nil in Wn as ->; now constructor).
  - apply (Reads_object m n (map aroot l)).
    + rewrite Hn. f_equal. f_equal. f_equal. clear - Wn. rewrite <- (map_length value) in Wn. generalize dependent (map value l). intros vs. revert vs.
      induction names as [|x names IH]; intros [|y vs] L; cbn in *; try discriminate; [reflexivity|]. now rewrite <- IH by lia.
    + replace (map snd (combine names (map value l))) with (map value l); [exact K|]. clear - Wn. rewrite <- (map_length value) in Wn.
      generalize dependent (map value l). intros vs. revert vs. induction names as [|x names IH]; intros [|y vs] L; cbn in *; try discriminate; [reflexivity|]. now rewrite <- IH by lia.
  - apply (Reads_array m n (map aroot l)); auto.
Qed.
Lemma combine_split {A B} (l : list (A * B)) : combine (map fst l) (map snd l) = l.
Proof. induction l as [|[a b] l IH]; cbn; [reflexivity|]. now rewrite IH. Qed.
Lemma reads_tree m (t : atree) : holds m t -> forall v, reads m (aroot t) v -> v = value t.
Proof.
  induction t as [n h l IH] using atree_ind'. intros H v R. apply holds_node in H as [Hn Hl]. cbn [aroot] in R.
  assert (K : forall vs, Forall2 (reads m) (map aroot l) vs -> vs = map value l).
  { clear - IH Hl. induction l as [|x l IHl]; cbn; intros vs R; inversion R; subst; [reflexivity|]. inversion IH; inversion Hl; subst. f_equal; auto. }
  inversion R as [? E|? ? E|? ? E|? ? E|? ? E|? ? ? E Q|? ? ? E Q]; subst; rewrite Hn in E; injection E as -> E; cbn; try reflexivity.
  - rewrite <- E in Q. now rewrite (K _ Q).
  - rewrite <- E in Q. now rewrite <- (K _ Q), combine_split.
Qed.
Lemma reach_nodes m (t : atree) : holds m t -> forall n, reach m (aroot t) n <-> In n (nodes t).
Proof.
  intros H n. split.
  - revert H. induction t as [k h l IH] using atree_ind'. intros H R. apply holds_node in H as [Hn Hl]. cbn [aroot] in R.
    inversion R as [|? h' ks c ? E Ic Rc]; subst; [now left|]. rewrite Hn in E. injection E as <- <-. apply in_map_iff in Ic as (u & <- & Iu).
    right. apply in_flat_map. exists u. rewrite Forall_forall in *. auto.
  - revert H. induction t as [k h l IH] using atree_ind'. intros H I. apply holds_node in H as [Hn Hl]. cbn [aroot]. destruct I as [<-|I]; [constructor|].
    apply in_flat_map in I as (u & Iu & Iu2). rewrite Forall_forall in *. apply (Reach_below m k h (map aroot l) (aroot u) n Hn); [now apply in_map|]. now apply IH; [|apply Hl|].
Qed.
Lemma leads_aget m (t : atree) a : holds m t -> forall k, leads m (aroot t) a k <-> exists v, aget t a = Some v /\ aroot v = k.
Proof.
  revert t. induction a as [|i r IH]; intros [n h l] H k; pose proof (holds_root _ _ H) as Hn; cbn [aroot ahead akids aget] in *.
  - split; [intros R; inversion R; subst; exists (ANode k h l); auto|]. intros (v & [= <-] & <-). constructor.
  - apply holds_node in H as [_ Hl]. rewrite Forall_forall in Hl. split.
    + intros R. inversion R as [|? h' ks ? c ? ? E N L]; subst. rewrite Hn in E. injection E as <- <-. rewrite nth_map in N.
      destruct (nth_error l i) as [u|] eqn:Nu; [|discriminate]. injection N as <-. apply (IH u); [|exact L]. apply Hl. eapply nth_error_In; eauto.
    + destruct (nth_error l i) as [u|] eqn:Nu; [|intros (v & X & _); discriminate]. intros X.
      apply (Leads_below m n h (map aroot l) i (aroot u) r k Hn); [now rewrite nth_map, Nu|]. apply (IH u); [|exact X]. apply Hl. eapply nth_error_In; eauto.
Qed.
Lemma strings_value (t : atree) : wf t -> strings t = strings_of (value t).
Proof.
  induction t as [n h l IH] using atree_ind'. intros W. apply wf_node in W as [Wn Wl].
  assert (K : flat_map strings l = flat_map strings_of (map value l)).
  { clear - IH Wl. induction l as [|x l IHl]; cbn; [reflexivity|]. inversion IH; inversion Wl; subst. f_equal; auto. }
  destruct h as [|names| | | | |]; cbn [strings head_strings app value build strings_of]; cbn in Wn; try (apply length_zero_iff_nil in Wn as ->; reflexivity); [|exact K].
  rewrite K. clear - Wn. rewrite <- (map_length value) in Wn. generalize dependent (map value l). intros vs. revert vs.
  induction names as [|x names IH]; intros [|y vs] L; cbn in *; try discriminate; [reflexivity|]. now rewrite <- IH by lia.
Qed.

(** ** programs *)
Lemma start_inv : inv (hstart (F := F)) (ANode 0 HArr []) [].
Proof.
  split; cbn.
  - apply holds_node. split; [reflexivity|constructor].
  - apply wf_node. split; [exact I|constructor].
  - intro n. destruct n as [|[|n]]; reflexivity.
  - intros n. unfold upd. destruct (Nat.eqb_spec n 0) as [->|]; [cbn; lia|reflexivity].
  - intros n H. inversion H.
  - auto.
Qed.
Lemma keeps_tidy o : keeps_owner o -> tidy (F := F) o.
Proof.
  destruct o; cbn; auto. intros N P. destruct (address_eqb a t) eqn:E; [now apply address_eqb_iff in E|].
  destruct (strict_prefix a t P E) as (j & r & ->). destruct N. now exists j, r.
Qed.
Lemma run_good os : forall s t lk, inv s t lk ->
  match vrun f_zero (value t) os with
  | Ok w => exists s' t' new, hrun f_zero s os = Ok s' /\ inv s' t' (new ++ lk) /\ value t' = w /\ (Forall keeps_owner os -> new = [])
  | UB => hrun f_zero s os = UB
  | _ => False
  end.
Proof.
  induction os as [|o os IH]; intros s t lk I; cbn [vrun hrun].
  - exists s, t, []. auto.
  - pose proof (step_good f_zero s t lk o I) as G. unfold good in G. destruct (vstep f_zero (value t) o) as [w| | |]; cbn [bind]; try contradiction; [|now rewrite G].
    destruct G as (s1 & t1 & new & E & I1 & V & T). rewrite E. cbn [bind]. specialize (IH s1 t1 (new ++ lk) I1). rewrite V in IH.
    destruct (vrun f_zero w os); try contradiction; [|exact IH]. destruct IH as (s2 & t2 & new2 & E2 & I2 & V2 & T2).
    exists s2, t2, (new2 ++ new). rewrite <- app_assoc. split; [exact E2|]. split; [exact I2|]. split; [exact V2|].
    intros Q. inversion Q; subst. now rewrite T2, T by now try apply keeps_tidy.
Qed.
Lemma run_ok os (s : hstate) (t : atree) lk s' : inv s t lk -> hrun f_zero s os = Ok s' ->
  exists t' new, inv s' t' (new ++ lk) /\ vrun f_zero (value t) os = Ok (value t') /\ (Forall keeps_owner os -> new = []).
Proof.
  intros I E. pose proof (run_good os s t lk I) as G. destruct (vrun f_zero (value t) os); try contradiction.
  - destruct G as (s2 & t2 & new & E2 & I2 & <- & T). assert (s2 = s') as -> by congruence. eauto 6.
  - congruence.
Qed.
Lemma reachable_inv os s : hrun f_zero hstart os = Ok s -> exists t lk, inv s t lk /\ vrun f_zero (JArr []) os = Ok (value t) /\ (Forall keeps_owner os -> lk = []).
Proof.
  intros E. destruct (run_ok os _ _ _ s start_inv E) as (t & new & I & V & T). rewrite app_nil_r in I. eauto.
Qed.
Lemma inv_reach (s : hstate) (t : atree) lk n : inv s t lk -> (reach (mem s) 0 n <-> In n (nodes t)).
Proof. intros I. rewrite <- (proj1 (i_frame _ _ _ I)). apply reach_nodes, I. Qed.
Lemma inv_leads (s : hstate) (t : atree) lk a n : inv s t lk -> (leads (mem s) 0 a n <-> exists v, aget t a = Some v /\ aroot v = n).
Proof. intros I. rewrite <- (proj1 (i_frame _ _ _ I)). apply leads_aget, I. Qed.
Lemma inv_denotes (s : hstate) (t : atree) lk a v : inv s t lk -> (denotes s a v <-> a <> [] /\ get_at (value t) a = Some v).
Proof.
  intros I. unfold denotes. split; intros [Na X]; (split; [exact Na|]).
  - destruct X as (n & L & R). apply (inv_leads s t lk a n I) in L as (u & G & <-). rewrite (get_tree s t lk a u I G). f_equal. symmetry.
    apply (reads_tree (mem s)); [|exact R]. eapply aget_holds; [apply I|exact G].
  - rewrite (get_value t a (i_wf _ _ _ I)) in X. destruct (aget t a) as [u|] eqn:G; [|discriminate]. injection X as <-. exists (aroot u). split.
    + apply (inv_leads s t lk a _ I). eauto.
    + apply tree_reads; [eapply aget_holds; [apply I|exact G]|eapply aget_wf; [apply I|exact G]].
Qed.
Lemma leaked_stays os (s : hstate) (t : atree) lk n s' : inv s t lk -> cnt n lk > 0 -> hrun f_zero s os = Ok s' -> leaked s' n /\ ~ In n (deleted s').
Proof.
  intros I K E. destruct (run_ok os s t lk s' I E) as (t' & new & I' & _). pose proof (i_acct _ _ _ I' n) as A. rewrite cnt_app in A.
  split; [split|].
  - apply (i_lk _ _ _ I'). rewrite cnt_app. lia.
  - intros R. apply (inv_reach s' t' _ n I') in R. apply cnt_in in R. destruct (_ <? _); lia.
  - intros D. apply cnt_in in D. destruct (_ <? _); lia.
Qed.

(** ** what other variables see *)
Lemma get_put_other (w : json) t x y r : hd_error t <> Some y -> t <> [] -> get_at (put_at w t x) (y :: r) = get_at w (y :: r).
Proof.
  destruct t as [|i q]; cbn; [congruence|]. intros D _. destruct (child w i) as [c|] eqn:C; [|reflexivity].
  rewrite (child_set w i _ c) by exact C. destruct (Nat.eqb_spec y i); [congruence|reflexivity].
Qed.
Lemma copy_items_other n : forall (w : json) t s i w' y r, hd_error t <> Some y -> t <> [] -> copy_items w t s i n = Ok w' -> get_at w' (y :: r) = get_at w (y :: r).
Proof.
  induction n as [|n IH]; intros w t s i w' y r D Nt E; cbn [copy_items] in E; [congruence|].
  destruct (get_at w t); [|discriminate]. destruct (get_at w s); [|discriminate]. destruct (child _ i); [|discriminate].
  rewrite (IH _ _ _ _ _ y r D Nt E). now apply get_put_other.
Qed.
Lemma vpush_other (w x w' : json) a v : vpush w x = Ok w' -> a <> [] -> get_at w a = Some v -> get_at w' a = Some v.
Proof.
  destruct w; cbn; try discriminate. intros [= <-] Na. destruct a as [|i r]; [congruence|]. cbn. destruct (nth_error l i) as [c|] eqn:N; [|discriminate].
  rewrite nth_error_app1; [now rewrite N|]. apply nth_error_Some. congruence.
Qed.
Lemma vat_ok (w : json) a v : vat w a = Ok v -> a <> [] /\ get_at w a = Some v.
Proof. unfold vat. destruct a; [discriminate|]. destruct (get_at w _); [|discriminate]. intros [= <-]. split; [discriminate|reflexivity]. Qed.
Lemma untouched (w w' : json) o y r v : vstep f_zero w o = Ok w' -> ~ touches o y -> get_at w (y :: r) = Some v -> get_at w' (y :: r) = Some v.
Proof.
  intros E T G. assert (Ny : y :: r <> []) by discriminate. destruct o; cbn [vstep touches] in *.
  - eapply vpush_other; eauto.
  - eapply vpush_other; eauto.
  - destruct (vat w a); [|discriminate|discriminate|discriminate]. eapply vpush_other; eauto.
  - destruct (vat w a) as [x| | |] eqn:A; try discriminate. cbn [bind] in E. apply vat_ok in A as [Na _]. eapply vpush_other; eauto. now rewrite get_put_other.
  - tauto.
  - destruct (vat w t) as [x| | |] eqn:A; try discriminate. cbn [bind] in E. apply vat_ok in A as [Na _]. injection E as <-. now rewrite get_put_other.
  - destruct (vat w t) as [x| | |] eqn:A; try discriminate. cbn [bind] in E. apply vat_ok in A as [Na _]. injection E as <-. now rewrite get_put_other.
  - destruct (vat w t) as [x| | |] eqn:A; try discriminate. cbn [bind] in E. apply vat_ok in A as [Na _]. destruct (index_pos f_zero x i); try discriminate. cbn [bind] in E.
    injection E as <-. now rewrite get_put_other.
  - destruct (vat w t) as [x| | |] eqn:A; try discriminate. cbn [bind] in E. apply vat_ok in A as [Na _]. injection E as <-. now rewrite get_put_other.
  - destruct (vat w t) as [x| | |] eqn:A; try discriminate. cbn [bind] in E. apply vat_ok in A as [Na _]. destruct (vat w a); try discriminate. cbn [bind] in E.
    injection E as <-. now rewrite get_put_other.
  - destruct (vat w t) as [x| | |] eqn:A; try discriminate. cbn [bind] in E. apply vat_ok in A as [Na _]. destruct (vat w a); try discriminate. cbn [bind] in E.
    unfold copy_assign in E. destruct (get_at w t); [|discriminate]. destruct (get_at w a); [|discriminate]. destruct (address_eqb t a); [congruence|].
    destruct (prefix_of t a); [discriminate|]. rewrite (copy_items_other _ _ _ _ _ _ y r T Na E). now rewrite get_put_other.
  - destruct (vat w t) as [x| | |] eqn:A; try discriminate. cbn [bind] in E. apply vat_ok in A as [Na _]. destruct (vat w a) as [x'| | |] eqn:B; try discriminate. cbn [bind] in E.
    apply vat_ok in B as [Nb _]. assert (T1 : hd_error t <> Some y) by tauto. assert (T2 : hd_error a <> Some y) by tauto.
    unfold move_assign in E. destruct (get_at w t); [|discriminate]. destruct (get_at w a); [|discriminate]. destruct (address_eqb t a); [congruence|].
    destruct (prefix_of t a); [discriminate|]. destruct (prefix_of a t); injection E as <-; now rewrite !get_put_other.
  - destruct (vat w t) as [x| | |] eqn:A; try discriminate. cbn [bind] in E. apply vat_ok in A as [Na _]. injection E as <-. now rewrite get_put_other.
Qed.

Lemma step_ok (s : hstate) (t : atree) lk o s' : inv s t lk -> hstep f_zero s o = Ok s' -> exists t' new, inv s' t' (new ++ lk) /\ vstep f_zero (value t) o = Ok (value t').
Proof.
  intros I E. pose proof (step_good f_zero s t lk o I) as G. unfold good in G. destruct (vstep f_zero (value t) o); try contradiction.
  - destruct G as (s2 & t2 & new & E2 & I2 & <- & _). assert (s2 = s') as -> by congruence. eauto.
  - congruence.
Qed.

(** ** operations that give up ownership *)
Lemma remove_leaks (s : hstate) (t : atree) lk a k v names i c : inv s t lk -> a <> [] -> aget t a = Some v -> ahead v = HObj names ->
  nth_error names i = Some k -> nth_error (akids v) i = Some c ->
  exists s' t' lk', hstep f_zero s (ORemove a k) = Ok s' /\ inv s' t' lk' /\ forall n, In n (nodes c) -> cnt n lk' > 0.
Proof.
  intros I Na G Hh Nk Nc. cbn [hstep]. destruct (hat_ok s t lk a v I Na G) as [E _]. rewrite E. cbn [bind]. unfold remove_at.
  pose proof (aget_holds _ _ _ _ (i_holds _ _ _ I) G) as Hv. pose proof (wf_root _ (aget_wf _ _ _ (i_wf _ _ _ I) G)) as Fi.
  rewrite (hget_ok _ _ _ (holds_root _ _ Hv)), Hh. cbn [bind].
  assert (Ex : existsb (fun k' => s_eqb k' k) names = true).
  { apply existsb_exists. exists k. split; [eapply nth_error_In; eauto|]. now apply s_eqb_iff. }
  rewrite Ex, hset_ok by (rewrite (holds_root _ _ Hv); discriminate).
  destruct v as [n h l]. cbn [ahead akids aroot] in *. subst h. cbn in Fi.
  set (kept := filter (fun p => negb (s_eqb (fst p) k)) (combine names l)).
  set (dr := flat_map nodes (map snd (filter (fun p => negb (negb (s_eqb (fst p) k))) (combine names l)))).
  assert (Re : remaining names (map aroot l) k = map (fun p => (fst p, aroot (snd p))) kept) by apply (remaining_map names l aroot k).
  exists (put_cell s n (HObj (map fst (remaining names (map aroot l) k)), map snd (remaining names (map aroot l) k))), (aput t a (ANode n (HObj (map fst kept)) (map snd kept))), (dr ++ lk).
  split; [reflexivity|]. split.
  - rewrite Re, !map_map. cbn [fst snd]. rewrite <- (map_map snd aroot).
    replace (map (fun x : Str * atree => fst x) kept) with (map fst kept) by reflexivity.
    apply (detach_spec s t lk a (ANode n (HObj names) l) (HObj (map fst kept)) (map snd kept) dr I G).
    + cbn. now rewrite !map_length.
    + intro m. cbn [akids]. apply (filter_cnt names l (fun p => negb (s_eqb (fst p) k)) m Fi).
    + intros y Y. apply in_map_iff in Y as ((k' & y') & <- & Y). apply filter_In in Y as [Y _]. now apply in_combine_r in Y.
    + congruence.
  - intros m Im. rewrite cnt_app. assert (In m dr) as X; [|apply cnt_in in X; lia]. apply in_flat_map. exists c. split; [|exact Im].
    apply in_map_iff. exists (k, c). split; [reflexivity|]. apply filter_In. split.
    + apply (nth_error_In _ i). rewrite nth_combine by exact Fi. now rewrite Nk, Nc.
    + cbn. now rewrite (proj2 (s_eqb_iff k k) eq_refl).
Qed.

Lemma self_move_leaks (s : hstate) (t : atree) lk b j r v w : inv s t lk -> b <> [] -> aget t (b ++ j :: r) = Some v -> aget t b = Some w ->
  exists s' t' lk', hstep f_zero s (OMove (b ++ j :: r) b) = Ok s' /\ inv s' t' lk' /\
  (forall n, In n (nodes w) -> n <> aroot w -> cnt n (flat_map nodes (akids v)) = 0 -> cnt n lk' > 0) /\ cnt (aroot v) lk' > 0.
Proof.
  intros I Nb G Gb. set (a := b ++ j :: r) in *. assert (Na : a <> []) by (unfold a; destruct b; discriminate).
  cbn [hstep]. destruct (hat_ok s t lk a v I Na G) as [Ea _]. destruct (hat_ok s t lk b w I Nb Gb) as [Eb _]. rewrite Ea, Eb. cbn [bind]. unfold move_assign_at.
  assert (Eq : address_eqb a b = false).
  { destruct (address_eqb a b) eqn:X; [|reflexivity]. apply address_eqb_iff in X. apply (f_equal (@length nat)) in X. unfold a in X. rewrite app_length in X. cbn in X. lia. }
  assert (P : prefix_of a b = false).
  { destruct (prefix_of a b) eqn:X; [|reflexivity]. apply prefix_of_iff in X as (q & X). apply (f_equal (@length nat)) in X. unfold a in X. rewrite !app_length in X. cbn in X. lia. }
  rewrite (node_eqb s t lk a b v w I G Gb), Eq.
  destruct (clear_spec s t lk a v I G Na) as (s1 & E1 & Go & Mv & K). rewrite E1. cbn [bind]. unfold move_union.
  pose proof (aget_holds _ _ _ _ (i_holds _ _ _ I) Gb) as Hw. pose proof (aget_holds _ _ _ _ (i_holds _ _ _ I) G) as Hv.
  assert (Mw : mem s1 (aroot w) = Some (ahead w, map aroot (akids w))) by (rewrite (outside_kept s t lk a b v w s1 _ I G Gb P Go); apply (holds_root _ _ Hw)).
  assert (D : aroot v <> aroot w) by (apply Nat.eqb_neq; now rewrite (node_eqb s t lk a b v w I G Gb)).
  rewrite (hget_ok s1 _ _ Mw). cbn [bind]. rewrite hset_ok by (rewrite Mv, (holds_root _ _ Hv); discriminate). cbn [bind].
  rewrite hset_ok by (cbn; rewrite upd_other by congruence; rewrite Mw; discriminate). cbn [mem next deleted lost].
  set (s2 := HState _ _ _ _). destruct (K HNull eq_refl) as [I1 _]. set (v1 := ANode (aroot v) HNull []) in *. set (w0 := ANode (aroot w) (@HNull F) []).
  destruct (aget_kept t a b v1 v w G eq_refl P Gb) as (w' & Gb' & Rs & Hs & Ks & _).
  pose proof (detach_spec _ _ lk b w' HNull [] (flat_map nodes (akids w')) I1 Gb' eq_refl (fun n => eq_refl) (incl_nil_l _)) as I2.
  assert (Fr : b = [] -> @HNull F = HArr) by congruence. specialize (I2 Fr). rewrite Rs in I2. cbn [map] in I2. fold w0 in I2.
  pose proof (aget_aput t a v1 v G) as G1.
  assert (In0 : cnt (aroot v) (flat_map nodes (akids w') ++ lk) > 0).
  { unfold a in G1. rewrite aget_app in G1. fold a in G1. rewrite Gb' in G1. cbn in G1. destruct (nth_error (akids w') j) as [c|] eqn:N; [|discriminate].
    rewrite cnt_app. pose proof (cnt_aget c r v1 (aroot v) G1) as B. pose proof (nodes_root v1) as X. apply cnt_in in X. cbn [aroot v1] in X.
    pose proof (flat_cnt_le (akids w') c (aroot v) (nth_error_In _ _ N)). lia. }
  pose proof (leak_write _ _ _ (aroot v) (ahead w, map aroot (akids w)) I2 In0) as I3.
  exists s2, (aput (aput t a v1) b w0), (flat_map nodes (akids w') ++ lk). split; [reflexivity|]. split; [|split; [|exact In0]].
  - eapply inv_ext; [exact I3| |reflexivity|reflexivity]. intro n. unfold s2. cbn. unfold upd.
    destruct (Nat.eqb_spec n (aroot w)), (Nat.eqb_spec n (aroot v)); try reflexivity; congruence.
  - intros n In1 Nn Z.
    assert (Ww : w' = aput w (j :: r) v1).
    { pose proof (aget_app t b (j :: r)) as X. fold a in X. rewrite Gb in X. clear - Gb Gb' a.
      assert (forall (u : atree) q x, aget u b = Some w -> aget (aput u (b ++ q) x) b = Some (aput w q x)) as Y.
      { clear. induction b as [|i p IH]; intros u q x Q; cbn in *; [congruence|]. destruct (nth_error (akids u) i) as [c|] eqn:N; [|discriminate].
        cbn [akids]. rewrite (nth_set_same _ _ _ _ N). now apply IH. }
      unfold a in Gb'. rewrite (Y t (j :: r) v1 Gb) in Gb'. congruence. }
    assert (Gw : aget w (j :: r) = Some v) by (unfold a in G; now rewrite aget_app, Gb in G).
    pose proof (cnt_aput w (j :: r) v v1 n Gw) as C. rewrite <- Ww in C. apply cnt_in in In1.
    assert (Cv : cnt n (nodes v) = cnt n (nodes v1)).
    { unfold v1. destruct v as [m0 h0 l0]. cbn [nodes aroot akids flat_map] in *. rewrite !cnt_cons, cnt_nil. lia. }
    destruct w' as [m1 h1 l1]. cbn [nodes aroot akids] in *. rewrite cnt_cons in C. destruct (Nat.eqb_spec m1 n); [congruence|]. rewrite cnt_app. lia.
Qed.
End Runs.
