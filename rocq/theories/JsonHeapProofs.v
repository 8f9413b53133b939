(** The memory model JsonHeap.v refines the value model JsonData.v. *)
From Coq Require Import List Arith NArith ZArith Bool Lia.
From Verif Require Import Outcome CharModel StrModel JsonData JsonDataProofs JsonHeap.
Import ListNotations.

Section Proofs.
Context {F : Type}.
Variable f_zero : F.
Notation json := (json F).
Notation head := (head F).
Notation cell := (cell F).
Notation hstate := (hstate F).

(** ** Trees of objects *)
Inductive atree := ANode (n : nat) (h : head) (l : list atree).
Definition aroot (t : atree) : nat := match t with ANode n _ _ => n end.
Definition ahead (t : atree) : head := match t with ANode _ h _ => h end.
Definition akids (t : atree) : list atree := match t with ANode _ _ l => l end.

Section Ind.
  Variable P : atree -> Prop.
  Hypothesis step : forall n h l, Forall P l -> P (ANode n h l).
  Fixpoint atree_ind' (t : atree) : P t :=
    match t with
    | ANode n h l => step n h l ((fix go l := match l as l0 return Forall P l0 with
                                   | [] => Forall_nil P
                                   | x :: r => Forall_cons x (atree_ind' x) (go r)
                                   end) l)
    end.
End Ind.

Fixpoint subs (t : atree) : list atree := match t with ANode n h l => ANode n h l :: flat_map subs l end.
Fixpoint nodes (t : atree) : list nat := match t with ANode n _ l => n :: flat_map nodes l end.
Definition cnt (n : nat) (l : list nat) : nat := count_occ Nat.eq_dec l n.

Lemma cnt_app n a b : cnt n (a ++ b) = cnt n a + cnt n b.
Proof. apply count_occ_app. Qed.
Lemma cnt_cons n x l : cnt n (x :: l) = (if Nat.eqb x n then 1 else 0) + cnt n l.
Proof.
  unfold cnt. destruct (Nat.eqb_spec x n) as [->|H].
  - now rewrite count_occ_cons_eq.
  - now rewrite count_occ_cons_neq.
Qed.
Lemma cnt_nil n : cnt n [] = 0. Proof. reflexivity. Qed.
Lemma cnt_in n l : cnt n l > 0 <-> In n l.
Proof. unfold cnt. symmetry. apply count_occ_In. Qed.
Lemma cnt_0 n l : cnt n l = 0 <-> ~ In n l.
Proof. rewrite <- cnt_in. lia. Qed.
Lemma cnt_seq n a k : cnt n (seq a k) = if (a <=? n) && (n <? a + k) then 1 else 0.
Proof.
  revert a. induction k as [|k IH]; intros a; cbn [seq].
  - rewrite cnt_nil. destruct (Nat.leb_spec a n), (Nat.ltb_spec n (a + 0)); cbn; lia.
  - rewrite cnt_cons, IH. destruct (Nat.eqb_spec a n), (Nat.leb_spec a n), (Nat.ltb_spec n (a + S k)), (Nat.leb_spec (S a) n), (Nat.ltb_spec n (S a + k)); cbn; lia.
Qed.

Definition holds (m : nat -> option cell) (t : atree) : Prop :=
  forall u, In u (subs t) -> m (aroot u) = Some (ahead u, map aroot (akids u)).
(** the number of pointers fits the head *)
Definition fits (h : head) (k : nat) : Prop :=
  match h with HObj ks => length ks = k | HArr => True | _ => k = 0 end.
Definition wf (t : atree) : Prop := forall u, In u (subs t) -> fits (ahead u) (length (akids u)).

Definition build (h : head) (vs : list json) : json :=
  match h with
  | HNull => JNull | HObj ks => JObj (combine ks vs) | HArr => JArr vs | HStr s => JStr s
  | HFloat f => JFloat f | HInt z => JInt z | HBool b => JBool b
  end.
Fixpoint value (t : atree) : json := match t with ANode _ h l => build h (map value l) end.

Lemma subs_root t : In t (subs t).
Proof. destruct t. now left. Qed.
Lemma nodes_root t : In (aroot t) (nodes t).
Proof. destruct t. now left. Qed.
Lemma holds_root m t : holds m t -> m (aroot t) = Some (ahead t, map aroot (akids t)).
Proof. intros H. apply H, subs_root. Qed.
Lemma wf_root t : wf t -> fits (ahead t) (length (akids t)).
Proof. intros H. apply H, subs_root. Qed.
Lemma in_kids {A} (f : atree -> list A) x l c : In c l -> In x (f c) -> In x (flat_map f l).
Proof. intros. apply in_flat_map. eauto. Qed.
Lemma holds_node m n h l : holds m (ANode n h l) <-> m n = Some (h, map aroot l) /\ Forall (holds m) l.
Proof.
  split.
  - intros H. split; [apply (H (ANode n h l)), subs_root|]. apply Forall_forall. intros c I u U. apply H. right. eapply in_kids; eauto.
  - intros [R K] u [<-|U]; [exact R|]. apply in_flat_map in U as (c & I & U). rewrite Forall_forall in K. now apply (K c I).
Qed.
Lemma wf_node n h l : wf (ANode n h l) <-> fits h (length l) /\ Forall wf l.
Proof.
  split.
  - intros H. split; [apply (H (ANode n h l)), subs_root|]. apply Forall_forall. intros c I u U. apply H. right. eapply in_kids; eauto.
  - intros [R K] u [<-|U]; [exact R|]. apply in_flat_map in U as (c & I & U). rewrite Forall_forall in K. now apply (K c I).
Qed.
Lemma subs_nodes t : forall u, In u (subs t) -> In (aroot u) (nodes t).
Proof.
  induction t as [n h l IH] using atree_ind'. intros u [<-|U]; [now left|]. right.
  apply in_flat_map in U as (c & I & U). rewrite Forall_forall in IH. eapply in_kids; eauto.
Qed.
Lemma nodes_subs t : forall n, In n (nodes t) -> exists u, In u (subs t) /\ aroot u = n.
Proof.
  induction t as [m h l IH] using atree_ind'. intros n [<-|U]; [exists (ANode m h l); split; [now left|reflexivity]|].
  apply in_flat_map in U as (c & I & U). rewrite Forall_forall in IH. destruct (IH c I n U) as (u & Hu & E).
  exists u. split; [right; eapply in_kids; eauto|exact E].
Qed.
Lemma holds_agree m m' t : holds m t -> (forall n, In n (nodes t) -> m' n = m n) -> holds m' t.
Proof. intros H E u U. rewrite E by now apply subs_nodes. now apply H. Qed.
Lemma holds_live m t n : holds m t -> In n (nodes t) -> m n <> None.
Proof. intros H I. destruct (nodes_subs t n I) as (u & U & <-). rewrite (H u U). discriminate. Qed.

(** ** Addresses *)
Fixpoint aget (t : atree) (a : list nat) : option atree :=
  match a with [] => Some t | i :: r => match nth_error (akids t) i with Some c => aget c r | None => None end end.
Fixpoint aput (t : atree) (a : list nat) (u : atree) : atree :=
  match a with
  | [] => u
  | i :: r => match nth_error (akids t) i with
              | Some c => ANode (aroot t) (ahead t) (set_nth (akids t) i (aput c r u))
              | None => t
              end
  end.

Lemma set_nth_length {A} (l : list A) i x : length (set_nth l i x) = length l.
Proof. revert i. induction l as [|y l IH]; intros [|i]; cbn; auto. Qed.
Lemma nth_set_same {A} (l : list A) i x y : nth_error l i = Some y -> nth_error (set_nth l i x) i = Some x.
Proof. revert i. induction l as [|z l IH]; intros [|i]; cbn; try discriminate; auto. Qed.
Lemma nth_set_other {A} (l : list A) i j x : i <> j -> nth_error (set_nth l i x) j = nth_error l j.
Proof. revert i j. induction l as [|z l IH]; intros [|i] [|j] H; cbn; auto; try congruence; apply IH; congruence. Qed.
Lemma set_nth_split {A} (l : list A) i y : nth_error l i = Some y ->
  exists p q, l = p ++ y :: q /\ length p = i /\ forall x, set_nth l i x = p ++ x :: q.
Proof.
  revert i. induction l as [|z l IH]; intros [|i]; cbn; try discriminate.
  - intros [= ->]. exists [], l. auto.
  - intros H. destruct (IH i H) as (p & q & -> & <- & E). exists (z :: p), q. repeat split. intro x. now rewrite E.
Qed.

Lemma aput_root t a u v : aget t a = Some v -> aroot u = aroot v -> aroot (aput t a u) = aroot t.
Proof. destruct a as [|i r]; cbn; [intros [= ->]; auto|]. destruct (nth_error (akids t) i); [reflexivity|discriminate]. Qed.
Lemma aget_subs t a u : aget t a = Some u -> incl (subs u) (subs t).
Proof.
  revert t. induction a as [|i r IH]; intros [n h l]; cbn.
  - intros [= <-]. apply incl_refl.
  - destruct (nth_error l i) as [c|] eqn:E; [|discriminate]. intros H x X. right. eapply in_kids; [eapply nth_error_In; eauto|]. now apply (IH c H).
Qed.
Lemma aget_holds m t a u : holds m t -> aget t a = Some u -> holds m u.
Proof. intros H G x X. apply H. eapply aget_subs; eauto. Qed.
Lemma aget_wf t a u : wf t -> aget t a = Some u -> wf u.
Proof. intros H G x X. apply H. eapply aget_subs; eauto. Qed.
Lemma aget_app t a b : aget t (a ++ b) = match aget t a with Some u => aget u b | None => None end.
Proof. revert t. induction a as [|i r IH]; intros t; cbn; [reflexivity|]. destruct (nth_error (akids t) i); auto. Qed.

(** the objects outside a subtree *)
Lemma cnt_aput t a v u n : aget t a = Some v -> cnt n (nodes (aput t a u)) + cnt n (nodes v) = cnt n (nodes t) + cnt n (nodes u).
Proof.
  revert t. induction a as [|i r IH]; intros [m h l]; cbn [aget aput akids aroot ahead].
  - intros [= ->]. lia.
  - destruct (nth_error l i) as [c|] eqn:E; [|discriminate]. intros G. specialize (IH c G).
    destruct (set_nth_split l i c E) as (p & q & -> & _ & S). rewrite S. cbn [nodes].
    rewrite !cnt_cons, !flat_map_app. cbn [flat_map]. rewrite !cnt_app. lia.
Qed.
Lemma cnt_aget t a v n : aget t a = Some v -> cnt n (nodes v) <= cnt n (nodes t).
Proof.
  revert t. induction a as [|i r IH]; intros [m h l]; cbn [aget akids].
  - intros [= ->]. lia.
  - destruct (nth_error l i) as [c|] eqn:E; [|discriminate]. intros G. specialize (IH c G).
    destruct (set_nth_split l i c E) as (p & q & -> & _ & _). cbn [nodes].
    rewrite !cnt_cons, !flat_map_app. cbn [flat_map]. rewrite !cnt_app. lia.
Qed.

Definition once (t : atree) : Prop := forall n, cnt n (nodes t) <= 1.
Lemma once_aget t a v : once t -> aget t a = Some v -> once v.
Proof. intros O G n. specialize (O n). pose proof (cnt_aget t a v n G). lia. Qed.
Lemma once_kid n h l c : once (ANode n h l) -> In c l -> once c /\ cnt n (nodes c) = 0.
Proof.
  intros O I. apply in_split in I as (p & q & ->).
  assert (K : forall k, cnt k (nodes (ANode n h (p ++ c :: q))) = (if Nat.eqb n k then 1 else 0) + (cnt k (flat_map nodes p) + (cnt k (nodes c) + cnt k (flat_map nodes q)))).
  { intro k. cbn [nodes]. rewrite cnt_cons, flat_map_app. cbn [flat_map]. now rewrite !cnt_app. }
  split; [intro k; specialize (O k); rewrite K in O; lia|]. specialize (O n). rewrite K, Nat.eqb_refl in O. lia.
Qed.

(** changing a subtree and nothing else *)
Lemma holds_aput m m' t a v u : holds m t -> aget t a = Some v -> once t -> holds m' u -> aroot u = aroot v ->
  (forall n, In n (nodes t) -> cnt n (nodes v) = 0 -> m' n = m n) -> holds m' (aput t a u).
Proof.
  revert t. induction a as [|i r IH]; intros [n h l]; cbn [aget aput akids aroot ahead].
  - intros _ [= ->] _ Hu _ _. exact Hu.
  - intros H G O Hu R E. destruct (nth_error l i) as [c|] eqn:N; [|discriminate].
    assert (I : In c l) by (eapply nth_error_In; eauto). destruct (once_kid n h l c O I) as [Oc Z].
    pose proof (cnt_aget c r v n G) as Zv. apply holds_node in H as [Hn Hl]. apply holds_node.
    destruct (set_nth_split l i c N) as (p & q & -> & _ & S). rewrite S. split.
    + rewrite E, Hn; [|now left|lia]. do 2 f_equal. rewrite !map_app. cbn. now rewrite (aput_root c r u v G R).
    + apply Forall_app in Hl as [Hp Hq]. inversion Hq as [|? ? Hc Hq']; subst.
      assert (D : forall x, In x (p ++ q) -> forall k, In k (nodes x) -> cnt k (nodes v) = 0 /\ In k (nodes (ANode n h (p ++ c :: q)))).
      { intros x X k K. specialize (O k). cbn [nodes] in O. rewrite cnt_cons, flat_map_app in O. cbn [flat_map] in O. rewrite !cnt_app in O.
        pose proof (cnt_aget c r v k G) as V. apply in_app_iff in X.
        assert (cnt k (flat_map nodes p) + cnt k (flat_map nodes q) > 0).
        { destruct X as [X|X]; assert (cnt k (flat_map nodes p) > 0 \/ cnt k (flat_map nodes q) > 0) by (rewrite !cnt_in; (left + right); eapply in_kids; eauto; fail); lia. }
        split; [lia|]. right. apply in_flat_map. exists x. split; [|exact K]. apply in_app_iff. destruct X; [now left|right; now right]. }
      apply Forall_app. split; [|constructor].
      * rewrite Forall_forall in *. intros x X. apply (holds_agree m); [now apply Hp|]. intros k K.
        destruct (D x (in_or_app _ _ _ (or_introl X)) k K). now apply E.
      * apply IH; auto. intros k K Kv. apply E; [right; eapply in_kids; eauto|exact Kv].
      * rewrite Forall_forall in *. intros x X. apply (holds_agree m); [now apply Hq'|]. intros k K.
        destruct (D x (in_or_app _ _ _ (or_intror X)) k K). now apply E.
Qed.
Lemma wf_aput t a v u : wf t -> aget t a = Some v -> wf u -> wf (aput t a u).
Proof.
  revert t. induction a as [|i r IH]; intros [n h l]; cbn [aget aput akids aroot ahead]; [auto|].
  intros H G Hu. destruct (nth_error l i) as [c|] eqn:N; [|discriminate]. apply wf_node in H as [Hf Hl].
  apply wf_node. rewrite set_nth_length. split; [exact Hf|].
  destruct (set_nth_split l i c N) as (p & q & -> & _ & S). rewrite S.
  apply Forall_app in Hl as [Hp Hq]. inversion Hq; subst. apply Forall_app. split; [assumption|]. constructor; auto.
Qed.

(** values *)
Lemma nth_combine {A B} (l : list A) (m : list B) i : length l = length m ->
  nth_error (combine l m) i = match nth_error l i, nth_error m i with Some x, Some y => Some (x, y) | _, _ => None end.
Proof. revert m i. induction l as [|x l IH]; intros [|y m] [|i] H; cbn in *; try discriminate; auto. Qed.
Lemma child_build h vs i : fits h (length vs) -> child (build h vs) i = nth_error vs i.
Proof.
  destruct h; cbn; intros H; try (destruct vs; [now destruct i|discriminate]); try reflexivity.
  rewrite nth_combine by exact H. destruct (nth_error ks i) eqn:E, (nth_error vs i) eqn:E'; cbn; try reflexivity.
  apply nth_error_None in E. assert (nth_error vs i <> None) as X by congruence. apply nth_error_Some in X. lia.
Qed.
Lemma set_child_build h vs i x y : fits h (length vs) -> nth_error vs i = Some y ->
  set_child (build h vs) i x = build h (set_nth vs i x).
Proof.
  destruct h; cbn; intros H E; try (destruct vs; [now destruct i|discriminate]); try reflexivity.
  rewrite nth_combine by exact H. rewrite E. destruct (nth_error ks i) as [k|] eqn:K.
  - f_equal. clear - E K. revert ks vs E K. induction i as [|i IH]; intros [|z ks] [|v vs] E K; cbn in *; try discriminate.
    + now injection K as ->.
    + now rewrite IH.
  - apply nth_error_None in K. assert (nth_error vs i <> None) as X by congruence. apply nth_error_Some in X. lia.
Qed.
Lemma value_node t : value t = build (ahead t) (map value (akids t)).
Proof. now destruct t. Qed.
Lemma nth_map {A B} (f : A -> B) l i : nth_error (map f l) i = option_map f (nth_error l i).
Proof. revert i. induction l; intros [|i]; cbn; auto. Qed.
Lemma get_value t a : wf t -> get_at (value t) a = option_map value (aget t a).
Proof.
  revert t. induction a as [|i r IH]; intros t W; cbn; [reflexivity|]. rewrite value_node, child_build by (rewrite map_length; now apply wf_root).
  rewrite nth_map. destruct (nth_error (akids t) i) as [c|] eqn:E; cbn; [|reflexivity]. apply IH.
  apply (aget_wf t [i]); [exact W|]. cbn. now rewrite E.
Qed.
Lemma map_set_nth {A B} (f : A -> B) l i x : map f (set_nth l i x) = set_nth (map f l) i (f x).
Proof. revert i. induction l; intros [|i]; cbn; auto. now rewrite IHl. Qed.
Lemma put_value t a u v : wf t -> aget t a = Some v -> put_at (value t) a (value u) = value (aput t a u).
Proof.
  revert t. induction a as [|i r IH]; intros t W; cbn; [reflexivity|]. rewrite (value_node t).
  pose proof (wf_root t W) as Fi. rewrite child_build by now rewrite map_length.
  rewrite nth_map. destruct (nth_error (akids t) i) as [c|] eqn:E; cbn [option_map]; [|discriminate]. intros G.
  rewrite (IH c); [|apply (aget_wf t [i]); [exact W|cbn; now rewrite E]|exact G].
  rewrite (set_child_build _ _ i _ (value c)) by (rewrite ?map_length, ?nth_map, ?E; auto).
  cbn [value]. now rewrite map_set_nth.
Qed.

(** the way to an object in memory *)
Lemma resolve_aget m t a : holds m t -> resolve m (aroot t) a = option_map aroot (aget t a).
Proof.
  revert t. induction a as [|i r IH]; intros t H; cbn; [reflexivity|]. rewrite (holds_root m t H), nth_map.
  destruct (nth_error (akids t) i) as [c|] eqn:E; cbn; [|reflexivity]. apply IH. apply (aget_holds m t [i]); [exact H|]. cbn. now rewrite E.
Qed.

(** different addresses, different objects *)
Lemma aget_unique t a b u v : once t -> aget t a = Some u -> aget t b = Some v -> aroot u = aroot v -> a = b.
Proof.
  revert t b. induction a as [|i r IH]; intros [n h l] b O Ga Gb R.
  - cbn in Ga. injection Ga as <-. destruct b as [|j q]; [reflexivity|]. exfalso. cbn in Gb, R. destruct (nth_error l j) as [c|] eqn:N; [|discriminate].
    destruct (once_kid n h l c O (nth_error_In _ _ N)) as [_ Z]. pose proof (cnt_aget c q v n Gb) as V.
    pose proof (nodes_root v) as I. rewrite <- R in I. apply cnt_in in I. lia.
  - cbn in Ga. destruct (nth_error l i) as [c|] eqn:N; [|discriminate]. destruct b as [|j q].
    + exfalso. cbn in Gb. injection Gb as <-. cbn in R.
      destruct (once_kid n h l c O (nth_error_In _ _ N)) as [_ Z]. pose proof (cnt_aget c r u n Ga) as V.
      pose proof (nodes_root u) as I. rewrite R in I. apply cnt_in in I. lia.
    + cbn in Gb. destruct (nth_error l j) as [d|] eqn:N'; [|discriminate]. destruct (Nat.eq_dec i j) as [->|D].
      * rewrite N in N'. injection N' as <-. f_equal. apply (IH c); auto. now apply (once_kid n h l c O), nth_error_In with j.
      * exfalso. pose proof (cnt_aget c r u (aroot u) Ga) as V1. pose proof (cnt_aget d q v (aroot u) Gb) as V2.
        pose proof (nodes_root u) as I1. apply cnt_in in I1. pose proof (nodes_root v) as I2. rewrite <- R in I2. apply cnt_in in I2.
        specialize (O (aroot u)). destruct (set_nth_split l i c N) as (p & s & -> & L & _).
        cbn [nodes] in O. rewrite cnt_cons, flat_map_app in O. cbn [flat_map] in O. rewrite !cnt_app in O.
        assert (X : cnt (aroot u) (flat_map nodes p) > 0 \/ cnt (aroot u) (flat_map nodes s) > 0).
        { rewrite !cnt_in. assert (In d (p ++ s)) as X.
          { destruct (Nat.lt_ge_cases j (length p)) as [Lt|Ge].
            - rewrite nth_error_app1 in N' by exact Lt. apply in_app_iff. left. eapply nth_error_In; eauto.
            - rewrite nth_error_app2 in N' by exact Ge. destruct (j - length p) as [|k] eqn:K; [lia|]. cbn in N'.
              apply in_app_iff. right. eapply nth_error_In; eauto. }
          apply in_app_iff in X as [X|X]; [left|right]; (eapply in_kids; [exact X|]); apply cnt_in; lia. }
        lia.
Qed.

(** ** Deleting *)
Definition head_strings (h : head) : list Str := match h with HStr x => [x] | _ => [] end.
Fixpoint strings (t : atree) : list Str := match t with ANode _ h l => head_strings h ++ flat_map strings l end.
Definition gone (s : hstate) (ns : list nat) (strs : list Str) (s' : hstate) : Prop :=
  next s' = next s /\ (forall n, mem s' n = if cnt n ns =? 0 then mem s n else None) /\
  (forall n, cnt n (deleted s') = cnt n (deleted s) + cnt n ns) /\ lost s' = lost s ++ strs.
Lemma gone_refl s : gone s [] [] s.
Proof. repeat split; intros; cbn; auto. now rewrite app_nil_r. Qed.
Lemma gone_trans s a x s1 b y s2 : gone s a x s1 -> gone s1 b y s2 -> gone s (a ++ b) (x ++ y) s2.
Proof.
  intros (N1 & M1 & D1 & L1) (N2 & M2 & D2 & L2). split; [congruence|]. split; [|split].
  - intro n. rewrite M2, M1, cnt_app. destruct (cnt n a), (cnt n b); reflexivity.
  - intro n. rewrite D2, D1, cnt_app. lia.
  - now rewrite L2, L1, app_assoc.
Qed.
Lemma note_gone h s : gone s [] (head_strings h) (note h s).
Proof. destruct h; cbn; repeat split; intros; cbn; auto; now rewrite app_nil_r. Qed.
Lemma hget_ok (s : hstate) n c : mem s n = Some c -> hget s n = Ok c.
Proof. intros H. unfold hget. now rewrite H. Qed.
Lemma hset_ok (s : hstate) n c : mem s n <> None -> hset s n c = Ok (HState (upd (mem s) n (Some c)) (next s) (deleted s) (lost s)).
Proof. intros H. unfold hset. destruct (mem s n); [reflexivity|contradiction]. Qed.
Lemma upd_same (m : nat -> option cell) n c : upd m n c n = c.
Proof. unfold upd. now rewrite Nat.eqb_refl. Qed.
Lemma upd_other (m : nat -> option cell) n c i : i <> n -> upd m n c i = m i.
Proof. intros H. unfold upd. destruct (Nat.eqb_spec i n); [contradiction|reflexivity]. Qed.

Lemma flat_cnt_le l c n : In c l -> cnt n (nodes c) <= cnt n (flat_map nodes l).
Proof. intros I. apply in_split in I as (p & q & ->). rewrite flat_map_app. cbn [flat_map]. rewrite !cnt_app. lia. Qed.

Lemma hdelete_list f : (forall s t, holds (mem s) t -> once t -> length (nodes t) <= f ->
    exists s', hdelete f s (aroot t) = Ok s' /\ gone s (nodes t) (strings t) s') ->
  forall l s, Forall (holds (mem s)) l -> (forall n, cnt n (flat_map nodes l) <= 1) -> length (flat_map nodes l) <= f ->
  exists s', hfold (hdelete f) s (map aroot l) = Ok s' /\ gone s (flat_map nodes l) (flat_map strings l) s'.
Proof.
  intros IH. induction l as [|t l IHl]; intros s H O L; cbn [map hfold flat_map].
  - exists s. split; [reflexivity|apply gone_refl].
  - inversion H as [|? ? Ht Hl]; subst. cbn [flat_map] in O, L. rewrite app_length in L.
    assert (O1 : forall n, cnt n (nodes t) + cnt n (flat_map nodes l) <= 1) by (intro n; rewrite <- cnt_app; apply O).
    destruct (IH s t Ht) as (s1 & E & G); [intro n; specialize (O1 n); lia|lia|]. rewrite E. cbn [bind].
    destruct (IHl s1) as (s2 & E2 & G2).
    + destruct G as (_ & M & _). rewrite Forall_forall in *. intros c I. apply (holds_agree (mem s)); [now apply Hl|].
      intros n K. rewrite M. specialize (O1 n). pose proof (flat_cnt_le l c n I) as X. apply cnt_in in K.
      destruct (Nat.eqb_spec (cnt n (nodes t)) 0); [reflexivity|lia].
    + intro n. specialize (O1 n). lia.
    + lia.
    + exists s2. split; [exact E2|]. eapply gone_trans; eauto.
Qed.
Lemma hdelete_spec fuel : forall s t, holds (mem s) t -> once t -> length (nodes t) <= fuel ->
  exists s', hdelete fuel s (aroot t) = Ok s' /\ gone s (nodes t) (strings t) s'.
Proof.
  induction fuel as [|f IH]; intros s [n h l] H O L; [cbn in L; lia|].
  cbn [hdelete aroot]. apply holds_node in H as [Hn Hl]. rewrite (hget_ok _ _ _ Hn). cbn [bind].
  cbn [nodes length] in L. pose proof (note_gone h s) as Gn.
  assert (Oc : forall k, (if Nat.eqb n k then 1 else 0) + cnt k (flat_map nodes l) <= 1) by (intro k; rewrite <- cnt_cons; apply O).
  destruct (hdelete_list f IH l (note h s)) as (s1 & E & G).
  - rewrite Forall_forall in *. intros c I. apply (holds_agree (mem s)); [now apply Hl|]. intros k K. destruct Gn as (_ & M & _). now rewrite M.
  - intro k. specialize (Oc k). lia.
  - lia.
  - rewrite E. cbn [bind]. pose proof (gone_trans _ _ _ _ _ _ _ Gn G) as (N & M & D & Lo). cbn [app] in *.
    unfold hfree. rewrite M. specialize (Oc n) as On. rewrite Nat.eqb_refl in On. replace (cnt n (flat_map nodes l)) with 0 by lia. cbn [Nat.eqb].
    rewrite Hn. eexists. split; [reflexivity|]. split; [exact N|]. cbn [mem deleted lost nodes strings]. split; [|split].
    + intro k. rewrite cnt_cons. unfold upd. rewrite (Nat.eqb_sym k n). destruct (Nat.eqb n k); [reflexivity|]. cbn [Nat.add]. apply M.
    + intro k. rewrite cnt_app, D, !cnt_cons, cnt_nil. lia.
    + exact Lo.
Qed.
Lemma gone_holds s ns x s' t : gone s ns x s' -> holds (mem s) t -> (forall n, cnt n ns + cnt n (nodes t) <= 1) -> holds (mem s') t.
Proof.
  intros (_ & M & _) H O. apply (holds_agree (mem s)); [exact H|]. intros n I. apply cnt_in in I. rewrite M. specialize (O n).
  destruct (Nat.eqb_spec (cnt n ns) 0); [reflexivity|lia].
Qed.

(** ** Copying *)
Definition grown (s : hstate) (k : nat) (s' : hstate) : Prop :=
  next s' = next s + k /\ deleted s' = deleted s /\ lost s' = lost s.
(** [fresh]: nothing lives at addresses not yet handed out *)
Definition fresh (s : hstate) : Prop := forall n, next s <= n -> mem s n = None.

Fixpoint size (t : atree) : nat := match t with ANode _ _ l => S (list_sum (map size l)) end.
Lemma size_nodes t : length (nodes t) = size t.
Proof.
  induction t as [n h l IH] using atree_ind'. cbn. f_equal. induction IH as [|x l Hx Hl IHl]; cbn; [reflexivity|]. now rewrite app_length, Hx, IHl.
Qed.

Lemma seq_split a i j : seq a i ++ seq (a + i) j = seq a (i + j).
Proof. symmetry. apply seq_app. Qed.

(** the head after some of the members were pushed *)
Definition part (h : head) (i : nat) : head := match h with HObj ks => HObj (firstn i ks) | _ => h end.
Lemma part_0 h : part h 0 = hempty h. Proof. now destruct h. Qed.
Lemma part_all h k : fits h k -> part h k = h.
Proof. destruct h; cbn; try reflexivity. intros <-. now rewrite firstn_all. Qed.
Lemma nth_items (h : head) ks i c : fits h (length ks) -> nth_error ks i = Some c ->
  exists key, nth_error (items h ks) i = Some (key, c) /\
    (match part h i, key with HObj names, Some k => HObj (names ++ [k]) | _, _ => part h i end) = part h (S i).
Proof.
  intros Fi N. destruct h as [|names| | | | |]; cbn in Fi; try (destruct ks; [destruct i; discriminate|discriminate]).
  - cbn. assert (i < length names) as L. { assert (nth_error ks i <> None) as X by congruence. apply nth_error_Some in X. lia. }
    destruct (nth_error names i) as [k|] eqn:K; [|apply nth_error_None in K; lia].
    exists (Some k). split.
    + rewrite nth_combine by (now rewrite map_length). now rewrite nth_map, K, N.
    + f_equal. clear - K. revert names K. induction i as [|i IH]; intros [|x names] K; cbn in *; try discriminate.
      * now injection K as ->.
      * f_equal. now apply IH.
  - cbn. exists None. split; [now rewrite nth_map, N|reflexivity].
Qed.
Lemma items_length (h : head) ks : fits h (length ks) -> length (items h ks) = length ks.
Proof. destruct h; cbn; intros H; rewrite ?map_length; auto. rewrite combine_length, map_length. lia. Qed.
Lemma skipn_nth {A} (l : list A) i x : nth_error l i = Some x -> skipn i l = x :: skipn (S i) l.
Proof. revert i. induction l as [|y l IH]; intros [|i] H; cbn in *; try discriminate; [congruence|]. now rewrite (IH i H). Qed.

Lemma hpush_ok (s : hstate) n h ks key c : mem s n = Some (h, ks) ->
  hpush s n key c = Ok (HState (upd (mem s) n (Some (match h, key with HObj names, Some k => HObj (names ++ [k]) | _, _ => h end, ks ++ [c]))) (next s) (deleted s) (lost s)).
Proof. intros H. unfold hpush. rewrite (hget_ok _ _ _ H). cbn [bind]. apply hset_ok. congruence. Qed.

Definition copied (s : hstate) (t : atree) (s' : hstate) (t' : atree) : Prop :=
  aroot t' = next s /\ value t' = value t /\ wf t' /\ nodes t' = seq (next s) (size t) /\ size t' = size t /\
  grown s (size t) s' /\ holds (mem s') t' /\ fresh s' /\ (forall n, n < next s -> mem s' n = mem s n) /\ ahead t' = ahead t /\ strings t' = strings t.

Lemma hcopy_spec fuel : forall s t, holds (mem s) t -> wf t -> size t <= fuel -> fresh s -> (forall n, In n (nodes t) -> n < next s) ->
  exists s' t', hcopy fuel s (aroot t) = Ok s' /\ copied s t s' t'.
Proof.
  induction fuel as [|f IH]; intros s [n h l] H W L Fr B; [cbn in L; lia|].
  cbn [hcopy aroot]. apply holds_node in H as [Hn Hl]. apply wf_node in W as [Wf Wl]. rewrite (hget_ok _ _ _ Hn). cbn [bind].
  assert (K : forall i, i <= length l ->
    exists s1 l1, hfold (fun s1 p => s2 <- hcopy f s1 (snd p) ;; hpush s2 (next s) (fst p) (next s1)) (halloc s (hempty h, [])) (items h (map aroot l)) =
      hfold (fun s1 p => s2 <- hcopy f s1 (snd p) ;; hpush s2 (next s) (fst p) (next s1)) s1 (skipn i (items h (map aroot l))) /\
    mem s1 (next s) = Some (part h i, map aroot l1) /\ Forall (holds (mem s1)) l1 /\ Forall wf l1 /\ length l1 = i /\ map value l1 = map value (firstn i l) /\
    flat_map nodes l1 = seq (S (next s)) (list_sum (map size (firstn i l))) /\ list_sum (map size l1) = list_sum (map size (firstn i l)) /\
    grown s (S (list_sum (map size (firstn i l)))) s1 /\ fresh s1 /\ (forall k, k < next s -> mem s1 k = mem s k) /\
    flat_map strings l1 = flat_map strings (firstn i l)).
  { induction i as [|i IHi]; intros Li.
    - exists (halloc s (hempty h, [])), []. cbn. rewrite upd_same, part_0. repeat split; auto.
      + cbn; lia.
      + intros k Hk. cbn in *. rewrite upd_other by lia. apply Fr. lia.
      + intros k Hk. rewrite upd_other by lia. reflexivity.
    - destruct IHi as (s1 & l1 & E & M & Hh & Hw & Len & V & Nd & Sz & (G1 & G2 & G3) & Fr1 & Old & Str); [lia|].
      destruct (nth_error l i) as [c|] eqn:Nc; [|apply nth_error_None in Nc; lia].
      assert (Ic : In c l) by (eapply nth_error_In; eauto).
      assert (Bc : forall k, In k (nodes c) -> k < next s). { intros k Hk. apply B. cbn. right. eapply in_kids; eauto. }
      destruct (nth_items h (map aroot l) i (aroot c)) as (key & It & Pt); [now rewrite map_length|now rewrite nth_map, Nc|].
      rewrite E, (skipn_nth _ _ _ It). cbn [hfold snd fst].
      assert (Ef : firstn (S i) l = firstn i l ++ [c]).
      { clear - Nc. revert l Nc. induction i as [|i IHi]; intros [|x l] Nc; cbn in *; try discriminate; [now injection Nc as ->|]. f_equal. now apply IHi. }
      destruct (IH s1 c) as (s2 & c' & Ec & (R & Vc & Wc & Nc' & Sc & (G1' & G2' & G3') & Hc & Fr2 & Old2 & _ & Strc)).
      + rewrite Forall_forall in Hl. apply (holds_agree (mem s)); [now apply Hl|]. intros k Hk. apply Old. now apply Bc.
      + rewrite Forall_forall in Wl. now apply Wl.
      + cbn [size] in L. apply in_split in Ic as (p & q & ->). rewrite map_app, list_sum_app in L. cbn in L. lia.
      + exact Fr1.
      + intros k Hk. specialize (Bc k Hk). lia.
      + rewrite Ec. cbn [bind].
        assert (M2 : mem s2 (next s) = Some (part h i, map aroot l1)) by (rewrite Old2 by lia; exact M).
        rewrite (hpush_ok _ _ _ _ _ _ M2). cbn [bind]. rewrite Pt.
        eexists _, (l1 ++ [c']). split; [reflexivity|]. cbn [mem next deleted lost]. rewrite upd_same. split; [rewrite map_app; cbn; now rewrite R|].
        assert (Ag : forall k, k <> next s -> upd (mem s2) (next s) (Some (part h (S i), map aroot l1 ++ [next s1])) k = mem s2 k) by (intros; now apply upd_other).
        split; [|split; [|split; [|split; [|split; [|split; [|split; [|split; [|split]]]]]]]].
        * apply Forall_app. split; [|constructor; [|constructor]].
          { rewrite Forall_forall in *. intros x X. apply (holds_agree (mem s1)); [now apply Hh|]. intros k Hk.
            assert (Ik : In k (flat_map nodes l1)) by (eapply in_kids; eauto). rewrite Nd in Ik. apply in_seq in Ik. rewrite Ag by lia. apply Old2. lia. }
          { apply (holds_agree (mem s2)); [exact Hc|]. intros k Hk. rewrite Nc' in Hk. apply in_seq in Hk. apply Ag. lia. }
        * apply Forall_app. auto.
        * rewrite app_length. cbn. lia.
        * rewrite Ef, !map_app, V. cbn. now rewrite Vc.
        * rewrite Ef, flat_map_app, map_app, list_sum_app. cbn [flat_map map list_sum fold_right]. rewrite app_nil_r, Nd, Nc', Nat.add_0_r, G1.
          replace (next s + S (list_sum (map size (firstn i l)))) with (S (next s) + list_sum (map size (firstn i l))) by lia. apply seq_split.
        * rewrite Ef, !map_app, !list_sum_app. cbn. lia.
        * rewrite Ef, map_app, list_sum_app. cbn. repeat split; cbn; try congruence. lia.
        * intros k Hk. cbn in *. rewrite Ag by lia. now apply Fr2.
        * intros k Hk. rewrite Ag by lia. rewrite Old2 by lia. now apply Old.
        * rewrite Ef, !flat_map_app, Str. cbn. now rewrite !app_nil_r, Strc. }
  destruct (K (length l) (le_n _)) as (s1 & l1 & E & M & Hh & Hw & Len & V & Nd & Sz & Gr & Fr1 & Old & Str).
  rewrite skipn_all2 in E by (rewrite items_length; rewrite map_length; auto). cbn [hfold] in E. rewrite E.
  rewrite firstn_all in *. rewrite part_all in M by exact Wf.
  exists s1, (ANode (next s) h l1). split; [reflexivity|]. repeat split.
  - cbn. now rewrite V.
  - apply wf_node. split; [now rewrite Len|exact Hw].
  - cbn. now rewrite Nd.
  - cbn. now rewrite Sz.
  - apply Gr.
  - apply Gr.
  - apply Gr.
  - apply holds_node. auto.
  - exact Fr1.
  - exact Old.
  - cbn. now rewrite Str.
Qed.
End Proofs.
