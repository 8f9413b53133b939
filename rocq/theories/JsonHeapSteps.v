(** One operation of a program keeps the invariant of the memory and does to the values what JsonData.v says. *)
From Coq Require Import List Arith NArith ZArith Bool Lia.
From Verif Require Import Outcome CharModel StrModel JsonData JsonDataProofs JsonHeap JsonHeapProofs.
Import ListNotations.

Section Steps.
Context {F : Type}.
Variable f_zero : F.
Notation json := (json F).
Notation head := (head F).
Notation cell := (cell F).
Notation hstate := (hstate F).
Notation atree := (@atree F).

(** Every object handed out is in the tree of the variables, or leaked, or was deleted once. *)
Record inv (s : hstate) (t : atree) (lk : list nat) : Prop := {
  i_holds : holds (mem s) t;
  i_wf : wf t;
  i_acct : forall n, cnt n (nodes t) + cnt n lk + cnt n (deleted s) = if n <? next s then 1 else 0;
  i_dead : forall n, cnt n (nodes t) + cnt n lk = 0 -> mem s n = None;
  i_lk : forall n, cnt n lk > 0 -> mem s n <> None;
  i_frame : aroot t = 0 /\ ahead t = HArr }.

Lemma inv_once s t lk : inv s t lk -> once t.
Proof. intros I n. pose proof (i_acct _ _ _ I n) as A. destruct (n <? next s); lia. Qed.
Lemma inv_bound s t lk n : inv s t lk -> cnt n (nodes t) + cnt n lk > 0 -> n < next s.
Proof. intros I H. pose proof (i_acct _ _ _ I n) as A. destruct (Nat.ltb_spec n (next s)); [assumption|lia]. Qed.
Lemma inv_fresh s t lk : inv s t lk -> fresh s.
Proof. intros I n H. apply (i_dead _ _ _ I). pose proof (i_acct _ _ _ I n) as A. destruct (Nat.ltb_spec n (next s)); lia. Qed.
Lemma inv_ext s s' t lk : inv s t lk -> (forall n, mem s' n = mem s n) -> next s' = next s -> deleted s' = deleted s -> inv s' t lk.
Proof.
  intros I M N D. split.
  - eapply holds_agree; [apply I|]. auto.
  - apply I.
  - intro n. rewrite N, D. apply I.
  - intros n H. rewrite M. now apply (i_dead _ _ _ I).
  - intros n H. rewrite M. now apply (i_lk _ _ _ I).
  - apply I.
Qed.
Lemma inv_perm s t lk lk' : inv s t lk -> (forall n, cnt n lk' = cnt n lk) -> inv s t lk'.
Proof.
  intros I E. split; try apply I.
  - intro n. rewrite E. apply I.
  - intros n H. rewrite E in H. now apply (i_dead _ _ _ I).
  - intros n H. rewrite E in H. now apply (i_lk _ _ _ I).
Qed.

Lemma length_le_bound (l : list nat) k : (forall n, cnt n l <= 1) -> (forall n, In n l -> n < k) -> length l <= k.
Proof.
  intros O B. rewrite <- (seq_length k 0). apply NoDup_incl_length.
  - apply (NoDup_count_occ Nat.eq_dec). exact O.
  - intros n I. apply in_seq. specialize (B n I). lia.
Qed.
Lemma inv_size s t lk (c : atree) : inv s t lk -> (forall n, cnt n (nodes c) <= cnt n (nodes t) + cnt n lk) -> length (nodes c) <= next s.
Proof.
  intros I L. apply length_le_bound.
  - intro n. specialize (L n). pose proof (i_acct _ _ _ I n) as A. destruct (n <? next s); lia.
  - intros n H. apply cnt_in in H. apply (inv_bound s t lk n I). specialize (L n). lia.
Qed.

(** replacing a subtree *)
Lemma ahead_aput (t : atree) a u v : aget t a = Some v -> a <> [] -> ahead (aput t a u) = ahead t.
Proof. destruct a as [|i r]; [congruence|]. cbn. destruct (nth_error (akids t) i); [reflexivity|discriminate]. Qed.
Lemma inv_put s t lk a v s' u lk' : inv s t lk -> aget t a = Some v -> aroot u = aroot v -> wf u -> holds (mem s') u ->
  (forall n, cnt n (nodes t) > 0 -> cnt n (nodes v) = 0 -> mem s' n = mem s n) ->
  (forall n, cnt n (nodes u) + cnt n lk' + cnt n (deleted s') + (if n <? next s then 1 else 0) =
             cnt n (nodes v) + cnt n lk + cnt n (deleted s) + (if n <? next s' then 1 else 0)) ->
  (forall n, cnt n (nodes t) <= cnt n (nodes v) -> cnt n (nodes u) + cnt n lk' = 0 -> mem s' n = None) ->
  (forall n, cnt n lk' > 0 -> mem s' n <> None) ->
  (a = [] -> ahead u = HArr) ->
  inv s' (aput t a u) lk'.
Proof.
  intros I G R W H E A D Lk Fr. pose proof (inv_once _ _ _ I) as O. split.
  - apply (holds_aput (mem s) (mem s') t a v u (i_holds _ _ _ I) G O H R). intros n In1 Z. apply E; [now apply cnt_in|exact Z].
  - apply (wf_aput t a v u (i_wf _ _ _ I) G W).
  - intro n. specialize (A n). pose proof (cnt_aput t a v u n G) as P. pose proof (i_acct _ _ _ I n) as Q.
    pose proof (cnt_aget t a v n G). lia.
  - intros n Z. pose proof (cnt_aput t a v u n G) as P. pose proof (cnt_aget t a v n G).
    apply D; lia.
  - exact Lk.
  - split.
    + rewrite (aput_root t a u v G R). apply I.
    + destruct a as [|i r]; [cbn; auto|]. rewrite (ahead_aput t (i :: r) u v G) by discriminate. apply I.
Qed.

Lemma aget_aput (t : atree) a u v : aget t a = Some v -> aget (aput t a u) a = Some u.
Proof.
  revert t. induction a as [|i r IH]; intros t; cbn; [reflexivity|]. destruct (nth_error (akids t) i) as [c|] eqn:E; [|discriminate].
  intros G. cbn [akids]. rewrite (nth_set_same _ _ _ _ E). now apply IH.
Qed.
Lemma aput_aput (t : atree) a u u' v : aget t a = Some v -> aput (aput t a u) a u' = aput t a u'.
Proof.
  revert t. induction a as [|i r IH]; intros t; cbn; [reflexivity|]. destruct (nth_error (akids t) i) as [c|] eqn:E; [|discriminate].
  intros G. cbn [akids aroot ahead]. rewrite (nth_set_same _ _ _ _ E), (IH c G).
  destruct (set_nth_split _ _ _ E) as (p & q & K & L & S). f_equal. rewrite !S.
  clear - L. subst i. induction p; cbn; [reflexivity|]. now rewrite IHp.
Qed.
Lemma aput_same (t : atree) a v : aget t a = Some v -> aput t a v = t.
Proof.
  revert t. induction a as [|i r IH]; intros [n h l]; cbn; [congruence|]. destruct (nth_error l i) as [c|] eqn:E; [|discriminate].
  intros G. rewrite (IH c G). f_equal. destruct (set_nth_split _ _ _ E) as (p & q & K & _ & S). now rewrite S.
Qed.
Lemma aget_kept (t : atree) a b u v sv : aget t a = Some v -> aroot u = aroot v -> prefix_of a b = false -> aget t b = Some sv ->
  exists sv', aget (aput t a u) b = Some sv' /\ aroot sv' = aroot sv /\ ahead sv' = ahead sv /\ map aroot (akids sv') = map aroot (akids sv) /\
  (prefix_of b a = false -> sv' = sv).
Proof.
  revert t b. induction a as [|i r IH]; intros [n h l] b Ga R P Gb; [discriminate|]. cbn in Ga. destruct (nth_error l i) as [c|] eqn:N; [|discriminate].
  destruct b as [|j q].
  - cbn in Gb. injection Gb as <-. cbn. rewrite N. eexists. split; [reflexivity|]. cbn. repeat split; [|discriminate].
    destruct (set_nth_split _ _ _ N) as (p & s & -> & _ & S). rewrite S, !map_app. cbn. now rewrite (aput_root c r u v Ga R).
  - cbn in P, Gb. cbn. rewrite N. cbn [akids]. destruct (Nat.eqb_spec i j) as [->|D].
    + rewrite N in Gb. rewrite (nth_set_same _ _ _ _ N). cbn in P. rewrite Nat.eqb_refl. cbn. now apply IH.
    + rewrite nth_set_other by exact D. destruct (nth_error l j) as [d|]; [|discriminate]. exists sv. repeat split; auto.
Qed.

(** references *)
Lemma hat_ok s t lk a v : inv s t lk -> a <> [] -> aget t a = Some v -> hat s a = Ok (aroot v) /\ vat (value t) a = Ok (value v).
Proof.
  intros I Na G. unfold hat, vat. destruct a as [|i r]; [congruence|].
  pose proof (resolve_aget (mem s) t (i :: r) (i_holds _ _ _ I)) as E. rewrite (proj1 (i_frame _ _ _ I)), G in E. rewrite E.
  rewrite (get_value t _ (i_wf _ _ _ I)), G. split; reflexivity.
Qed.
Lemma hat_bad s t lk a : inv s t lk -> a = [] \/ aget t a = None -> hat s a = UB /\ vat (value t) a = UB.
Proof.
  intros I [->|G]; [split; reflexivity|]. unfold hat, vat. destruct a as [|i r]; [split; reflexivity|].
  pose proof (resolve_aget (mem s) t (i :: r) (i_holds _ _ _ I)) as E. rewrite (proj1 (i_frame _ _ _ I)), G in E. rewrite E.
  rewrite (get_value t _ (i_wf _ _ _ I)), G. split; reflexivity.
Qed.
Lemma hat_cases s t lk a : inv s t lk ->
  (exists v, a <> [] /\ aget t a = Some v /\ hat s a = Ok (aroot v) /\ vat (value t) a = Ok (value v)) \/ (hat s a = UB /\ vat (value t) a = UB).
Proof.
  intros I. destruct a as [|i r]; [right; now apply (hat_bad s t lk [] I); left|].
  destruct (aget t (i :: r)) as [v|] eqn:G.
  - left. exists v. split; [discriminate|]. split; [reflexivity|]. apply (hat_ok s t lk); auto. discriminate.
  - right. apply (hat_bad s t lk); auto.
Qed.

(** ** Building blocks; an object that is not attached yet counts as leaked *)
Definition same_at (l : list nat) (s s' : hstate) : Prop := forall n, cnt n l > 0 -> mem s' n = mem s n.

Lemma alloc_spec s t lk h : inv s t lk -> fits h 0 ->
  inv (halloc s (h, [])) t (next s :: lk) /\ holds (mem (halloc s (h, []))) (ANode (next s) h []) /\ wf (ANode (next s) h []) /\
  same_at lk s (halloc s (h, [])).
Proof.
  intros I Fi. pose proof (inv_fresh _ _ _ I) as Fr.
  assert (B : forall n, cnt n (nodes t) + cnt n lk > 0 -> upd (mem s) (next s) (Some (h, [])) n = mem s n).
  { intros n H. apply upd_other. pose proof (inv_bound _ _ _ n I H). lia. }
  split; [split|split; [|split]]; cbn [halloc mem next deleted lost].
  - eapply holds_agree; [apply I|]. intros n H. apply cnt_in in H. apply B. lia.
  - apply I.
  - intro n. rewrite cnt_cons. pose proof (i_acct _ _ _ I n) as A.
    destruct (Nat.eqb_spec (next s) n), (Nat.ltb_spec n (next s)), (Nat.ltb_spec n (S (next s))); lia.
  - intros n. rewrite cnt_cons. destruct (Nat.eqb_spec (next s) n); [lia|]. intros H. rewrite upd_other by congruence. apply (i_dead _ _ _ I). lia.
  - intros n. rewrite cnt_cons. destruct (Nat.eqb_spec (next s) n) as [<-|D]; [now rewrite upd_same|]. intros H. rewrite upd_other by congruence.
    apply (i_lk _ _ _ I). lia.
  - apply I.
  - apply holds_node. split; [apply upd_same|constructor].
  - apply wf_node. split; [exact Fi|constructor].
  - intros n H. apply B. lia.
Qed.

Lemma copy_spec s t lk v fuel : inv s t lk -> holds (mem s) v -> wf v -> (forall n, cnt n (nodes v) <= cnt n (nodes t) + cnt n lk) -> next s <= fuel ->
  exists s' c, hcopy fuel s (aroot v) = Ok s' /\ inv s' t (nodes c ++ lk) /\ holds (mem s') c /\ wf c /\ value c = value v /\ aroot c = next s /\
  ahead c = ahead v /\ (forall n, n < next s -> mem s' n = mem s n) /\ next s <= next s' /\ lost s' = lost s /\ strings c = strings v.
Proof.
  intros I H W L Fu. pose proof (inv_size s t lk v I L) as Sz. rewrite size_nodes in Sz.
  destruct (hcopy_spec fuel s v H W) as (s' & c & E & (R & V & Wc & Nc & Sc & (G1 & G2 & G3) & Hc & Fr & Old & Hd & St)); [lia|now apply inv_fresh with t lk| |].
  { intros n K. apply cnt_in in K. apply (inv_bound s t lk n I). specialize (L n). lia. }
  exists s', c. split; [exact E|]. split; [|repeat split; auto; lia].
  assert (B : forall n, cnt n (nodes t) + cnt n lk > 0 -> mem s' n = mem s n) by (intros n K; apply Old; now apply (inv_bound s t lk)).
  split.
  - eapply holds_agree; [apply I|]. intros n K. apply cnt_in in K. apply B. lia.
  - apply I.
  - intro n. rewrite cnt_app, Nc, cnt_seq, G1, G2. pose proof (i_acct _ _ _ I n) as A.
    destruct (Nat.leb_spec (next s) n), (Nat.ltb_spec n (next s + size v)), (Nat.ltb_spec n (next s)); cbn; lia.
  - intros n. rewrite cnt_app, Nc, cnt_seq. intros K. destruct (Nat.lt_ge_cases n (next s)) as [Lt|Ge].
    + rewrite Old by exact Lt. apply (i_dead _ _ _ I). lia.
    + apply Fr. rewrite G1. destruct (Nat.leb_spec (next s) n), (Nat.ltb_spec n (next s + size v)); cbn in K; lia.
  - intros n. rewrite cnt_app. intros K. destruct (Nat.eq_dec (cnt n lk) 0).
    + apply (holds_live _ c); [exact Hc|]. apply cnt_in. lia.
    + rewrite B by lia. apply (i_lk _ _ _ I). lia.
  - apply I.
Qed.

Definition pushed (h : head) (key : option Str) : head := match h, key with HObj names, Some k => HObj (names ++ [k]) | _, _ => h end.
Lemma push_spec s t lk a v c key : inv s t (nodes c ++ lk) -> holds (mem s) c -> wf c -> aget t a = Some v ->
  fits (pushed (ahead v) key) (S (length (akids v))) ->
  exists s', hpush s (aroot v) key (aroot c) = Ok s' /\
  inv s' (aput t a (ANode (aroot v) (pushed (ahead v) key) (akids v ++ [c]))) lk /\ same_at lk s s' /\ next s' = next s /\ lost s' = lost s.
Proof.
  intros I Hc Wc G Fi. pose proof (aget_holds _ _ _ _ (i_holds _ _ _ I) G) as Hv.
  assert (Rv : cnt (aroot v) (nodes t) > 0). { pose proof (cnt_aget t a v (aroot v) G). pose proof (nodes_root v) as X. apply cnt_in in X. lia. }
  assert (Z : forall n, cnt n (nodes c) + cnt n lk > 0 -> n <> aroot v).
  { intros n H ->. pose proof (i_acct _ _ _ I (aroot v)) as A. rewrite cnt_app in A. destruct (_ <? _); lia. }
  rewrite (hpush_ok _ _ _ _ _ _ (holds_root _ _ Hv)). eexists. split; [reflexivity|]. split; [|split; [|split; reflexivity]].
  2:{ intros n H. cbn. apply upd_other. apply Z. lia. }
  eapply inv_put; eauto; cbn [mem next deleted lost aroot].
  - apply wf_node. rewrite app_length, Nat.add_1_r. split; [exact Fi|]. apply Forall_app. split; [|constructor; auto].
    pose proof (aget_wf _ _ _ (i_wf _ _ _ I) G) as Wv. destruct v. now apply wf_node in Wv as [_ Wv].
  - apply holds_node. rewrite upd_same, map_app. split; [reflexivity|]. apply Forall_app. split; [|constructor; [|constructor]].
    + pose proof (once_aget _ _ _ (inv_once _ _ _ I) G) as Ov. destruct v as [n h l]. cbn in *. apply holds_node in Hv as [_ Hl].
      rewrite Forall_forall in *. intros x X. apply (holds_agree (mem s)); [now apply Hl|]. intros k K. apply upd_other. intros ->.
      destruct (once_kid n h l x Ov X) as [_ Q]. apply cnt_in in K. lia.
    + apply (holds_agree (mem s)); [exact Hc|]. intros k K. apply cnt_in in K. apply upd_other. apply Z. lia.
  - intros n _ H. apply upd_other. intros ->. pose proof (nodes_root v) as X. apply cnt_in in X. lia.
  - intro n. destruct v as [m h l]. cbn [nodes akids aroot]. rewrite !cnt_cons, flat_map_app, !cnt_app. cbn [flat_map]. rewrite app_nil_r. lia.
  - intros n Le H. rewrite upd_other.
    + apply (i_dead _ _ _ I). destruct v as [m h l]. cbn [nodes akids aroot] in *. rewrite !cnt_cons, flat_map_app, !cnt_app in *. cbn [flat_map] in *. rewrite app_nil_r in *. lia.
    + intros ->. pose proof (nodes_root (ANode (aroot v) (pushed (ahead v) key) (akids v ++ [c]))) as X. apply cnt_in in X. cbn [aroot] in X. lia.
  - intros n H. rewrite upd_other by (apply Z; lia). apply (i_lk _ _ _ I). rewrite cnt_app. lia.
  - intros ->. cbn in G. injection G as <-. cbn [ahead]. now rewrite (proj2 (i_frame _ _ _ I)).
Qed.

Lemma delete_spec s t lk c fuel : inv s t (nodes c ++ lk) -> holds (mem s) c -> next s <= fuel ->
  exists s', hdelete fuel s (aroot c) = Ok s' /\ inv s' t lk /\ same_at lk s s' /\ next s' = next s /\ lost s' = lost s ++ strings c.
Proof.
  intros I H Fu.
  assert (A : forall n, cnt n (nodes t) + cnt n (nodes c) + cnt n lk + cnt n (deleted s) = if n <? next s then 1 else 0).
  { intro n. rewrite <- (i_acct _ _ _ I n), cnt_app. lia. }
  destruct (hdelete_spec fuel s c H) as (s' & E & (N & M & D & L)).
  - intro n. specialize (A n). destruct (n <? next s); lia.
  - assert (length (nodes c) <= next s); [|lia]. apply (inv_size s t (nodes c ++ lk) c I). intro n. rewrite cnt_app. lia.
  - exists s'. split; [exact E|].
    assert (K : same_at lk s s').
    { intros n Hn. rewrite M. specialize (A n). destruct (Nat.eqb_spec (cnt n (nodes c)) 0); [reflexivity|]. destruct (n <? next s); lia. }
    split; [split|auto].
    + apply (holds_agree (mem s)); [apply I|]. intros n Hn. apply cnt_in in Hn. rewrite M. specialize (A n).
      destruct (Nat.eqb_spec (cnt n (nodes c)) 0); [reflexivity|]. destruct (n <? next s); lia.
    + apply I.
    + intro n. rewrite D, N, <- A. lia.
    + intros n Hn. rewrite M. destruct (Nat.eqb_spec (cnt n (nodes c)) 0); [|reflexivity]. apply (i_dead _ _ _ I). rewrite cnt_app. lia.
    + intros n Hn. rewrite (K n Hn). apply (i_lk _ _ _ I). rewrite cnt_app. lia.
    + apply I.
Qed.

(** DestroyUnion, then the union set up anew without pointers *)
Definition put_cell (s : hstate) (n : nat) (c : cell) : hstate := HState (upd (mem s) n (Some c)) (next s) (deleted s) (lost s).
Lemma clear_spec s t lk a v : inv s t lk -> aget t a = Some v -> a <> [] ->
  exists s1, destroy_union s (aroot v) = Ok s1 /\ gone s (flat_map nodes (akids v)) (strings v) s1 /\ mem s1 (aroot v) = mem s (aroot v) /\
  forall h, fits h 0 -> inv (put_cell s1 (aroot v) (h, [])) (aput t a (ANode (aroot v) h [])) lk /\ same_at lk s (put_cell s1 (aroot v) (h, [])).
Proof.
  intros I G Na. pose proof (aget_holds _ _ _ _ (i_holds _ _ _ I) G) as Hv. pose proof (once_aget _ _ _ (inv_once _ _ _ I) G) as Ov.
  destruct v as [n h0 l]. unfold destroy_union. cbn [aroot akids] in *. pose proof Hv as Hv'. apply holds_node in Hv as [Hn Hl]. rewrite (hget_ok _ _ _ Hn). cbn [bind].
  pose proof (note_gone h0 s) as Gn.
  assert (Ok1 : forall k, (if Nat.eqb n k then 1 else 0) + cnt k (flat_map nodes l) <= 1) by (intro k; rewrite <- cnt_cons; apply Ov).
  destruct (hdelete_list (next s) (hdelete_spec (next s)) l (note h0 s)) as (s1 & E & G1).
  - rewrite Forall_forall in *. intros c X. apply (holds_agree (mem s)); [now apply Hl|]. intros k _. destruct Gn as (_ & M & _). now rewrite M.
  - intro k. specialize (Ok1 k). lia.
  - assert (length (nodes (ANode n h0 l)) <= next s) as X; [|cbn in X; lia].
    apply (inv_size s t lk _ I). intro k. pose proof (cnt_aget t a _ k G). lia.
  - pose proof (gone_trans _ _ _ _ _ _ _ Gn G1) as Go. cbn [app] in Go. exists s1. split; [exact E|]. split; [exact Go|].
    destruct Go as (N & M & D & L).
    assert (Rn : forall k, cnt k (flat_map nodes l) > 0 -> k <> n). { intros k K ->. specialize (Ok1 n). rewrite Nat.eqb_refl in Ok1. lia. }
    split. { rewrite M. specialize (Ok1 n). rewrite Nat.eqb_refl in Ok1. now replace (cnt n (flat_map nodes l)) with 0 by lia. }
    assert (Kl : forall k, cnt k lk > 0 -> k <> n /\ cnt k (flat_map nodes l) = 0).
    { intros k K. pose proof (i_acct _ _ _ I k) as A. pose proof (cnt_aget t a _ k G) as B. cbn [nodes] in B. rewrite cnt_cons in B.
      destruct (Nat.eqb_spec n k), (k <? next s); split; try lia; try congruence. }
    intros h Fi. split.
    + eapply inv_put; eauto; cbn [put_cell mem next deleted lost aroot nodes].
      * apply wf_node. split; [exact Fi|constructor].
      * apply holds_node. split; [apply upd_same|constructor].
      * intros k _ Z. rewrite cnt_cons in Z. rewrite upd_other by (intros ->; rewrite Nat.eqb_refl in Z; lia).
        rewrite M. now replace (cnt k (flat_map nodes l)) with 0 by lia.
      * intro k. rewrite D, N, !cnt_cons, cnt_nil. lia.
      * intros k Le Z. rewrite !cnt_cons, cnt_nil in *. destruct (Nat.eqb_spec n k) as [->|Dk]; [lia|]. rewrite upd_other by congruence. rewrite M.
        destruct (Nat.eqb_spec (cnt k (flat_map nodes l)) 0) as [Ez|]; [|reflexivity]. apply (i_dead _ _ _ I). cbn in Le. lia.
      * intros k K. destruct (Kl k K) as [A B]. rewrite upd_other by exact A. rewrite M, B. cbn. now apply (i_lk _ _ _ I).
      * intros ->. congruence.
    + intros k K. destruct (Kl k K) as [A B]. cbn. rewrite upd_other by exact A. now rewrite M, B.
Qed.

Lemma head_class_type v : j_type (value v) = head_class (@ahead F v).
Proof. destruct v as [n [] l]; reflexivity. Qed.
Lemma jclass_eqb_iff c d : jclass_eqb c d = true <-> c = d.
Proof. destruct c, d; cbn; split; congruence. Qed.
Lemma initial_fits c : fits (initial_head f_zero c) 0. Proof. destruct c; cbn; auto. Qed.

Lemma set_type_spec s t lk a v c : inv s t lk -> aget t a = Some v -> a <> [] ->
  exists s1 v1, set_type_at f_zero s (aroot v) c = Ok s1 /\ inv s1 (aput t a v1) lk /\ aroot v1 = aroot v /\
  value v1 = set_type f_zero (value v) c /\ head_class (ahead v1) = c /\ same_at lk s s1 /\ next s1 = next s.
Proof.
  intros I G Na. pose proof (aget_holds _ _ _ _ (i_holds _ _ _ I) G) as Hv. unfold set_type_at.
  rewrite (hget_ok _ _ _ (holds_root _ _ Hv)). cbn [bind]. unfold set_type. rewrite head_class_type.
  destruct (jclass_eqb (head_class (ahead v)) c) eqn:E.
  - apply jclass_eqb_iff in E. exists s, v. rewrite (aput_same t a v G). split; [reflexivity|]. split; [exact I|]. repeat split; auto.
  - destruct (clear_spec s t lk a v I G Na) as (s1 & D & (N & _) & M & K). rewrite D. cbn [bind]. rewrite hset_ok by (rewrite M, (holds_root _ _ Hv); discriminate).
    destruct (K (initial_head f_zero c) (initial_fits c)) as [K1 K2].
    exists (put_cell s1 (aroot v) (initial_head f_zero c, [])), (ANode (aroot v) (initial_head f_zero c) []).
    split; [reflexivity|]. split; [exact K1|]. repeat split; auto; destruct c; reflexivity.
Qed.

(** ** The operations *)
Definition tidy (o : hop F) : Prop :=
  match o with ORemove _ _ => False | OMove t a => prefix_of a t = true -> a = t | _ => True end.
Definition good (s : hstate) (t : atree) (lk : list nat) (o : hop F) : Prop :=
  match vstep f_zero (value t) o with
  | Ok w => exists s' t' new, hstep f_zero s o = Ok s' /\ inv s' t' (new ++ lk) /\ value t' = w /\ (tidy o -> new = [])
  | UB => hstep f_zero s o = UB
  | _ => False
  end.

Lemma put_get s t lk a v u : inv s t lk -> aget t a = Some v -> put_at (value t) a (value u) = value (aput t a u).
Proof. intros I G. apply (put_value t a u v (i_wf _ _ _ I) G). Qed.
Lemma get_tree s t lk a v : inv s t lk -> aget t a = Some v -> get_at (value t) a = Some (value v).
Proof. intros I G. now rewrite (get_value t a (i_wf _ _ _ I)), G. Qed.

Lemma frame_value s t lk : inv s t lk -> value t = JArr (map value (akids t)).
Proof. intros I. rewrite value_node, (proj2 (i_frame _ _ _ I)). reflexivity. Qed.
Lemma push_var s t lk c : inv s t (nodes c ++ lk) -> holds (mem s) c -> wf c ->
  exists s' t', hpush s 0 None (aroot c) = Ok s' /\ inv s' t' lk /\ vpush (value t) (value c) = Ok (value t').
Proof.
  intros I H W. destruct (push_spec s t lk [] t c None I H W eq_refl) as (s' & E & I' & _).
  - rewrite (proj2 (i_frame _ _ _ I)). exact Logic.I.
  - rewrite (proj1 (i_frame _ _ _ I)), (proj2 (i_frame _ _ _ I)) in *. do 2 eexists. split; [exact E|]. split; [exact I'|].
    rewrite (frame_value _ _ _ I). cbn. unfold build. now rewrite map_app.
Qed.

Lemma scalar_value_head (x : scalar F) n : value (ANode n (scalar_head x) []) = scalar_value x.
Proof. now destruct x. Qed.
Lemma scalar_fits (x : scalar F) : fits (scalar_head x) 0. Proof. destruct x; cbn; auto. Qed.

Lemma good_new s t lk v : inv s t lk -> good s t lk (ONew v).
Proof.
  intros I. unfold good. cbn [vstep hstep].
  set (h := match v with None => HNull | Some v => scalar_head v end).
  assert (Fi : fits h 0) by (unfold h; destruct v; [apply scalar_fits|reflexivity]).
  destruct (alloc_spec s t lk h I Fi) as (I1 & H1 & W1 & _).
  destruct (push_var (halloc s (h, [])) t lk (ANode (next s) h []) I1 H1 W1) as (s' & t' & E & I' & V).
  replace (match v with Some v0 => scalar_value v0 | None => j_default end) with (value (ANode (next s) h [])) by (unfold h; destruct v; [apply scalar_value_head|reflexivity]).
  rewrite V. exists s', t', []. cbn [app]. split; [first [reflexivity|assumption]|]. split; [assumption|]. split; [try reflexivity|reflexivity].
Qed.

Lemma fresh_root s t lk : inv s t lk -> cnt (next s) (nodes t) = 0 /\ cnt (next s) lk = 0.
Proof. intros I. pose proof (i_acct _ _ _ I (next s)) as A. rewrite Nat.ltb_irrefl in A. lia. Qed.

Lemma good_make s t lk c : inv s t lk -> good s t lk (OMake c).
Proof.
  intros I. unfold good. cbn [vstep hstep]. unfold set_type_at. cbn [halloc].
  rewrite (hget_ok _ _ (HNull, [])) by apply upd_same. cbn [bind head_class]. unfold make, j_default, set_type. cbn [j_type].
  destruct (jclass_eqb CNull c) eqn:E; cbn [bind].
  - apply (good_new s t lk None I).
  - unfold destroy_union. rewrite (hget_ok _ _ (HNull, [])) by apply upd_same. cbn [bind note hfold]. rewrite hset_ok by (cbn; rewrite upd_same; discriminate). cbn [bind mem next deleted lost].
    destruct (alloc_spec s t lk (initial_head f_zero c) I (initial_fits c)) as (I1 & H1 & W1 & _).
    set (s2 := HState (upd (upd (mem s) (next s) (Some (HNull, []))) (next s) (Some (initial_head f_zero c, []))) (S (next s)) (deleted s) (lost s)).
    assert (M : forall n, mem s2 n = mem (halloc s (initial_head f_zero c, [])) n). { intro n. cbn. unfold upd. now destruct (n =? next s). }
    destruct (push_var s2 t lk (ANode (next s) (initial_head f_zero c) [])) as (s' & t' & E' & I' & V).
    + eapply inv_ext; [exact I1|exact M|reflexivity|reflexivity].
    + eapply holds_agree; [exact H1|]. intros n _. apply M.
    + exact W1.
    + replace (j_initial f_zero c) with (value (ANode (next s) (initial_head f_zero c) [])) by now destruct c.
      rewrite V. exists s', t', []. cbn [app]. split; [first [reflexivity|assumption]|]. split; [assumption|]. split; [try reflexivity|reflexivity].
Qed.

Lemma good_copy_new s t lk a : inv s t lk -> good s t lk (OCopyNew a).
Proof.
  intros I. unfold good. cbn [vstep hstep]. destruct (hat_cases s t lk a I) as [(v & Na & G & -> & ->)|[-> ->]]; cbn [bind]; [|reflexivity].
  destruct (copy_spec s t lk v (next s) I (aget_holds _ _ _ _ (i_holds _ _ _ I) G) (aget_wf _ _ _ (i_wf _ _ _ I) G)) as (s1 & c & E & I1 & H1 & W1 & V & R & _); [|lia|].
  - intro n. pose proof (cnt_aget t a v n G). lia.
  - rewrite E. cbn [bind]. destruct (push_var s1 t lk c I1 H1 W1) as (s' & t' & E' & I' & V'). rewrite V in V'. rewrite R in E'. rewrite V', E'.
    exists s', t', []. cbn [app]. split; [first [reflexivity|assumption]|]. split; [assumption|]. split; [try reflexivity|reflexivity].
Qed.

Lemma good_assign s t lk a x : inv s t lk -> good s t lk (OAssign a x).
Proof.
  intros I. unfold good. cbn [vstep hstep]. destruct (hat_cases s t lk a I) as [(v & Na & G & -> & ->)|[-> ->]]; cbn [bind]; [|reflexivity].
  unfold assign_at. destruct (set_type_spec s t lk a v (head_class (scalar_head x)) I G Na) as (s1 & v1 & E & I1 & R & V & C & _). rewrite E. cbn [bind].
  pose proof (aget_aput t a v1 v G) as G1. pose proof (aget_holds _ _ _ _ (i_holds _ _ _ I1) G1) as H1. rewrite <- R.
  rewrite hset_ok by (rewrite (holds_root _ _ H1); discriminate).
  assert (K1 : akids v1 = []).
  { pose proof (wf_root _ (aget_wf _ _ _ (i_wf _ _ _ I1) G1)) as Fi. destruct v1 as [n1 h1 l1]. cbn in *. destruct x, h1; cbn in C, Fi; try discriminate; now apply length_zero_iff_nil. }
  exists (put_cell s1 (aroot v1) (scalar_head x, [])), (aput t a (ANode (aroot v1) (scalar_head x) [])), []. split; [reflexivity|]. split; [|split; [|reflexivity]].
  - rewrite <- (aput_aput t a v1 _ v G). cbn [app].
    assert (Z : forall n, cnt n lk > 0 -> n <> aroot v1).
    { intros n K ->. pose proof (i_acct _ _ _ I1 (aroot v1)) as A. pose proof (cnt_aget _ a v1 (aroot v1) G1) as B. pose proof (nodes_root v1) as X. apply cnt_in in X. destruct (_ <? _); lia. }
    assert (Nv : nodes v1 = [aroot v1]) by (destruct v1; cbn in K1 |- *; now rewrite K1).
    eapply inv_put; eauto; cbn [put_cell mem next deleted lost aroot nodes flat_map].
    + apply wf_node. split; [apply scalar_fits|constructor].
    + apply holds_node. split; [apply upd_same|constructor].
    + intros n _ Hn. rewrite Nv, cnt_cons in Hn. rewrite upd_other; [reflexivity|]. intros ->. rewrite Nat.eqb_refl in Hn. lia.
    + intro n. rewrite Nv. lia.
    + intros n Le Hn. rewrite Nv in Le. rewrite upd_other; [apply (i_dead _ _ _ I1); lia|]. intros ->. rewrite cnt_cons, Nat.eqb_refl in Hn. lia.
    + intros n K. rewrite upd_other by now apply Z. now apply (i_lk _ _ _ I1).
    + intros ->. congruence.
  - rewrite <- (put_get s t lk a v _ I G). f_equal. rewrite scalar_value_head.
    destruct x; cbn; unfold j_of_bool, j_of_int, j_of_float, assign_bool, assign_int, assign_float; try reflexivity;
      unfold set_type; destruct (jclass_eqb _ _) eqn:Q; try reflexivity; apply jclass_eqb_iff in Q; destruct (value v); cbn in Q; try discriminate; reflexivity.
Qed.

Lemma find_existsb (names : list Str) (vs : list json) k : length names = length vs ->
  existsb (fun k' => s_eqb k' k) names = match find_key (combine names vs) k with Some _ => true | None => false end.
Proof.
  revert vs. induction names as [|x names IH]; intros [|y vs] L; cbn in *; try discriminate; [reflexivity|].
  destruct (s_eqb x k); [reflexivity|]. cbn. rewrite (IH vs) by lia. now destruct (find_key (combine names vs) k).
Qed.
Lemma combine_snoc {A B} (l : list A) (m : list B) x y : length l = length m -> combine (l ++ [x]) (m ++ [y]) = combine l m ++ [(x, y)].
Proof. revert m. induction l as [|a l IH]; intros [|b m] L; cbn in *; try discriminate; [reflexivity|]. now rewrite IH by lia. Qed.

Lemma good_key s t lk a k : inv s t lk -> good s t lk (OKey a k).
Proof.
  intros I. unfold good. cbn [vstep hstep]. destruct (hat_cases s t lk a I) as [(v & Na & G & -> & ->)|[-> ->]]; cbn [bind]; [|reflexivity].
  unfold index_key_at, index_key, object_of. destruct (set_type_spec s t lk a v CObject I G Na) as (s1 & v1 & E & I1 & R & V & C & _). rewrite E. cbn [bind].
  rewrite <- V, <- R. pose proof (aget_aput t a v1 v G) as G1. pose proof (aget_holds _ _ _ _ (i_holds _ _ _ I1) G1) as H1.
  pose proof (wf_root _ (aget_wf _ _ _ (i_wf _ _ _ I1) G1)) as Fi.
  rewrite (hget_ok _ _ _ (holds_root _ _ H1)). cbn [bind]. destruct v1 as [n h l]. cbn [ahead akids aroot] in *. destruct h as [|names| | | | |]; try discriminate.
  cbn in Fi. cbn [value build]. rewrite (find_existsb names (map value l)) by now rewrite map_length.
  destruct (find_key (combine names (map value l)) k); cbn [fst].
  - exists s1, (aput t a (ANode n (HObj names) l)), []. cbn [app]. split; [try reflexivity; assumption|]. split; [assumption|]. split; [try reflexivity|reflexivity].
    now rewrite <- (put_get s t lk a v _ I G).
  - destruct (alloc_spec s1 _ lk HNull I1 eq_refl) as (I2 & H2 & W2 & _).
    destruct (push_spec (halloc s1 (HNull, [])) (aput t a (ANode n (HObj names) l)) lk a (ANode n (HObj names) l) (ANode (next s1) HNull []) (Some k) I2 H2 W2 G1) as (s' & E' & I' & _).
    + cbn. rewrite app_length. cbn. lia.
    + cbn [aroot] in E'. rewrite E'. do 2 eexists. exists []. split; [reflexivity|]. split; [exact I'|]. split; [|reflexivity].
      rewrite (aput_aput t a _ _ v G), <- (put_get s t lk a v _ I G). f_equal. cbn. rewrite map_app. cbn. rewrite combine_snoc by now rewrite map_length. reflexivity.
Qed.

Lemma array_tree (v1 : atree) : head_class (ahead v1) = CArray -> ahead v1 = HArr /\ value v1 = JArr (map value (akids v1)).
Proof. destruct v1 as [n [] l]; cbn; try discriminate. auto. Qed.
Lemma good_pos s t lk a i : inv s t lk -> good s t lk (OPos a i).
Proof.
  intros I. unfold good. cbn [vstep hstep]. destruct (hat_cases s t lk a I) as [(v & Na & G & -> & ->)|[-> ->]]; cbn [bind]; [|reflexivity].
  unfold index_pos_at, index_pos, array_of. destruct (set_type_spec s t lk a v CArray I G Na) as (s1 & v1 & E & I1 & R & V & C & _). rewrite E. cbn [bind].
  rewrite <- V, <- R. pose proof (aget_aput t a v1 v G) as G1. pose proof (aget_holds _ _ _ _ (i_holds _ _ _ I1) G1) as H1.
  rewrite (hget_ok _ _ _ (holds_root _ _ H1)). cbn [bind]. destruct (array_tree v1 C) as [Hh Hv]. rewrite Hv, !map_length.
  destruct (Nat.leb _ _); cbn [bind fst]; [reflexivity|]. exists s1, (aput t a v1), []. cbn [app]. split; [try reflexivity; assumption|]. split; [assumption|]. split; [try reflexivity|reflexivity].
  now rewrite <- (put_get s t lk a v _ I G), Hv.
Qed.

Lemma append1_value (v x : json) l : set_type f_zero v CArray = JArr l -> append1 f_zero v x = JArr (l ++ [x]).
Proof. unfold append1, set_type. destruct (jclass_eqb (j_type v) CArray); intros ->; reflexivity. Qed.
Lemma push_array s t lk a v c : inv s t (nodes c ++ lk) -> holds (mem s) c -> wf c -> aget t a = Some v -> ahead v = HArr ->
  exists s' t', hpush s (aroot v) None (aroot c) = Ok s' /\ inv s' t' lk /\ same_at lk s s' /\ next s' = next s /\
  value t' = put_at (value t) a (JArr (map value (akids v) ++ [value c])) /\
  t' = aput t a (ANode (aroot v) HArr (akids v ++ [c])).
Proof.
  intros I H W G Hh. destruct (push_spec s t lk a v c None I H W G) as (s' & E & I' & K & N & _); [rewrite Hh; exact Logic.I|].
  rewrite Hh in I'. do 2 eexists. split; [exact E|]. split; [exact I'|]. repeat split; auto.
  cbn [pushed]. rewrite <- (put_get _ _ _ a v _ I G). f_equal. cbn. now rewrite map_app.
Qed.
Lemma put_put s t lk a v u j : inv s t lk -> aget t a = Some v -> wf u -> aroot u = aroot v -> put_at (value (aput t a u)) a (value j) = put_at (value t) a (value j).
Proof.
  intros I G W R. rewrite (put_get s t lk a v j I G), <- (aput_aput t a u j v G). apply (put_value _ a j u).
  - apply (wf_aput t a v u (i_wf _ _ _ I) G W).
  - now apply (aget_aput t a u v).
Qed.

Lemma good_append s t lk a x : inv s t lk -> good s t lk (OAppend a x).
Proof.
  intros I. unfold good. cbn [vstep hstep]. destruct (hat_cases s t lk a I) as [(v & Na & G & -> & ->)|[-> ->]]; cbn [bind]; [|reflexivity].
  unfold append_at. destruct (set_type_spec s t lk a v CArray I G Na) as (s1 & v1 & E & I1 & R & V & C & _). rewrite E. cbn [bind].
  pose proof (aget_aput t a v1 v G) as G1. destruct (array_tree v1 C) as [Hh Hv]. rewrite <- R.
  destruct (alloc_spec s1 _ lk (scalar_head x) I1 (scalar_fits x)) as (I2 & H2 & W2 & _).
  destruct (push_array _ _ lk a v1 (ANode (next s1) (scalar_head x) []) I2 H2 W2 G1 Hh) as (s' & t' & E' & I' & _ & _ & V' & T').
  cbn [aroot] in E'. rewrite E'. exists s', t', []. cbn [app]. split; [first [reflexivity|assumption]|]. split; [assumption|]. split; [try reflexivity|reflexivity].
  rewrite (append1_value (value v) (scalar_value x) (map value (akids v1))) by congruence.
  rewrite T', (aput_aput t a _ _ v G), <- (put_get s t lk a v _ I G). f_equal. cbn. rewrite map_app. cbn. now rewrite <- (scalar_value_head x (next s1)).
Qed.

Lemma good_append_copy s t lk a b : inv s t lk -> good s t lk (OAppendCopy a b).
Proof.
  intros I. unfold good. cbn [vstep hstep]. destruct (hat_cases s t lk a I) as [(v & Na & G & -> & ->)|[-> ->]]; cbn [bind]; [|reflexivity].
  destruct (hat_cases s t lk b I) as [(w & Nb & Gb & -> & ->)|[-> ->]]; cbn [bind]; [|reflexivity].
  unfold append_copy_at.
  destruct (copy_spec s t lk w (next s) I (aget_holds _ _ _ _ (i_holds _ _ _ I) Gb) (aget_wf _ _ _ (i_wf _ _ _ I) Gb)) as (s1 & c & E & I1 & H1 & W1 & V1 & R1 & _); [|lia|].
  { intro n. pose proof (cnt_aget t b w n Gb). lia. }
  rewrite E. cbn [bind].
  destruct (set_type_spec s1 t (nodes c ++ lk) a v CArray I1 G Na) as (s2 & v2 & E2 & I2 & R2 & V2 & C2 & K2 & _). rewrite E2. cbn [bind].
  pose proof (aget_aput t a v2 v G) as G2. destruct (array_tree v2 C2) as [Hh Hv].
  assert (H2 : holds (mem s2) c). { eapply holds_agree; [exact H1|]. intros n Hn. apply K2. apply cnt_in in Hn. rewrite cnt_app. lia. }
  destruct (copy_spec s2 _ (nodes c ++ lk) c (next s2) I2 H2 W1) as (s3 & d & E3 & I3 & H3 & W3 & V3 & R3 & _ & Old3 & _); [|lia|].
  { intro n. rewrite cnt_app. lia. }
  rewrite <- R1, E3. cbn [bind].
  assert (H3c : holds (mem s3) c). { eapply holds_agree; [exact H2|]. intros n Hn. apply Old3. apply cnt_in in Hn. apply (inv_bound s2 _ _ n I2). rewrite cnt_app. lia. }
  destruct (push_array s3 _ (nodes c ++ lk) a v2 d I3 H3 W3 G2 Hh) as (s4 & t4 & E4 & I4 & K4 & _ & V4 & T4).
  rewrite R2, R3 in E4. rewrite E4. cbn [bind].
  assert (H4 : holds (mem s4) c). { eapply holds_agree; [exact H3c|]. intros n Hn. apply K4. apply cnt_in in Hn. rewrite cnt_app. lia. }
  destruct (delete_spec s4 t4 lk c (next s4) I4 H4 (le_n _)) as (s5 & E5 & I5 & _). rewrite E5.
  exists s5, t4, []. cbn [app]. split; [try reflexivity; assumption|]. split; [assumption|]. split; [try reflexivity|reflexivity].
  rewrite (append1_value (value v) (value w) (map value (akids v2))) by congruence.
  rewrite T4, (aput_aput t a _ _ v G), <- (put_get s t lk a v _ I G). f_equal. cbn. rewrite map_app. cbn. now rewrite V3, V1.
Qed.

Lemma put_other s t lk a v n : inv s t lk -> aget t a = Some v -> cnt n lk > 0 -> n <> aroot v.
Proof.
  intros I G K ->. pose proof (i_acct _ _ _ I (aroot v)) as A. pose proof (cnt_aget t a v (aroot v) G) as B.
  pose proof (nodes_root v) as X. apply cnt_in in X. destruct (_ <? _); lia.
Qed.
Lemma kids_agree s t lk a v c : inv s t lk -> aget t a = Some v ->
  Forall (holds (upd (mem s) (aroot v) (Some c))) (akids v).
Proof.
  intros I G. pose proof (aget_holds _ _ _ _ (i_holds _ _ _ I) G) as Hv. pose proof (once_aget _ _ _ (inv_once _ _ _ I) G) as Ov.
  destruct v as [n h l]. cbn [aroot akids] in *. apply holds_node in Hv as [_ Hl]. rewrite Forall_forall in *. intros x X.
  eapply holds_agree; [now apply Hl|]. intros k K. apply upd_other. intros ->. destruct (once_kid n h l x Ov X) as [_ Q]. apply cnt_in in K. lia.
Qed.
Lemma kids_wf s t lk a v : inv s t lk -> aget t a = Some v -> Forall wf (akids v).
Proof. intros I G. pose proof (aget_wf _ _ _ (i_wf _ _ _ I) G) as Wv. destruct v. now apply wf_node in Wv. Qed.
Lemma kids_holds s t lk a v : inv s t lk -> aget t a = Some v -> Forall (holds (mem s)) (akids v).
Proof. intros I G. pose proof (aget_holds _ _ _ _ (i_holds _ _ _ I) G) as Wv. destruct v. now apply holds_node in Wv. Qed.

(** the pointers of some elements are forgotten *)
Lemma detach_spec s t lk a v h l' dr : inv s t lk -> aget t a = Some v -> fits h (length l') ->
  (forall n, cnt n (flat_map nodes (akids v)) = cnt n (flat_map nodes l') + cnt n dr) -> incl l' (akids v) -> (a = [] -> h = HArr) ->
  inv (put_cell s (aroot v) (h, map aroot l')) (aput t a (ANode (aroot v) h l')) (dr ++ lk).
Proof.
  intros I G Fi C Sub Fr. pose proof (kids_agree s t lk a v (h, map aroot l') I G) as Ha. pose proof (kids_wf s t lk a v I G) as Hw.
  assert (Nv : forall n, cnt n (nodes v) = (if Nat.eqb (aroot v) n then 1 else 0) + cnt n (flat_map nodes (akids v))) by (intro n; destruct v; apply cnt_cons).
  pose proof (once_aget _ _ _ (inv_once _ _ _ I) G) as Ov.
  eapply inv_put; eauto; cbn [put_cell mem next deleted lost aroot nodes].
  - apply wf_node. split; [exact Fi|]. rewrite Forall_forall in *. auto.
  - apply holds_node. split; [apply upd_same|]. rewrite Forall_forall in *. auto.
  - intros n _ Z. apply upd_other. intros ->. rewrite Nv, Nat.eqb_refl in Z. lia.
  - intro n. rewrite Nv, cnt_cons, cnt_app, C. lia.
  - intros n Le Z. rewrite Nv in Le. rewrite cnt_cons, cnt_app in Z. specialize (C n). destruct (Nat.eqb_spec (aroot v) n); [lia|].
    rewrite upd_other by congruence. apply (i_dead _ _ _ I). lia.
  - intros n K. rewrite cnt_app in K. destruct (Nat.eq_dec (cnt n lk) 0) as [Z|Z].
    + destruct (Nat.eq_dec n (aroot v)) as [->|D]; [now rewrite upd_same|]. rewrite upd_other by exact D.
      apply (holds_live _ t); [apply I|]. apply cnt_in. pose proof (cnt_aget t a v n G). rewrite Nv, C in H. lia.
    + rewrite upd_other by (apply (put_other s t lk a v n I G); lia). apply (i_lk _ _ _ I). lia.
Qed.
(** an object without elements takes over elements *)
Lemma attach_spec s t lk a v h l : inv s t (flat_map nodes l ++ lk) -> aget t a = Some v -> akids v = [] -> a <> [] ->
  Forall (holds (mem s)) l -> Forall wf l -> fits h (length l) ->
  inv (put_cell s (aroot v) (h, map aroot l)) (aput t a (ANode (aroot v) h l)) lk.
Proof.
  intros I G Kv Na Hl Wl Fi.
  assert (Nv : forall n, cnt n (nodes v) = (if Nat.eqb (aroot v) n then 1 else 0)) by (intro n; destruct v as [m0 h0 l0]; cbn [akids] in Kv; subst l0; cbn [nodes aroot flat_map]; rewrite cnt_cons, cnt_nil; lia).
  assert (Z : forall n, cnt n (flat_map nodes l) + cnt n lk > 0 -> n <> aroot v) by (intros n K; apply (put_other s t _ a v n I G); rewrite cnt_app; lia).
  eapply inv_put; eauto; cbn [put_cell mem next deleted lost aroot nodes].
  - apply wf_node. auto.
  - apply holds_node. split; [apply upd_same|]. rewrite Forall_forall in *. intros x X. eapply holds_agree; [now apply Hl|].
    intros k K. apply upd_other. apply Z. assert (In k (flat_map nodes l)) as Y by (apply in_flat_map; eauto). apply cnt_in in Y. lia.
  - intros n _ Q. apply upd_other. intros ->. rewrite Nv, Nat.eqb_refl in Q. lia.
  - intro n. rewrite Nv, cnt_cons, cnt_app. lia.
  - intros n Le Q. rewrite Nv in Le. rewrite cnt_cons in Q. destruct (Nat.eqb_spec (aroot v) n); [lia|]. rewrite upd_other by congruence.
    apply (i_dead _ _ _ I). rewrite cnt_app. lia.
  - intros n K. rewrite upd_other by (apply Z; lia). apply (i_lk _ _ _ I). rewrite cnt_app. lia.
  - congruence.
Qed.
(** writing to a leaked object *)
Lemma leak_write s t lk n c : inv s t lk -> cnt n lk > 0 -> inv (put_cell s n c) t lk.
Proof.
  intros I K. split; try apply I; cbn [put_cell mem].
  - eapply holds_agree; [apply I|]. intros k Q. apply upd_other. intros ->. apply cnt_in in Q. pose proof (i_acct _ _ _ I n) as A. destruct (_ <? _); lia.
  - intros k Q. rewrite upd_other by (intros ->; lia). now apply (i_dead _ _ _ I).
  - intros k Q. destruct (Nat.eq_dec k n) as [->|D]; [now rewrite upd_same|]. rewrite upd_other by exact D. now apply (i_lk _ _ _ I).
Qed.
Lemma alloc_inv s t lk c : inv s t lk -> inv (halloc s c) t (next s :: lk).
Proof.
  intros I.
  assert (B : forall n, cnt n (nodes t) + cnt n lk > 0 -> upd (mem s) (next s) (Some c) n = mem s n).
  { intros n H. apply upd_other. pose proof (inv_bound _ _ _ n I H). lia. }
  split; cbn [halloc mem next deleted lost].
  - eapply holds_agree; [apply I|]. intros n H. apply cnt_in in H. apply B. lia.
  - apply I.
  - intro n. rewrite cnt_cons. pose proof (i_acct _ _ _ I n) as A.
    destruct (Nat.eqb_spec (next s) n), (Nat.ltb_spec n (next s)), (Nat.ltb_spec n (S (next s))); lia.
  - intros n. rewrite cnt_cons. destruct (Nat.eqb_spec (next s) n); [lia|]. intros H. rewrite upd_other by congruence. apply (i_dead _ _ _ I). lia.
  - intros n. rewrite cnt_cons. destruct (Nat.eqb_spec (next s) n) as [<-|D]; [now rewrite upd_same|]. intros H. rewrite upd_other by congruence.
    apply (i_lk _ _ _ I). lia.
  - apply I.
Qed.

Lemma root_lt s t lk a v : inv s t lk -> aget t a = Some v -> aroot v < next s.
Proof.
  intros I G. apply (inv_bound s t lk _ I). pose proof (cnt_aget t a v (aroot v) G) as B. pose proof (nodes_root v) as X. apply cnt_in in X. lia.
Qed.

Lemma good_move_new s t lk a : inv s t lk -> good s t lk (OMoveNew a).
Proof.
  intros I. unfold good. cbn [vstep hstep]. destruct (hat_cases s t lk a I) as [(v & Na & G & -> & ->)|[-> ->]]; cbn [bind]; [|reflexivity].
  pose proof (aget_holds _ _ _ _ (i_holds _ _ _ I) G) as Hv. pose proof (root_lt s t lk a v I G) as Lt.
  unfold move_union. cbn [halloc]. rewrite (hget_ok _ _ (ahead v, map aroot (akids v))) by (cbn; rewrite upd_other by lia; apply (holds_root _ _ Hv)). cbn [bind].
  rewrite hset_ok by (cbn; rewrite upd_same; discriminate). cbn [bind mem next deleted lost].
  rewrite hset_ok by (cbn; rewrite !upd_other by lia; rewrite (holds_root _ _ Hv); discriminate). cbn [bind mem next deleted lost].
  set (s2 := HState _ _ _ _).
  pose proof (detach_spec s t lk a v HNull [] (flat_map nodes (akids v)) I G eq_refl) as D. cbn [map flat_map] in D.
  specialize (D (fun n => eq_refl) (incl_nil_l _)). assert (a = [] -> @HNull F = HArr) as Fr by congruence. specialize (D Fr).
  pose proof (alloc_inv _ _ _ (ahead v, map aroot (akids v)) D) as Al. cbn [put_cell next] in Al.
  set (c := ANode (next s) (ahead v) (akids v)).
  assert (M : forall n, mem s2 n = mem (halloc (put_cell s (aroot v) (HNull, [])) (ahead v, map aroot (akids v))) n).
  { intro n. unfold s2. cbn. unfold upd. destruct (Nat.eqb_spec n (aroot v)), (Nat.eqb_spec n (next s)); try reflexivity. lia. }
  destruct (push_var s2 (aput t a (ANode (aroot v) HNull [])) lk c) as (s' & t' & E' & I' & V).
  - eapply inv_ext; [exact Al|exact M|reflexivity|reflexivity].
  - apply holds_node. split; [unfold s2; cbn; rewrite upd_other by lia; apply upd_same|].
    pose proof (kids_agree s t lk a v (HNull, []) I G) as K. pose proof (kids_holds s t lk a v I G) as K0.
    rewrite Forall_forall in *. intros x X. eapply holds_agree; [now apply K|]. intros n Hn. rewrite M. cbn. apply upd_other.
    assert (n < next s); [|lia]. apply (inv_bound s t lk n I). pose proof (cnt_aget t a v n G) as B.
    assert (cnt n (flat_map nodes (akids v)) > 0) by (apply cnt_in, in_flat_map; eauto). destruct v as [m h l]. cbn [nodes] in B. rewrite cnt_cons in B. cbn [akids] in *. lia.
  - apply wf_node. split; [|now apply (kids_wf s t lk a v)]. apply wf_root, (aget_wf _ _ _ (i_wf _ _ _ I) G).
  - unfold j_move. cbn [fst snd]. change (@JNull F) with (@value F (ANode (aroot v) HNull [])). rewrite (put_get s t lk a v _ I G).
    replace (value v) with (value c) by (symmetry; apply value_node). rewrite V. cbn [aroot] in E'. exists s', t', []. auto.
Qed.

Lemma drop_nth_map {A B} (f : A -> B) i l : map f (drop_nth i l) = drop_nth i (map f l).
Proof. revert i. induction l as [|x l IH]; intros [|i]; cbn; auto. now rewrite IH. Qed.
Lemma drop_nth_split {A} i (l : list A) c : nth_error l i = Some c -> exists p q, l = p ++ c :: q /\ drop_nth i l = p ++ q.
Proof.
  revert i. induction l as [|x l IH]; intros [|i]; cbn; try discriminate.
  - intros [= ->]. now exists [], l.
  - intros H. destruct (IH i H) as (p & q & -> & E). exists (x :: p), q. cbn. now rewrite E.
Qed.
Lemma end_spec s t lk x : inv s t lk ->
  match nth_error (akids t) x with
  | None => hstep f_zero s (OEnd x) = UB
  | Some c => exists s', hstep f_zero s (OEnd x) = Ok s' /\ inv s' (ANode 0 HArr (drop_nth x (akids t))) lk /\ lost s' = lost s ++ strings c
  end.
Proof.
  intros I. cbn [hstep]. destruct (i_frame _ _ _ I) as [Rt Ht]. pose proof (holds_root _ _ (i_holds _ _ _ I)) as H0. rewrite Rt, Ht in H0.
  rewrite (hget_ok _ _ _ H0). cbn [bind]. rewrite nth_map. destruct (nth_error (akids t) x) as [c|] eqn:N; [|reflexivity]. cbn [option_map].
  rewrite hset_ok by (rewrite H0; discriminate). cbn [bind].
  destruct (drop_nth_split x (akids t) c N) as (p & q & K & D).
  pose proof (detach_spec s t lk [] t HArr (drop_nth x (akids t)) (nodes c) I eq_refl Logic.I) as De. rewrite Rt in De. cbn [aput] in De.
  assert (I1 : inv (put_cell s 0 (HArr, map aroot (drop_nth x (akids t)))) (ANode 0 HArr (drop_nth x (akids t))) (nodes c ++ lk)).
  { apply De.
    - intro n. rewrite D, K, !flat_map_app, !cnt_app. cbn [flat_map]. rewrite cnt_app. lia.
    - rewrite D, K. intros y Y. apply in_app_iff in Y as [Y|Y]; apply in_app_iff; [now left|right; now right].
    - reflexivity. }
  pose proof (kids_agree s t lk [] t (HArr, map aroot (drop_nth x (akids t))) I eq_refl) as Ka. rewrite Rt in Ka. rewrite Forall_forall in Ka.
  destruct (delete_spec _ _ lk c (next s) I1 (Ka c (nth_error_In _ _ N)) (le_n _)) as (s' & E & I' & _ & _ & L).
  exists s'. rewrite drop_nth_map in E. split; [exact E|]. split; [exact I'|]. exact L.
Qed.
Lemma good_end s t lk x : inv s t lk -> good s t lk (OEnd x).
Proof.
  intros I. unfold good. pose proof (end_spec s t lk x I) as E. cbn [vstep]. rewrite (frame_value s t lk I), map_length.
  destruct (nth_error (akids t) x) as [c|] eqn:N.
  - destruct E as (s' & E & I' & _). assert (x < length (akids t)) as Lt by (apply nth_error_Some; congruence). rewrite (proj2 (Nat.ltb_lt _ _) Lt).
    exists s', (ANode 0 HArr (drop_nth x (akids t))), []. split; [exact E|]. split; [exact I'|]. split; [|reflexivity]. cbn. now rewrite drop_nth_map.
  - assert (length (akids t) <= x) as Ge by now apply nth_error_None. rewrite (proj2 (Nat.ltb_ge _ _) Ge). exact E.
Qed.

Lemma remaining_map (names : list Str) (l : list atree) {B} (f : atree -> B) k :
  filter (fun p => negb (s_eqb (fst p) k)) (combine names (map f l)) =
  map (fun p => (fst p, f (snd p))) (filter (fun p => negb (s_eqb (fst p) k)) (combine names l)).
Proof.
  revert l. induction names as [|x names IH]; intros [|y l]; cbn; auto. rewrite IH. now destruct (s_eqb x k).
Qed.
Lemma filter_cnt (names : list Str) (l : list atree) (f : Str * atree -> bool) n : length names = length l ->
  cnt n (flat_map nodes l) = cnt n (flat_map nodes (map snd (filter f (combine names l)))) + cnt n (flat_map nodes (map snd (filter (fun p => negb (f p)) (combine names l)))).
Proof.
  revert l. induction names as [|x names IH]; intros [|y l] L; cbn [length] in L; try discriminate; [reflexivity|].
  cbn [flat_map combine filter]. rewrite cnt_app, (IH l) by lia. destruct (f (x, y)); cbn [negb map flat_map snd]; rewrite cnt_app; lia.
Qed.
Lemma good_remove s t lk a k : inv s t lk -> good s t lk (ORemove a k).
Proof.
  intros I. unfold good. cbn [vstep hstep]. destruct (hat_cases s t lk a I) as [(v & Na & G & -> & ->)|[-> ->]]; cbn [bind]; [|reflexivity].
  unfold remove_at. pose proof (aget_holds _ _ _ _ (i_holds _ _ _ I) G) as Hv. pose proof (wf_root _ (aget_wf _ _ _ (i_wf _ _ _ I) G)) as Fi.
  rewrite (hget_ok _ _ _ (holds_root _ _ Hv)). cbn [bind].
  assert (Same : forall x, x = value v -> exists s' t' new, Ok s = Ok s' /\ inv s' t' (new ++ lk) /\ value t' = put_at (value t) a x /\ (tidy (ORemove a k) -> new = [])).
  { intros x ->. exists s, t, []. split; [reflexivity|]. split; [exact I|]. split; [|reflexivity]. rewrite (put_get s t lk a v v I G). now rewrite (aput_same t a v G). }
  destruct v as [n h l]. cbn [ahead akids aroot] in *. destruct h as [|names| | | | |]; try (apply Same; reflexivity).
  cbn in Fi. cbn [value build]. unfold remove_value, has_member. rewrite (find_existsb names (map value l)) by now rewrite map_length.
  destruct (find_key (combine names (map value l)) k); [|apply Same; reflexivity].
  pose proof (holds_root _ _ Hv) as Hn. cbn [aroot] in Hn. rewrite hset_ok by (rewrite Hn; discriminate).
  set (kept := filter (fun p => negb (s_eqb (fst p) k)) (combine names l)).
  set (dr := flat_map nodes (map snd (filter (fun p => negb (negb (s_eqb (fst p) k))) (combine names l)))).
  assert (Re : remaining names (map aroot l) k = map (fun p => (fst p, aroot (snd p))) kept) by apply (remaining_map names l aroot k).
  exists (put_cell s n (HObj (map fst (remaining names (map aroot l) k)), map snd (remaining names (map aroot l) k))), (aput t a (ANode n (HObj (map fst kept)) (map snd kept))), dr.
  split; [reflexivity|]. split; [|split; [|intros []]].
  - rewrite Re, !map_map. cbn [fst snd]. rewrite <- (map_map snd aroot).
    replace (map (fun x : Str * atree => fst x) kept) with (map fst kept) by reflexivity.
    apply (detach_spec s t lk a (ANode n (HObj names) l) (HObj (map fst kept)) (map snd kept) dr I G).
    + cbn. now rewrite !map_length.
    + intro m. cbn [akids]. apply (filter_cnt names l (fun p => negb (s_eqb (fst p) k)) m Fi).
    + intros y Y. apply in_map_iff in Y as ((k' & y') & <- & Y). apply filter_In in Y as [Y _]. now apply in_combine_r in Y.
    + congruence.
  - rewrite <- (put_get s t lk a _ _ I G). f_equal. cbn [value build]. f_equal. unfold remove_key. rewrite (remaining_map names l value k).
    fold kept. clear. induction kept as [|[x y] r IH]; cbn; [reflexivity|]. now rewrite IH.
Qed.

(** ** Copy assignment *)
Lemma count_value (v : atree) : wf v -> j_count (value v) = length (akids v).
Proof.
  intros W. pose proof (wf_root _ W) as Fi. destruct v as [n h l]. cbn [ahead akids] in *. destruct h; cbn in *; try (now rewrite Fi); [|apply map_length].
  rewrite combine_length, map_length. lia.
Qed.
Lemma firstn_snoc {A} (l : list A) i x : nth_error l i = Some x -> firstn (S i) l = firstn i l ++ [x].
Proof. revert i. induction l as [|y l IH]; intros [|i] H; cbn in *; try discriminate; [congruence|]. f_equal. now apply IH. Qed.

Lemma copy_loop k : forall i s t lk a b v sv, inv s t lk -> a <> [] -> aget t a = Some v -> aget t b = Some sv -> prefix_of a b = false ->
  length (akids sv) = i + k -> length (akids v) = i -> ahead v = part (ahead sv) i ->
  exists s' t', hfold (fun s1 p => s2 <- hcopy (next s1) s1 (snd p) ;; hpush s2 (aroot v) (fst p) (next s1)) s (skipn i (items (ahead sv) (map aroot (akids sv)))) = Ok s' /\
  inv s' t' lk /\ copy_items (value t) a b i k = Ok (value t').
Proof.
  induction k as [|k IH]; intros i s t lk a b v sv I Na Ga Gb P Ls Lv Hh; pose proof (wf_root _ (aget_wf _ _ _ (i_wf _ _ _ I) Gb)) as Fs.
  - exists s, t. rewrite skipn_all2 by (rewrite items_length; rewrite map_length; [lia|exact Fs]). cbn. auto.
  - destruct (nth_error (akids sv) i) as [c|] eqn:N; [|apply nth_error_None in N; lia].
    assert (Gc : aget t (b ++ [i]) = Some c) by (rewrite aget_app, Gb; cbn; now rewrite N).
    destruct (nth_items (ahead sv) (map aroot (akids sv)) i (aroot c)) as (key & Nk & Kk); [now rewrite map_length|now rewrite nth_map, N|].
    rewrite (skipn_nth _ _ _ Nk). cbn [hfold snd fst].
    destruct (copy_spec s t lk c (next s) I (aget_holds _ _ _ _ (i_holds _ _ _ I) Gc) (aget_wf _ _ _ (i_wf _ _ _ I) Gc)) as (s1 & d & E & I1 & H1 & W1 & V1 & R1 & _); [|lia|].
    { intro n. pose proof (cnt_aget t _ c n Gc). lia. }
    rewrite E. cbn [bind].
    assert (Hp : pushed (ahead v) key = part (ahead sv) (S i)) by (rewrite Hh; apply Kk).
    assert (Fp : fits (part (ahead sv) (S i)) (S i)).
    { clear - Fs Ls. destruct (ahead sv); cbn [fits part] in *; try lia; auto. rewrite firstn_length. lia. }
    destruct (push_spec s1 t lk a v d key I1 H1 W1 Ga) as (s2 & E2 & I2 & _); [rewrite Hp, Lv; exact Fp|].
    rewrite R1 in E2. rewrite E2. cbn [bind]. rewrite Hp in I2.
    set (v2 := ANode (aroot v) (part (ahead sv) (S i)) (akids v ++ [d])) in *.
    destruct (aget_kept t a b v2 v sv Ga eq_refl P Gb) as (sv' & Gb' & Rs & Hs & Ks & _).
    destruct (IH (S i) s2 (aput t a v2) lk a b v2 sv' I2 Na (aget_aput t a v2 v Ga) Gb' P) as (s' & t' & E3 & I3 & C3).
    + rewrite <- (map_length aroot), Ks, map_length. lia.
    + cbn. rewrite app_length. cbn. lia.
    + now rewrite Hs.
    + exists s', t'. rewrite Hs, Ks in E3. split; [exact E3|]. split; [exact I3|].
      cbn [copy_items]. rewrite (get_tree s t lk a v I Ga), (get_tree s t lk b sv I Gb).
      assert (Ch : child (value sv) i = Some (value c)).
      { rewrite value_node, child_build by now rewrite map_length. now rewrite nth_map, N. }
      rewrite Ch.
      assert (Pv : push_copy (value v) (value sv) i (value c) = value v2).
      { rewrite (value_node v), (value_node sv), Hh. unfold v2. cbn [value]. rewrite map_app. cbn [map]. rewrite V1.
        destruct (ahead sv) as [|names| | | | |] eqn:Q; cbn [fits part build push_copy] in Fs |- *; try (exfalso; lia); [|reflexivity].
        destruct (nth_error names i) as [k0|] eqn:Nn; [|apply nth_error_None in Nn; lia].
        rewrite nth_combine by now rewrite map_length. rewrite Nn, nth_map, N. cbn [option_map].
        rewrite (firstn_snoc names i k0 Nn), combine_snoc; [reflexivity|]. rewrite firstn_length, map_length. lia. }
      rewrite Pv, (put_get s t lk a v _ I Ga). exact C3.
Qed.

Lemma below_dead s t lk a v j r sv s1 strs : inv s t lk -> aget t a = Some v -> aget t (a ++ j :: r) = Some sv ->
  gone s (flat_map nodes (akids v)) strs s1 -> mem s1 (aroot sv) = None.
Proof.
  intros I Ga Gb (_ & M & _). rewrite M. rewrite aget_app, Ga in Gb. cbn in Gb. destruct (nth_error (akids v) j) as [c|] eqn:N; [|discriminate].
  assert (cnt (aroot sv) (flat_map nodes (akids v)) > 0) as K.
  { apply cnt_in, in_flat_map. exists c. split; [eapply nth_error_In; eauto|]. pose proof (cnt_aget c r sv (aroot sv) Gb) as B. pose proof (nodes_root sv) as X. apply cnt_in in X. apply cnt_in. lia. }
  destruct (Nat.eqb_spec (cnt (aroot sv) (flat_map nodes (akids v))) 0); [lia|reflexivity].
Qed.
Lemma strict_prefix a b : prefix_of a b = true -> address_eqb a b = false -> exists j r, b = a ++ j :: r.
Proof.
  intros P E. apply prefix_of_iff in P as ([|j r] & ->); [|eauto]. rewrite app_nil_r in E. now rewrite (proj2 (address_eqb_iff a a) eq_refl) in E.
Qed.
Lemma node_eqb s t lk a b v sv : inv s t lk -> aget t a = Some v -> aget t b = Some sv -> Nat.eqb (aroot v) (aroot sv) = address_eqb a b.
Proof.
  intros I Ga Gb. destruct (address_eqb a b) eqn:E.
  - apply address_eqb_iff in E as ->. replace sv with v by congruence. apply Nat.eqb_refl.
  - apply Nat.eqb_neq. intros R. rewrite (aget_unique t a b v sv (inv_once _ _ _ I) Ga Gb R), (proj2 (address_eqb_iff b b) eq_refl) in E. discriminate.
Qed.
(** an object not below the target survives DestroyUnion of the target *)
Lemma outside_kept s t lk a b v sv s1 strs : inv s t lk -> aget t a = Some v -> aget t b = Some sv -> prefix_of a b = false ->
  gone s (flat_map nodes (akids v)) strs s1 -> mem s1 (aroot sv) = mem s (aroot sv).
Proof.
  intros I Ga Gb P (_ & M & _). rewrite M. destruct (Nat.eqb_spec (cnt (aroot sv) (flat_map nodes (akids v))) 0) as [|K]; [reflexivity|exfalso].
  assert (In (aroot sv) (flat_map nodes (akids v))) as K1 by (apply cnt_in; lia). apply in_flat_map in K1 as (c & Ic & Kc).
  assert (X : exists q u, aget c q = Some u /\ aroot u = aroot sv).
  { clear - Kc. induction c as [n h l IH] using atree_ind'. destruct Kc as [<-|Kc]; [now exists [], (ANode n h l)|].
    apply in_flat_map in Kc as (d & Id & Kd). rewrite Forall_forall in IH. destruct (IH d Id Kd) as (q & u & Gq & R).
    apply In_nth_error in Id as (j & Nj). exists (j :: q), u. cbn. now rewrite Nj. }
  destruct X as (q & u & Gq & R). apply In_nth_error in Ic as (j & Nj).
  assert (Gu : aget t (a ++ j :: q) = Some u) by (rewrite aget_app, Ga; cbn; now rewrite Nj).
  rewrite <- (aget_unique t _ b u sv (inv_once _ _ _ I) Gu Gb R) in P. rewrite (proj2 (prefix_of_iff a _)) in P; [discriminate|eauto].
Qed.

Lemma good_copy s t lk a b : inv s t lk -> good s t lk (OCopy a b).
Proof.
  intros I. unfold good. cbn [vstep hstep]. destruct (hat_cases s t lk a I) as [(v & Na & G & -> & ->)|[-> ->]]; cbn [bind]; [|reflexivity].
  destruct (hat_cases s t lk b I) as [(w & Nb & Gb & -> & ->)|[-> ->]]; cbn [bind]; [|reflexivity].
  unfold copy_assign, copy_assign_at. rewrite (get_tree s t lk a v I G), (get_tree s t lk b w I Gb), (node_eqb s t lk a b v w I G Gb).
  destruct (address_eqb a b) eqn:Eq.
  - exists s, t, []. auto.
  - destruct (clear_spec s t lk a v I G Na) as (s1 & E1 & Go & Mv & K). rewrite E1. cbn [bind]. unfold copy_union.
    destruct (prefix_of a b) eqn:P.
    + destruct (strict_prefix a b P Eq) as (j & r & ->). unfold hget. now rewrite (below_dead s t lk a v j r w s1 _ I G Gb Go).
    + pose proof (aget_holds _ _ _ _ (i_holds _ _ _ I) Gb) as Hw. pose proof (aget_wf _ _ _ (i_wf _ _ _ I) Gb) as Ww.
      rewrite (hget_ok s1 _ (ahead w, map aroot (akids w))) by (rewrite (outside_kept s t lk a b v w s1 _ I G Gb P Go); apply (holds_root _ _ Hw)).
      cbn [bind]. rewrite hset_ok by (rewrite Mv, (holds_root _ _ (aget_holds _ _ _ _ (i_holds _ _ _ I) G)); discriminate). cbn [bind].
      destruct (K (hempty (ahead w))) as [I1 _].
      { pose proof (wf_root _ Ww) as Fi. destruct (ahead w) eqn:Q; cbn in *; auto. }
      set (v1 := ANode (aroot v) (hempty (ahead w)) []) in *.
      destruct (aget_kept t a b v1 v w G eq_refl P Gb) as (w' & Gb' & Rs & Hs & Ks & _).
      destruct (copy_loop (length (akids w)) 0 _ (aput t a v1) lk a b v1 w' I1 Na (aget_aput t a v1 v G) Gb' P) as (s' & t' & E3 & I3 & C3).
      * now rewrite <- (map_length aroot), Ks, map_length.
      * reflexivity.
      * rewrite Hs, part_0. reflexivity.
      * rewrite Hs, Ks in E3. cbn [skipn aroot v1] in E3.
        replace (emptied (value w)) with (value v1) by (unfold v1; rewrite (value_node w); cbn; destruct (ahead w); reflexivity).
        rewrite (put_get s t lk a v _ I G), (count_value w Ww), C3. exists s', t', []. auto.
Qed.

(** ** Move assignment *)
Lemma aput_inner (t : atree) b q x y sv : aget t b = Some sv -> aget sv q <> None -> aput (aput t (b ++ q) x) b y = aput t b y.
Proof.
  revert t. induction b as [|i r IH]; intros t; cbn; [reflexivity|]. destruct (nth_error (akids t) i) as [c|] eqn:N; [|discriminate]. intros G Q.
  cbn [akids aroot ahead]. rewrite (nth_set_same _ _ _ _ N), (IH c G Q).
  destruct (set_nth_split _ _ _ N) as (p & s & K & L & S). f_equal. rewrite !S.
  clear - L. subst i. induction p; cbn; [reflexivity|]. now rewrite IHp.
Qed.
Lemma set_nth_comm {A} (l : list A) i j x y : i <> j -> set_nth (set_nth l i x) j y = set_nth (set_nth l j y) i x.
Proof. revert i j. induction l as [|z l IH]; intros [|i] [|j] D; cbn; try congruence. f_equal. apply IH. congruence. Qed.
Lemma set_nth_twice {A} (l : list A) i x y : set_nth (set_nth l i x) i y = set_nth l i y.
Proof. revert i. induction l as [|z l IH]; intros [|i]; cbn; try reflexivity. now rewrite IH. Qed.
Lemma aput_comm (t : atree) a b x y v sv : aget t a = Some v -> aget t b = Some sv -> prefix_of a b = false -> prefix_of b a = false ->
  aput (aput t a x) b y = aput (aput t b y) a x.
Proof.
  revert t b. induction a as [|i r IH]; intros t [|j q] Ga Gb P Q; cbn in P, Q; try discriminate.
  cbn in Ga, Gb |- *. destruct (nth_error (akids t) i) as [c|] eqn:N; [|discriminate]. destruct (nth_error (akids t) j) as [d|] eqn:M; [|discriminate].
  cbn [akids aroot ahead]. destruct (Nat.eqb_spec i j) as [->|D].
  - rewrite Nat.eqb_refl in Q. cbn in P, Q. assert (d = c) as -> by congruence. rewrite !(nth_set_same _ _ _ _ N), !set_nth_twice.
    now rewrite (IH c q Ga Gb P Q).
  - rewrite (nth_set_other _ i j) by exact D. rewrite (nth_set_other _ j i) by congruence. rewrite N, M. f_equal. now apply set_nth_comm.
Qed.

Lemma good_move s t lk a b : inv s t lk -> good s t lk (OMove a b).
Proof.
  intros I. unfold good. cbn [vstep hstep]. destruct (hat_cases s t lk a I) as [(v & Na & G & -> & ->)|[-> ->]]; cbn [bind]; [|reflexivity].
  destruct (hat_cases s t lk b I) as [(w & Nb & Gb & -> & ->)|[-> ->]]; cbn [bind]; [|reflexivity].
  unfold move_assign, move_assign_at. rewrite (get_tree s t lk a v I G), (get_tree s t lk b w I Gb), (node_eqb s t lk a b v w I G Gb).
  destruct (address_eqb a b) eqn:Eq.
  - exists s, t, []. auto.
  - destruct (clear_spec s t lk a v I G Na) as (s1 & E1 & Go & Mv & K). rewrite E1. cbn [bind]. unfold move_union.
    destruct (prefix_of a b) eqn:P.
    + destruct (strict_prefix a b P Eq) as (j & r & ->). unfold hget. now rewrite (below_dead s t lk a v j r w s1 _ I G Gb Go).
    + pose proof (aget_holds _ _ _ _ (i_holds _ _ _ I) Gb) as Hw. pose proof (aget_wf _ _ _ (i_wf _ _ _ I) Gb) as Ww. pose proof (aget_holds _ _ _ _ (i_holds _ _ _ I) G) as Hv.
      assert (Mw : mem s1 (aroot w) = Some (ahead w, map aroot (akids w))) by (rewrite (outside_kept s t lk a b v w s1 _ I G Gb P Go); apply (holds_root _ _ Hw)).
      assert (D : aroot v <> aroot w) by (apply Nat.eqb_neq; now rewrite (node_eqb s t lk a b v w I G Gb)).
      rewrite (hget_ok s1 _ _ Mw). cbn [bind]. rewrite hset_ok by (rewrite Mv, (holds_root _ _ Hv); discriminate). cbn [bind].
      rewrite hset_ok by (cbn; rewrite upd_other by congruence; rewrite Mw; discriminate). cbn [mem next deleted lost].
      set (s2 := HState _ _ _ _). destruct (K HNull eq_refl) as [I1 _]. set (v1 := ANode (aroot v) HNull []) in *. set (w0 := ANode (aroot w) (@HNull F) []).
      destruct (aget_kept t a b v1 v w G eq_refl P Gb) as (w' & Gb' & Rs & Hs & Ks & Ap).
      pose proof (detach_spec _ _ lk b w' HNull [] (flat_map nodes (akids w')) I1 Gb' eq_refl (fun n => eq_refl) (incl_nil_l _)) as I2.
      assert (Fr : b = [] -> @HNull F = HArr) by congruence. specialize (I2 Fr). rewrite Rs in I2. cbn [map] in I2. fold w0 in I2.
      destruct (prefix_of b a) eqn:Q.
      * assert (Eq' : address_eqb b a = false). { destruct (address_eqb b a) eqn:X; [|reflexivity]. apply address_eqb_iff in X as ->. now rewrite (proj2 (address_eqb_iff a a) eq_refl) in Eq. }
        destruct (strict_prefix b a Q Eq') as (j & r & ->).
        exists s2, (aput t b w0), (flat_map nodes (akids w')). split; [reflexivity|]. split; [|split].
        -- assert (In0 : cnt (aroot v) (flat_map nodes (akids w') ++ lk) > 0).
           { pose proof (aget_aput t _ v1 v G) as G1. rewrite aget_app, Gb' in G1. cbn in G1. destruct (nth_error (akids w') j) as [c|] eqn:N; [|discriminate].
             rewrite cnt_app. pose proof (cnt_aget c r v1 (aroot v) G1) as B. pose proof (nodes_root v1) as X. apply cnt_in in X. cbn [aroot v1] in X.
             pose proof (flat_cnt_le (akids w') c (aroot v) (nth_error_In _ _ N)). lia. }
           pose proof (leak_write _ _ _ (aroot v) (ahead w, map aroot (akids w)) I2 In0) as I3.
           rewrite (aput_inner t b (j :: r) v1 w0 w Gb) in I3 by (rewrite aget_app, Gb in G; rewrite G; discriminate).
           eapply inv_ext; [exact I3| |reflexivity|reflexivity]. intro n. unfold s2. cbn. unfold upd.
           destruct (Nat.eqb_spec n (aroot w)), (Nat.eqb_spec n (aroot v)); try reflexivity; congruence.
        -- symmetry. apply (put_get s t lk b w w0 I Gb).
        -- intros Ti. cbn in Ti. specialize (Ti Q). exfalso. apply (f_equal (@length nat)) in Ti. rewrite app_length in Ti. cbn in Ti. lia.
      * specialize (Ap eq_refl). subst w'.
        destruct (aget_kept (aput t a v1) b a w0 w v1 Gb' eq_refl Q (aget_aput t a v1 v G)) as (v2 & G2 & _ & _ & _ & Ap2). specialize (Ap2 P). subst v2.
        pose proof (attach_spec _ _ lk a v1 (ahead w) (akids w) I2 G2 eq_refl Na) as I3.
        set (z := ANode (aroot v) (ahead w) (akids w)).
        assert (Wz : wf z) by (apply wf_node; destruct w; now apply wf_node in Ww).
        exists s2, (aput (aput t a z) b w0), []. cbn [app]. split; [reflexivity|]. split; [|split; [|reflexivity]].
        -- assert (X : aput (aput t a z) b w0 = aput (aput (aput t a v1) b w0) a z).
           { rewrite <- (aput_comm (aput t a v1) a b z w0 v1 w (aget_aput t a v1 v G) Gb' P Q). now rewrite (aput_aput t a v1 z v G). }
           rewrite X. eapply inv_ext; [apply I3| |reflexivity|reflexivity].
           ++ pose proof (kids_agree _ _ _ b w (HNull, []) I1 Gb') as Ka. exact Ka.
           ++ now apply (kids_wf s t lk b w).
           ++ apply (wf_root _ Ww).
           ++ intro n. unfold s2. cbn. unfold upd. destruct (Nat.eqb_spec n (aroot w)), (Nat.eqb_spec n (aroot v)); try reflexivity; congruence.
        -- unfold j_move. cbn [fst snd]. replace (value w) with (value z) by (symmetry; apply value_node). change (@JNull F) with (value w0).
           rewrite (put_get s t lk a v z I G). symmetry. destruct (aget_kept t a b z v w G eq_refl P Gb) as (w' & Gz & _).
           apply (put_value (aput t a z) b w0 w'); [|exact Gz]. apply (wf_aput t a v z (i_wf _ _ _ I) G Wz).
Qed.

Theorem step_good s t lk o : inv s t lk -> good s t lk o.
Proof.
  intros I. destruct o.
  - now apply good_new. - now apply good_make. - now apply good_copy_new. - now apply good_move_new. - now apply good_end. - now apply good_assign.
  - now apply good_key. - now apply good_pos. - now apply good_append. - now apply good_append_copy. - now apply good_copy. - now apply good_move. - now apply good_remove.
Qed.
End Steps.
