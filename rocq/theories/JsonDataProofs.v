(** Proofs about JsonData and JsonDocument. *)
From Coq Require Import List NArith ZArith Bool Arith Lia.
From Verif Require Import Outcome CharModel StrModel Dec JsonData SpecJson SpecStr StrProofs FileProofs DecProofs SpecInt.
Import ListNotations.
Local Open Scope list_scope.

Section Proofs.
Context {F : Type}.
Variable f_zero : F.
Notation json := (json F).
Notation members := (list (Str * json)).
Notation update_key := (update_key f_zero).
Notation store_key := (store_key f_zero).
Notation doc_run := (doc_run f_zero).
Notation doc_step := (doc_step f_zero).

Fixpoint json_ind' (P : json -> Prop)
  (Hnull : P JNull)
  (Hobj : forall ms, Forall (fun p => P (snd p)) ms -> P (JObj ms))
  (Harr : forall l, Forall P l -> P (JArr l))
  (Hstr : forall s, P (JStr s)) (Hfl : forall f, P (JFloat f)) (Hint : forall z, P (JInt z))
  (Hb : forall b, P (JBool b)) (v : json) : P v :=
  match v with
  | JNull => Hnull
  | JObj ms => Hobj ms ((fix go ms : Forall (fun p => P (snd p)) ms :=
      match ms with
      | [] => Forall_nil _
      | p :: r => Forall_cons p (json_ind' P Hnull Hobj Harr Hstr Hfl Hint Hb (snd p)) (go r)
      end) ms)
  | JArr l => Harr l ((fix go l : Forall P l :=
      match l with
      | [] => Forall_nil _
      | x :: r => Forall_cons x (json_ind' P Hnull Hobj Harr Hstr Hfl Hint Hb x) (go r)
      end) l)
  | JStr s => Hstr s
  | JFloat f => Hfl f
  | JInt z => Hint z
  | JBool b => Hb b
  end.

(** ** Objects *)

Fixpoint look (ms : members) (k : Str) : option json :=
  match ms with
  | [] => None
  | (k', x) :: r => if s_eqb k' k then Some x else look r k
  end.
Fixpoint upd (ms : members) (k : Str) (f : json -> json) : members :=
  match ms with
  | [] => [(k, f JNull)]
  | (k', x) :: r => if s_eqb k' k then (k', f x) :: r else (k', x) :: upd r k f
  end.

Lemma s_eqb_dec a b : s_eqb a b = if key_dec a b then true else false.
Proof.
  destruct (key_dec a b) as [E|E].
  - apply s_eqb_iff. exact E.
  - destruct (s_eqb a b) eqn:E'; auto. apply s_eqb_iff in E'. contradiction.
Qed.

Lemma find_key_look ms k :
  match find_key ms k with
  | Some i => exists x, nth_error ms i = Some (k, x) /\ look ms k = Some x
  | None => look ms k = None
  end.
Proof.
  induction ms as [|[k' x] r IH]; cbn; [reflexivity|].
  destruct (s_eqb k' k) eqn:E.
  - apply s_eqb_iff in E as ->. exists x. split; reflexivity.
  - destruct (find_key r k) as [i|]; cbn; exact IH.
Qed.

Lemma at_key_look ms k : at_key_const (JObj ms) k = match look ms k with Some x => Ok x | None => Throw EOutOfRange end.
Proof.
  cbn. pose proof (find_key_look ms k) as H. destruct (find_key ms k) as [i|].
  - destruct H as (x & E & ->). unfold vec_get. rewrite E. reflexivity.
  - rewrite H. reflexivity.
Qed.

Lemma has_member_look ms k : has_member (JObj ms) k = match look ms k with Some _ => true | None => false end.
Proof.
  cbn. pose proof (find_key_look ms k) as H. destruct (find_key ms k) as [i|].
  - destruct H as (x & _ & ->). reflexivity.
  - rewrite H. reflexivity.
Qed.

Lemma look_none ms k : look ms k = None <-> ~ In k (keys ms).
Proof.
  induction ms as [|[k' x] r IH]; cbn; [tauto|]. rewrite s_eqb_dec. destruct (key_dec k' k); subst.
  - split; [discriminate|tauto].
  - rewrite IH. tauto.
Qed.

Lemma look_maps ms k x : look ms k = Some x <-> maps_to ms k x.
Proof.
  induction ms as [|[k' x'] r IH]; cbn.
  - split; [discriminate|]. intros H. inversion H.
  - rewrite s_eqb_dec. destruct (key_dec k' k) as [->|N].
    + split; [intros [= ->]; constructor|]. intros H. inversion H; subst; [reflexivity|contradiction].
    + rewrite IH. split; intros H; [constructor; auto|]. inversion H; subst; [contradiction|assumption].
Qed.

Lemma upd_app ms k f : look ms k = None -> upd ms k f = ms ++ [(k, f JNull)].
Proof.
  induction ms as [|[k' x] r IH]; cbn; [reflexivity|]. destruct (s_eqb k' k); [discriminate|].
  intros H. rewrite IH; auto.
Qed.

Lemma set_nth_app_last {A} (l : list A) x y : set_nth (l ++ [x]) (length l) y = l ++ [y].
Proof. induction l; cbn; congruence. Qed.

Lemma set_nth_upd ms k f : forall i k' x, find_key ms k = Some i -> nth_error ms i = Some (k', x) ->
  set_nth ms i (k', f x) = upd ms k f.
Proof.
  induction ms as [|[k0 y] r IH]; cbn; intros i k' x E N; [discriminate|].
  destruct (s_eqb k0 k) eqn:Ek.
  - injection E as <-. injection N as -> ->. reflexivity.
  - destruct (find_key r k) as [j|]; [|discriminate]. injection E as <-. cbn in *. f_equal. auto.
Qed.

Lemma update_key_obj ms k f : update_key (JObj ms) k f = JObj (upd ms k f).
Proof.
  unfold JsonData.update_key, index_key. change (object_of f_zero (JObj ms)) with ms.
  pose proof (find_key_look ms k) as H. destruct (find_key ms k) as [i|] eqn:E.
  - destruct H as (x & Ex & _). rewrite Ex. f_equal. apply set_nth_upd; auto.
  - cbn. rewrite nth_error_app2, Nat.sub_diag by lia. cbn. rewrite set_nth_app_last, upd_app by exact H. reflexivity.
Qed.

Lemma update_key_other v k f : j_type v <> CObject -> update_key v k f = JObj [(k, f JNull)].
Proof. intros H. destruct v; cbn in *; try reflexivity. congruence. Qed.

Lemma look_upd ms k f q : look (upd ms k f) q =
  if key_dec q k then Some (f (match look ms k with Some v => v | None => JNull end)) else look ms q.
Proof.
  induction ms as [|[k' x] r IH]; cbn.
  - rewrite s_eqb_dec. destruct (key_dec k q), (key_dec q k); subst; try reflexivity; contradiction.
  - rewrite !s_eqb_dec. destruct (key_dec k' k) as [->|N].
    + cbn. rewrite s_eqb_dec. destruct (key_dec k q), (key_dec q k); subst; try reflexivity; contradiction.
    + cbn. rewrite s_eqb_dec, IH. destruct (key_dec k' q); subst; [|reflexivity].
      destruct (key_dec q k); [contradiction|reflexivity].
Qed.

Lemma keys_upd ms k f : keys (upd ms k f) = if in_dec key_dec k (keys ms) then keys ms else keys ms ++ [k].
Proof.
  unfold keys. induction ms as [|[k' x] r IH]; [reflexivity|]. cbn [upd]. rewrite s_eqb_dec.
  destruct (key_dec k' k) as [->|N].
  - cbn [map fst]. destruct (in_dec key_dec k (k :: map fst r)) as [|H]; [reflexivity|]. exfalso. apply H. now left.
  - cbn [map fst]. rewrite IH.
    destruct (in_dec key_dec k (map fst r)), (in_dec key_dec k (k' :: map fst r)) as [I|I]; try reflexivity.
    + exfalso. apply I. now right.
    + destruct I; [contradiction|contradiction].
Qed.

Lemma look_remove (ms : members) k q : look (remove_key ms k) q = if key_dec q k then None else look ms q.
Proof.
  unfold remove_key.
  induction ms as [|[k' x] r IH]; cbn.
  - destruct (key_dec q k); reflexivity.
  - rewrite s_eqb_dec. destruct (key_dec k' k) as [->|N]; cbn.
    + rewrite IH, s_eqb_dec. destruct (key_dec q k); [reflexivity|].
      destruct (key_dec k q); [congruence|reflexivity].
    + rewrite s_eqb_dec, IH. destruct (key_dec k' q) as [->|]; [|reflexivity].
      destruct (key_dec q k); [contradiction|reflexivity].
Qed.

Lemma keys_remove (ms : members) k : keys (remove_key ms k) = remove key_dec k (keys ms).
Proof.
  unfold remove_key.
  induction ms as [|[k' x] r IH]; cbn; [reflexivity|]. rewrite s_eqb_dec.
  destruct (key_dec k' k) as [E|N], (key_dec k k') as [E'|N']; cbn; [exact IH|congruence|congruence|].
  f_equal. exact IH.
Qed.

Lemma remove_absent (ms : members) k : look ms k = None -> remove_key ms k = ms.
Proof.
  unfold remove_key.
  induction ms as [|[k' x] r IH]; cbn; [reflexivity|]. destruct (s_eqb k' k); [discriminate|].
  cbn. intros H. f_equal. auto.
Qed.

Lemma remove_nodup l k : NoDup l -> NoDup (remove key_dec k l).
Proof.
  induction l as [|x r IH]; cbn; intros H; [exact H|]. inversion H as [|a b Nx Nr]; subst.
  destruct (key_dec k x); [auto|]. constructor; auto. intros I. apply in_remove in I. tauto.
Qed.

Lemma keys_step_nodup l (o : @doc_op F) : NoDup l -> NoDup (keys_step l o).
Proof.
  intros H. assert (A : forall k, NoDup (if in_dec key_dec k l then l else l ++ [k])).
  { intros k. destruct (in_dec key_dec k l); [exact H|]. rewrite <- (rev_involutive (l ++ [k])). apply NoDup_rev.
    rewrite rev_app_distr. cbn. constructor; [rewrite <- in_rev; assumption|]. apply NoDup_rev, H. }
  destruct o; cbn; auto. apply remove_nodup, H.
Qed.

Lemma doc_step_ok d ms o : root d = JObj ms -> exists ms', doc_step d o = Ok (Build_document (JObj ms') (error d)) /\
  keys ms' = keys_step (keys ms) o /\ (forall k, look ms' k = value_step (look ms) o k).
Proof.
  intros E. destruct d as [r e]. cbn in E. subst r.
  assert (U : forall k f, exists ms', Build_document (update_key (JObj ms) k f) e = Build_document (JObj ms') e /\
    keys ms' = (if in_dec key_dec k (keys ms) then keys ms else keys ms ++ [k]) /\
    forall q, look ms' q = if key_dec q k then Some (f (match look ms k with Some v => v | None => JNull end)) else look ms q).
  { intros k f. exists (upd ms k f). rewrite update_key_obj, keys_upd. repeat split. intros q. apply look_upd. }
  destruct o as [k x|k|k f|k]; cbn -[has_member]; unfold doc_add, doc_update, JsonData.store_key; cbn -[has_member JsonData.update_key].
  - destruct (U k (fun _ => x)) as (ms' & -> & H). eauto.
  - destruct (U k (fun v => v)) as (ms' & -> & H). eauto.
  - destruct (U k f) as (ms' & -> & H). eauto.
  - unfold doc_remove. cbn [root]. rewrite has_member_look. exists (remove_key ms k). rewrite keys_remove.
    destruct (look ms k) eqn:L.
    + repeat split. intros q. apply look_remove.
    + rewrite remove_absent by exact L. repeat split. intros q. rewrite <- (look_remove ms k q), remove_absent; auto.
Qed.

Lemma value_step_ext m m' (o : @doc_op F) : (forall k, m k = m' k) -> forall k, value_step m o k = value_step m' o k.
Proof. intros H k. destruct o; cbn; rewrite ?H; reflexivity. Qed.
Lemma value_after_ext (os : list (@doc_op F)) : forall m m', (forall k, m k = m' k) -> forall k, value_after os m k = value_after os m' k.
Proof.
  induction os as [|o r IH]; cbn; intros m m' H k; [apply H|]. apply IH. apply value_step_ext, H.
Qed.

Lemma doc_run_ok os : forall d ms, root d = JObj ms -> NoDup (keys ms) -> exists ms',
  doc_run d os = Ok (Build_document (JObj ms') (error d)) /\
  keys ms' = keys_after os (keys ms) /\ NoDup (keys ms') /\ (forall k, look ms' k = value_after os (look ms) k).
Proof.
  induction os as [|o r IH]; intros d ms E N.
  - exists ms. destruct d; cbn in *; subst. auto.
  - destruct (doc_step_ok d ms o E) as (ms1 & E1 & K1 & L1). cbn [JsonData.doc_run]. rewrite E1. cbn [bind].
    destruct (IH (Build_document (JObj ms1) (error d)) ms1 eq_refl) as (ms2 & E2 & K2 & N2 & L2).
    { rewrite K1. apply keys_step_nodup, N. }
    exists ms2. rewrite E2. repeat split; auto.
    + rewrite K2, K1. reflexivity.
    + intros k. rewrite L2. cbn. apply value_after_ext, L1.
Qed.

(** C66 *)
Lemma object_operations d ms m os : root d = JObj ms -> NoDup (keys ms) ->
  (forall k x, m k = Some x <-> maps_to ms k x) ->
  exists d' ms', doc_run d os = Ok d' /\ root d' = JObj ms' /\ error d' = error d /\
  get_data (root d') = Ok ms' /\ keys ms' = keys_after os (keys ms) /\ NoDup (keys ms') /\
  doc_size d' = N.of_nat (length (keys ms')) /\
  forall k, doc_at d' k = match value_after os m k with Some x => Ok x | None => Throw EOutOfRange end /\
            (doc_has_member d' k = true <-> In k (keys ms')) /\
            (In k (keys ms') <-> value_after os m k <> None).
Proof.
  intros E N M. destruct (doc_run_ok os d ms E N) as (ms' & R & K & N' & L).
  assert (M' : forall k, look ms k = m k).
  { intros k. destruct (m k) as [x|] eqn:Em.
    - apply look_maps, M, Em.
    - destruct (look ms k) as [x|] eqn:El; [|reflexivity]. apply look_maps, M in El. congruence. }
  exists (Build_document (JObj ms') (error d)), ms'. repeat split; auto.
  - unfold doc_size, keys. cbn. now rewrite map_length.
  - unfold doc_at. cbn [root]. rewrite at_key_look, L, (value_after_ext _ _ _ M'). reflexivity.
  - unfold doc_has_member. cbn [root]. rewrite has_member_look. intros H. destruct (look ms' k) eqn:El; [|discriminate].
    destruct (in_dec key_dec k (keys ms')) as [I|I]; [exact I|]. apply look_none in I. congruence.
  - intros I. unfold doc_has_member. cbn [root]. rewrite has_member_look. destruct (look ms' k) eqn:El; [reflexivity|].
    apply look_none in El. contradiction.
  - intros I. rewrite <- (value_after_ext _ _ _ M'), <- L. intros El. apply look_none in El. contradiction.
  - intros H. rewrite <- (value_after_ext _ _ _ M'), <- L in H.
    destruct (in_dec key_dec k (keys ms')) as [I|I]; [exact I|]. apply look_none in I. contradiction.
Qed.

(** ** Arrays *)
Lemma append_array xs : forall l, append f_zero (JArr l) xs = JArr (l ++ xs).
Proof.
  induction xs as [|x r IH]; intros l; cbn; [now rewrite app_nil_r|].
  change (fold_left (append1 f_zero) r (JArr (l ++ [x]))) with (append f_zero (JArr (l ++ [x])) r).
  rewrite IH, <- app_assoc. reflexivity.
Qed.
Lemma append_other v x xs : j_type v <> CArray -> append f_zero v (x :: xs) = JArr (x :: xs).
Proof.
  intros H. change (append f_zero v (x :: xs)) with (append f_zero (append1 f_zero v x) xs).
  replace (append1 f_zero v x) with (@JArr F [x]) by (destruct v; cbn in *; congruence).
  apply (append_array xs [x]).
Qed.
Lemma set_nth_length {A} (l : list A) : forall i x, length (set_nth l i x) = length l.
Proof. induction l; destruct i; cbn; intros; auto. Qed.
Lemma set_nth_nth {A} (l : list A) : forall i x j, nth_error (set_nth l i x) j =
  if Nat.eqb j i then (if Nat.ltb i (length l) then Some x else None) else nth_error l j.
Proof.
  induction l as [|y r IH]; intros i x j.
  - destruct i, j; cbn; try destruct (Nat.eqb _ _); reflexivity.
  - destruct i, j; cbn; try reflexivity. rewrite IH. reflexivity.
Qed.
Lemma set_nth_split {A} (l : list A) i y x : nth_error l i = Some y -> exists a b, l = a ++ y :: b /\ length a = i /\ set_nth l i x = a ++ x :: b.
Proof.
  intros H. apply nth_error_split in H as (a & b & -> & <-). exists a, b. repeat split.
  induction a; cbn; congruence.
Qed.

Lemma at_pos_spec l i : at_pos_const (@JArr F l) i = match nth_error l i with Some x => Ok x | None => Throw EOutOfRange end.
Proof.
  cbn. destruct (Nat.leb_spec (length l) i).
  - rewrite (proj2 (nth_error_None l i)) by lia. reflexivity.
  - unfold vec_get. destruct (nth_error l i) eqn:E; [reflexivity|]. apply nth_error_None in E. lia.
Qed.
Lemma update_pos_in l i y f : nth_error l i = Some y -> exists a b, l = a ++ y :: b /\ length a = i /\
  update_pos f_zero (JArr l) i f = Ok (JArr (a ++ f y :: b)).
Proof.
  intros H. destruct (set_nth_split l i y (f y) H) as (a & b & E & L & S). exists a, b. repeat split; auto.
  unfold update_pos, index_pos. change (array_of f_zero (JArr l)) with l.
  assert (i < length l)%nat by (apply nth_error_Some; congruence).
  destruct (Nat.leb_spec (length l) i); [lia|]. cbn. unfold vec_get. rewrite H. cbn. now rewrite S.
Qed.
Lemma update_pos_out v i f : (length (array_of f_zero v) <= i)%nat -> update_pos f_zero v i f = UB.
Proof.
  intros H. unfold update_pos, index_pos. destruct (Nat.leb_spec (length (array_of f_zero v)) i); [reflexivity|lia].
Qed.

(** ** Nodes *)
Implicit Types v w root src : json.
Lemma child_set v i x y j : child v i = Some y -> child (set_child v i x) j = if Nat.eqb j i then Some x else child v j.
Proof.
  destruct v as [|ms|l| | | |]; cbn; try discriminate.
  - destruct (nth_error ms i) as [[k z]|] eqn:E; cbn; [|discriminate]. intros _. rewrite set_nth_nth.
    destruct (Nat.eqb_spec j i) as [->|]; [|reflexivity].
    assert (i < length ms)%nat by (apply nth_error_Some; congruence).
    destruct (Nat.ltb_spec i (length ms)); [reflexivity|lia].
  - intros E. rewrite set_nth_nth. destruct (Nat.eqb_spec j i) as [->|]; [|reflexivity].
    assert (i < length l)%nat by (apply nth_error_Some; congruence).
    destruct (Nat.ltb_spec i (length l)); [reflexivity|lia].
Qed.
Lemma set_nth_id {A} (l : list A) : forall i x, nth_error l i = Some x -> set_nth l i x = l.
Proof. induction l; destruct i; cbn; intros x H; try discriminate; [congruence|]. f_equal. auto. Qed.
Lemma set_nth_twice {A} (l : list A) : forall i x y, set_nth (set_nth l i x) i y = set_nth l i y.
Proof. induction l; destruct i; cbn; intros; try reflexivity. f_equal. auto. Qed.
Lemma set_child_id v i x : child v i = Some x -> set_child v i x = v.
Proof.
  destruct v as [|ms|l| | | |]; cbn; try discriminate.
  - destruct (nth_error ms i) as [[k z]|] eqn:E; cbn; [|discriminate]. intros [= ->]. f_equal. apply set_nth_id, E.
  - intros E. f_equal. apply set_nth_id, E.
Qed.
Lemma set_child_twice v i x y : set_child (set_child v i x) i y = set_child v i y.
Proof.
  destruct v as [|ms|l| | | |]; cbn; try reflexivity.
  - destruct (nth_error ms i) as [[k z]|] eqn:E; cbn; [|now rewrite E].
    rewrite set_nth_nth, Nat.eqb_refl. assert (i < length ms)%nat by (apply nth_error_Some; congruence).
    destruct (Nat.ltb_spec i (length ms)); [|lia]. now rewrite set_nth_twice.
  - now rewrite set_nth_twice.
Qed.

Lemma get_put_same a : forall v x y, get_at v a = Some y -> get_at (put_at v a x) a = Some x.
Proof.
  induction a as [|i r IH]; cbn; intros v x y H; [reflexivity|].
  destruct (child v i) as [c|] eqn:E; [|discriminate]. rewrite (child_set v i _ c) by exact E.
  rewrite Nat.eqb_refl. eapply IH, H.
Qed.
Lemma put_put a : forall v x y, put_at (put_at v a x) a y = put_at v a y.
Proof.
  induction a as [|i r IH]; cbn; intros v x y; [reflexivity|].
  destruct (child v i) as [c|] eqn:E; [|now rewrite E]. rewrite (child_set v i _ c) by exact E.
  rewrite Nat.eqb_refl, set_child_twice, IH. reflexivity.
Qed.
Lemma put_get a : forall v x, get_at v a = Some x -> put_at v a x = v.
Proof.
  induction a as [|i r IH]; cbn; intros v x H; [congruence|].
  destruct (child v i) as [c|] eqn:E; [|discriminate]. rewrite (IH c x H). apply set_child_id, E.
Qed.
Lemma get_at_app a b : forall v, get_at v (a ++ b) = match get_at v a with Some w => get_at w b | None => None end.
Proof.
  induction a as [|i r IH]; cbn; intros v; [reflexivity|]. destruct (child v i); [apply IH|reflexivity].
Qed.
Lemma get_put_above s r : forall v x y, get_at v s = Some y -> get_at (put_at v (s ++ r) x) s = Some (put_at y r x).
Proof.
  induction s as [|i s IH]; cbn; intros v x y H; [now injection H as ->|].
  destruct (child v i) as [c|] eqn:E; [|discriminate]. rewrite (child_set v i _ c) by exact E.
  rewrite Nat.eqb_refl. apply IH, H.
Qed.
Lemma put_at_app s r : forall v x y, get_at v s = Some y -> put_at v (s ++ r) x = put_at v s (put_at y r x).
Proof.
  induction s as [|i s IH]; cbn; intros v x y H; [now injection H as ->|].
  destruct (child v i) as [c|] eqn:E; [|discriminate]. f_equal. apply IH, H.
Qed.
Lemma get_put_apart t s v x : apart t s -> get_at (put_at v t x) s = get_at v s.
Proof.
  intros (c & i & j & t' & s' & N & -> & ->). revert v. induction c as [|n c IH]; cbn; intros v.
  - destruct (child v i) as [w|] eqn:E; [|reflexivity]. rewrite (child_set v i _ w) by exact E.
    destruct (Nat.eqb_spec j i); [congruence|reflexivity].
  - destruct (child v n) as [w|] eqn:E; [|now rewrite E]. rewrite (child_set v n _ w), Nat.eqb_refl by exact E. apply IH.
Qed.

Lemma address_eqb_iff a : forall b, address_eqb a b = true <-> a = b.
Proof.
  induction a as [|i a IH]; destruct b as [|j b]; cbn; try (split; congruence).
  rewrite andb_true_iff, Nat.eqb_eq, IH. split; [intros [-> ->]; reflexivity|intros [= -> ->]; auto].
Qed.
Lemma prefix_of_iff a : forall b, prefix_of a b = true <-> exists r, b = a ++ r.
Proof.
  induction a as [|i a IH]; cbn; intros b; [split; eauto|]. destruct b as [|j b]; [split; [discriminate|]; intros (r & [=])|].
  rewrite andb_true_iff, Nat.eqb_eq, IH. split.
  - intros [-> (r & ->)]. eauto.
  - intros (r & [= -> ->]). eauto.
Qed.

Lemma address_cases t : forall s, t = s \/ inside s t \/ inside t s \/ apart t s.
Proof.
  induction t as [|i t IH]; destruct s as [|j s]; [auto| | |].
  - right; left. exists j, s. reflexivity.
  - right; right; left. exists i, t. reflexivity.
  - destruct (Nat.eq_dec i j) as [->|N].
    + destruct (IH s) as [->|[H|[H|H]]]; [auto| | |].
      * destruct H as (k & r & ->). right; left. exists k, r. reflexivity.
      * destruct H as (k & r & ->). right; right; left. exists k, r. reflexivity.
      * destruct H as (c & k & l & t' & s' & N & -> & ->). right; right; right. exists (j :: c), k, l, t', s'. auto.
    + right; right; right. exists [], i, j, t, s. auto.
Qed.
Lemma apart_not_prefix t s : apart t s -> address_eqb t s = false /\ prefix_of t s = false /\ prefix_of s t = false.
Proof.
  intros (c & i & j & t' & s' & N & -> & ->).
  assert (P : forall a b, a <> b -> forall x y, prefix_of (c ++ a :: x) (c ++ b :: y) = false).
  { intros a b Nab x y. destruct (prefix_of _ _) eqn:E; [|reflexivity]. apply prefix_of_iff in E as (r & E).
    rewrite <- app_assoc in E. apply app_inv_head in E. injection E as E _. congruence. }
  split; [|split]; [|apply P; congruence|apply P; congruence].
  destruct (address_eqb _ _) eqn:E; [|reflexivity]. apply address_eqb_iff in E. apply app_inv_head in E. congruence.
Qed.
Lemma inside_not_prefix t s : inside t s -> address_eqb t s = false /\ prefix_of t s = false /\ prefix_of s t = true.
Proof.
  intros (i & r & ->). split; [|split].
  - destruct (address_eqb _ _) eqn:E; [|reflexivity]. apply address_eqb_iff in E.
    apply (f_equal (@length nat)) in E. rewrite app_length in E. cbn in E. lia.
  - destruct (prefix_of _ _) eqn:E; [|reflexivity]. apply prefix_of_iff in E as (q & E).
    apply (f_equal (@length nat)) in E. rewrite !app_length in E. cbn in E. lia.
  - apply prefix_of_iff. eauto.
Qed.

(** the key of the i-th member *)
Definition nth_key (v : json) (i : nat) : option Str :=
  match v with JObj ms => option_map fst (nth_error ms i) | _ => None end.

Lemma firstn_succ {A} (l : list A) : forall i x, nth_error l i = Some x -> firstn (S i) l = firstn i l ++ [x].
Proof.
  induction l as [|y r IH]; intros i x H; [destruct i; discriminate|]. destruct i; cbn in *; [congruence|].
  f_equal. rewrite <- (IH i x H). reflexivity.
Qed.

Lemma push_take w src i x : child w i = Some x -> j_type src = j_type w -> nth_key src i = nth_key w i ->
  push_copy (take i w) src i x = take (S i) w.
Proof.
  destruct w as [|ms|l| | | |]; cbn; try discriminate.
  - destruct (nth_error ms i) as [[k y]|] eqn:E; cbn; [|discriminate]. intros [= ->].
    destruct src as [|ms'| | | | |]; try discriminate. intros _. cbn.
    destruct (nth_error ms' i) as [[k' y]|] eqn:E'; cbn; intros [= ->].
    rewrite <- (firstn_succ ms i _ E). reflexivity.
  - intros E _ _. rewrite <- (firstn_succ l i x E). reflexivity.
Qed.

Lemma child_count w i : (i < j_count w)%nat -> exists x, child w i = Some x.
Proof.
  destruct w as [|ms|l| | | |]; cbn; try lia; intros H.
  - apply nth_error_Some in H. destruct (nth_error ms i) as [[k x]|]; [cbn; eauto|contradiction].
  - apply nth_error_Some in H. destruct (nth_error l i) as [x|]; [eauto|contradiction].
Qed.

Lemma copy_loop root t s w y : get_at root t = Some y ->
  (forall i, (i < j_count w)%nat -> exists src, get_at (put_at root t (take i w)) s = Some src /\
     child src i = child w i /\ j_type src = j_type w /\ nth_key src i = nth_key w i) ->
  forall n i, (i + n = j_count w)%nat -> copy_items (put_at root t (take i w)) t s i n = Ok (put_at root t (take (i + n) w)).
Proof.
  intros Ht Hs. induction n as [|n IH]; intros i L; cbn; [now rewrite Nat.add_0_r|].
  rewrite (get_put_same t root _ y Ht). destruct (Hs i) as (src & -> & C & T & K); [lia|].
  destruct (child_count w i) as (x & Ex); [lia|]. rewrite C, Ex, put_put, (push_take w src i x Ex T K), IH by lia.
  now rewrite Nat.add_succ_r.
Qed.

Lemma take_all w : take (j_count w) w = w.
Proof. destruct w; cbn; try reflexivity; now rewrite firstn_all. Qed.
Lemma take_0 w : take 0 w = emptied w.
Proof. destruct w; reflexivity. Qed.

Lemma copy_same root t : copy_assign root t t = match get_at root t with Some _ => Ok root | None => UB end.
Proof.
  unfold copy_assign. destruct (get_at root t); [|reflexivity]. now rewrite (proj2 (address_eqb_iff t t) eq_refl).
Qed.

Lemma copy_apart root t s x y : apart t s -> get_at root t = Some x -> get_at root s = Some y ->
  copy_assign root t s = Ok (put_at root t y).
Proof.
  intros A Ht Hs. unfold copy_assign. rewrite Ht, Hs. destruct (apart_not_prefix t s A) as (-> & -> & _).
  rewrite <- take_0. rewrite (copy_loop root t s y x Ht); [cbn [Nat.add]; now rewrite take_all| |reflexivity].
  intros i Hi. exists y. rewrite get_put_apart, Hs by exact A. auto.
Qed.

Lemma copy_from_inside root t s x y : inside s t -> get_at root t = Some x -> get_at root s = Some y -> copy_assign root t s = UB.
Proof.
  intros I Ht Hs. unfold copy_assign. rewrite Ht, Hs. destruct (inside_not_prefix s t I) as (E & _ & ->).
  destruct (address_eqb t s) eqn:E'; [|reflexivity]. apply address_eqb_iff in E' as ->.
  rewrite (proj2 (address_eqb_iff s s) eq_refl) in E. discriminate.
Qed.

Lemma type_put v j r x y : get_at v (j :: r) = Some y -> j_type (put_at v (j :: r) x) = j_type v.
Proof.
  cbn. destruct (child v j) as [c|] eqn:E; [|discriminate]. intros _. destruct v; cbn in *; try reflexivity.
  destruct (nth_error ms j) as [[k z]|]; reflexivity.
Qed.
Lemma key_put v j r x y i : get_at v (j :: r) = Some y -> nth_key (put_at v (j :: r) x) i = nth_key v i.
Proof.
  cbn. destruct (child v j) as [c|] eqn:E; [|discriminate]. intros _. destruct v as [|ms|l| | | |]; cbn in *; try reflexivity.
  destruct (nth_error ms j) as [[k z]|] eqn:En; [|reflexivity]. cbn. rewrite set_nth_nth.
  destruct (Nat.eqb_spec i j) as [->|]; [|reflexivity]. rewrite En.
  assert (j < length ms)%nat by (apply nth_error_Some; congruence).
  destruct (Nat.ltb_spec j (length ms)); [reflexivity|lia].
Qed.
Lemma child_put v j r x y i : get_at v (j :: r) = Some y -> child (put_at v (j :: r) x) i =
  if Nat.eqb i j then match child v j with Some c => Some (put_at c r x) | None => None end else child v i.
Proof.
  cbn. destruct (child v j) as [c|] eqn:E; [|discriminate]. intros _. apply (child_set v j _ c i E).
Qed.
Lemma count_put v j r x y : get_at v (j :: r) = Some y -> j_count (put_at v (j :: r) x) = j_count v.
Proof.
  cbn. destruct (child v j) as [c|] eqn:E; [|discriminate]. intros _. destruct v as [|ms|l| | | |]; cbn in *; try reflexivity.
  - destruct (nth_error ms j) as [[k z]|]; [|reflexivity]. cbn. apply set_nth_length.
  - apply set_nth_length.
Qed.
Lemma firstn_set_nth {A} (l : list A) : forall i x, firstn i (set_nth l i x) = firstn i l.
Proof. induction l; destruct i; cbn; intros; try reflexivity. f_equal. auto. Qed.
Lemma take_put v j r x y : get_at v (j :: r) = Some y -> take j (put_at v (j :: r) x) = take j v.
Proof.
  cbn. destruct (child v j) as [c|] eqn:E; [|discriminate]. intros _. destruct v as [|ms|l| | | |]; cbn in *; try reflexivity.
  - destruct (nth_error ms j) as [[k z]|]; [|reflexivity]. cbn. now rewrite firstn_set_nth.
  - now rewrite firstn_set_nth.
Qed.

(** The target lies inside the source: what the target becomes is the source with the target
    replaced by the items that come before it. *)
Lemma copy_from_around root s j r x y : get_at root (s ++ j :: r) = Some x -> get_at root s = Some y ->
  copy_assign root (s ++ j :: r) s = Ok (put_at root (s ++ j :: r) (put_at y (j :: r) (take j y))).
Proof.
  intros Ht Hs. pose proof Ht as Hy. rewrite get_at_app, Hs in Hy. unfold copy_assign. rewrite Ht, Hs.
  destruct (inside_not_prefix (s ++ j :: r) s) as (-> & -> & _); [exists j, r; reflexivity|].
  set (t := s ++ j :: r) in *. set (w := put_at y (j :: r) (take j y)).
  assert (Ew : emptied y = take 0 w).
  { rewrite take_0. unfold w. clear - Hy. cbn in *. destruct (child y j) as [c|] eqn:E; [|discriminate].
    destruct y as [|ms|l| | | |]; cbn in *; try reflexivity. destruct (nth_error ms j) as [[k z]|]; reflexivity. }
  rewrite Ew. assert (Ec : j_count y = j_count w) by (symmetry; apply (count_put y j r _ x Hy)). rewrite Ec.
  rewrite (copy_loop root t s w x Ht); [cbn [Nat.add]; now rewrite take_all| |reflexivity].
  intros i Hi. exists (put_at y (j :: r) (take i w)). unfold t. rewrite (get_put_above s (j :: r) root _ y Hs).
  split; [reflexivity|]. rewrite (child_put y j r _ x i Hy), (type_put y j r _ x Hy), (key_put y j r _ x i Hy).
  unfold w. rewrite (child_put y j r _ x i Hy), (type_put y j r _ x Hy), (key_put y j r _ x i Hy).
  split; [|auto]. destruct (Nat.eqb_spec i j) as [->|]; [|reflexivity].
  rewrite (take_put y j r _ x Hy). reflexivity.
Qed.

Lemma put_at_fixed a : forall v x y, get_at v a = Some y -> put_at v a x = v <-> x = y.
Proof.
  intros v x y H. split.
  - intros E. pose proof (get_put_same a v x y H) as G. rewrite E, H in G. congruence.
  - intros ->. apply put_get, H.
Qed.

Lemma copy_around_right root s j r x y : get_at root (s ++ j :: r) = Some x -> get_at root s = Some y ->
  copy_assign root (s ++ j :: r) s = Ok (put_at root (s ++ j :: r) y) <-> x = take j y.
Proof.
  intros Ht Hs. rewrite (copy_from_around root s j r x y Ht Hs). pose proof Ht as Hy. rewrite get_at_app, Hs in Hy. split.
  - intros [= E]. apply (f_equal (fun v => get_at v (s ++ j :: r))) in E.
    rewrite !(get_put_same (s ++ j :: r) root _ x Ht) in E. injection E as E.
    apply (put_at_fixed (j :: r) y _ x Hy) in E. congruence.
  - intros E. do 2 f_equal. apply (put_at_fixed (j :: r) y _ x Hy). congruence.
Qed.

End Proofs.
