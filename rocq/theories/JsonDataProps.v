(** Properties C66-C71, C100: JSON values and documents.  [F] is any type of floating-point numbers,
    [zero] its default value. *)
From Coq Require Import String Ascii List NArith ZArith Bool Lia.
From Verif Require Import Outcome CharModel StrModel Dec JsonData SpecJson SpecStr SpecInt SpecUtf8 StrProofs FileProofs DecProofs JsonDataProofs.
Import ListNotations.
Local Open Scope list_scope.

Definition key_a : Str := [[97%N]].
Definition key_b : Str := [[98%N]].
Definition key_c : Str := [[99%N]].

(** C66.  Any sequence of operations on a document with an Object root whose keys are unique, [m]
    saying what it maps its keys to: the key order and the values are those of the history, Size counts the
    keys, HasMember and reading agree with them. *)
Theorem C66_insertion_ordered_map : forall (F : Type) (zero : F) d ms (m : Str -> option (json F)) os,
  root d = JObj ms -> NoDup (keys ms) -> (forall k x, m k = Some x <-> maps_to ms k x) ->
  exists d' ms', doc_run zero d os = Ok d' /\ root d' = JObj ms' /\ error d' = error d /\
  get_data (root d') = Ok ms' /\ keys ms' = keys_after os (keys ms) /\ NoDup (keys ms') /\
  doc_size d' = N.of_nat (length (keys ms')) /\
  forall k, doc_at d' k = match value_after os m k with Some x => Ok x | None => Throw EOutOfRange end /\
            (doc_has_member d' k = true <-> In k (keys ms')) /\
            (In k (keys ms') <-> value_after os m k <> None).
Proof. exact (@object_operations). Qed.
Print Assumptions C66_insertion_ordered_map.
(** The same starting from a new document. *)
Theorem C66_new_document : forall (F : Type) (zero : F) (os : list (@doc_op F)),
  exists d ms, doc_run zero (doc_default zero) os = Ok d /\ root d = JObj ms /\ error d = NoError /\
  keys ms = keys_after os [] /\ NoDup (keys ms) /\ doc_size d = N.of_nat (length (keys ms)) /\
  forall k, doc_at d k = match value_after os (fun _ => None) k with Some x => Ok x | None => Throw EOutOfRange end.
Proof.
  intros F zero os. destruct (object_operations zero (doc_default zero) [] (fun _ => None) os) as (d & ms & R & E & Er & _ & K & N & S & L).
  - reflexivity.
  - constructor.
  - intros k x. split; [discriminate|]. intros H. inversion H.
  - exists d, ms. repeat split; auto. intros k. apply L.
Qed.
Print Assumptions C66_new_document.
(** On a root that is not an object the first access makes it an object with that one key. *)
Theorem C66_other_root : forall (F : Type) (zero : F) v k f, j_type v <> CObject ->
  update_key zero v k f = JObj [(k, f JNull)].
Proof. exact (@update_key_other). Qed.
Print Assumptions C66_other_root.
Example C66_ex : let os := [OpAdd key_b (JInt 1); OpAdd key_a (JInt 2); OpTouch key_c; OpAdd key_b (JInt 3); OpRemove key_a;
                            OpAdd key_a (JBool true)] in
  omap (fun d => root d) (doc_run tt (doc_default tt) os) = Ok (JObj [(key_b, JInt 3); (key_c, JNull); (key_a, JBool true)]) /\
  keys_after (F := unit) os [] = [key_b; key_c; key_a] /\ value_after (F := unit) os (fun _ => None) key_b = Some (JInt 3).
Proof. repeat split. Qed.

(** C67.  Append adds exactly the given values at the end (a value of another kind becomes an array first). *)
Theorem C67_append_partial : forall (F : Type) (zero : F) xs,
  (forall l, append zero (JArr l) xs = JArr (l ++ xs)) /\
  (forall v, j_type v <> CArray -> xs <> [] -> append zero v xs = JArr xs).
Proof.
  intros F zero xs. split; [intros l; apply append_array|]. intros v H N. destruct xs as [|x r]; [contradiction|].
  now apply append_other.
Qed.
Print Assumptions C67_append_partial.
(** Const At returns the elements in order and throws std::out_of_range outside; Size is their number. *)
Theorem C67_at_partial : forall (F : Type) (l : list (json F)) i,
  at_pos_const (JArr l) i = match nth_error l i with Some x => Ok x | None => Throw EOutOfRange end /\
  j_size (JArr l) = N.of_nat (length l).
Proof. intros. split; [apply at_pos_spec|reflexivity]. Qed.
Print Assumptions C67_at_partial.
(** operator[] within the size denotes that element and changes nothing else. *)
Theorem C67_write_inside_partial : forall (F : Type) (zero : F) l i y f, nth_error l i = Some y ->
  exists a b, l = a ++ y :: b /\ length a = i /\ update_pos zero (JArr l) i f = Ok (JArr (a ++ f y :: b)).
Proof. exact (@update_pos_in). Qed.
Print Assumptions C67_write_inside_partial.
(** operator[] (and non-const At) at or beyond the end is undefined behaviour, for every array and index. *)
Theorem C67_write_outside_refuted : forall (F : Type) (zero : F) l i f, (length l <= i)%nat ->
  update_pos zero (JArr l) i f = UB.
Proof. intros. now apply update_pos_out. Qed.
Print Assumptions C67_write_outside_refuted.
Example C67_ex : append tt (JArr [JInt 1]) [JInt 2; JNull] = JArr [JInt 1; JInt 2; JNull] /\
  at_pos_const (F := unit) (JArr [JInt 1; JInt 2]) 2 = Throw EOutOfRange /\
  update_pos tt (JArr [JInt 1; JInt 2]) 1 (fun _ => JBool true) = Ok (JArr [JInt 1; JBool true]) /\
  update_pos tt (JArr [JInt 1; JInt 2]) 2 (fun _ => JBool true) = UB.
Proof. repeat split. Qed.

(** C68.  Refuted for every value of another kind: const At (and the const operator[] of a document) read
    the union member that is not there. *)
Theorem C68_const_access_refuted : forall (F : Type) (v : json F) k i,
  (at_key_const v k = UB <-> j_type v <> CObject) /\ (at_pos_const v i = UB <-> j_type v <> CArray).
Proof.
  intros F v k i. split.
  - destruct v as [|ms| | | | |]; try (cbn; split; [intros _ E; discriminate E|reflexivity]).
    rewrite at_key_look. split; [destruct (look ms k); discriminate|intros H; exfalso; now apply H].
  - destruct v as [| |l| | | |]; try (cbn; split; [intros _ E; discriminate E|reflexivity]).
    rewrite at_pos_spec. split; [destruct (nth_error l i); discriminate|intros H; exfalso; now apply H].
Qed.
Print Assumptions C68_const_access_refuted.
(** The const operator[] of a document whose parse failed (its root is Null) is undefined. *)
Theorem C68_failed_document_refuted : forall (F : Type) (e : jerror) k,
  doc_at {| root := @JNull F; error := e |} k = UB.
Proof. reflexivity. Qed.
Print Assumptions C68_failed_document_refuted.
(** Non-const access to a value of another kind does not throw either: reading a member replaces the
    value by an object, reading an element is undefined behaviour. *)
Theorem C68_access_refuted : forall (F : Type) (zero : F) v k i,
  (j_type v <> CObject -> update_key zero v k (fun x => x) = JObj [(k, JNull)]) /\
  (j_type v <> CArray -> update_pos zero v i (fun x => x) = UB).
Proof.
  intros F zero v k i. split; intros H; [exact (update_key_other zero v k (fun x => x) H)|]. apply update_pos_out.
  destruct v; cbn in *; try lia. congruence.
Qed.
Print Assumptions C68_access_refuted.
(** The typed getters are defined on every value; GetData throws on everything but an object. *)
Theorem C68_getters_partial : forall (F : Type) (zero : F) (v : json F),
  (j_type v <> CString -> get_string v = []) /\ (j_type v <> CIntegral -> get_integral v = 0%Z) /\
  (j_type v <> CFloating -> get_floating zero v = zero) /\ (j_type v <> CBoolean -> get_boolean v = false) /\
  (j_type v <> CObject -> get_data v = Throw ELogicError /\ forall k, has_member v k = false).
Proof. intros F zero v. destruct v; cbn; repeat split; congruence. Qed.
Print Assumptions C68_getters_partial.
Example C68_ex : at_key_const (F := unit) (JInt 5) key_a = UB /\ at_pos_const (F := unit) JNull 0 = UB /\
  update_key tt (JArr [JInt 1]) key_a (fun x => x) = JObj [(key_a, JNull)].
Proof. repeat split. Qed.

(** C69.  Source and target apart: the target becomes a copy of the source and nothing else changes. *)
Theorem C69_apart_partial : forall (F : Type) (root : json F) t s x y, apart t s ->
  get_at root t = Some x -> get_at root s = Some y -> copy_assign root t s = Ok (put_at root t y).
Proof. exact (@copy_apart). Qed.
Print Assumptions C69_apart_partial.
(** A value assigned to itself stays. *)
Theorem C69_self_partial : forall (F : Type) (root : json F) t x, get_at root t = Some x ->
  copy_assign root t t = Ok root.
Proof. intros F root t x H. rewrite copy_same, H. reflexivity. Qed.
Print Assumptions C69_self_partial.
(** Refuted for every tree and every source inside the target (a = a["k"], a = a["k"]["l"], ...). *)
Theorem C69_from_inside_refuted : forall (F : Type) (root : json F) t s x y, inside s t ->
  get_at root t = Some x -> get_at root s = Some y -> copy_assign root t s = UB.
Proof. exact (@copy_from_inside). Qed.
Print Assumptions C69_from_inside_refuted.
(** The target inside the source (a["k"] = a): what the target becomes, and exactly when that is a copy
    of the source: when the target already held the members that come before it. *)
Theorem C69_into_itself_partial : forall (F : Type) (root : json F) s j r x y,
  get_at root (s ++ j :: r) = Some x -> get_at root s = Some y ->
  copy_assign root (s ++ j :: r) s = Ok (put_at root (s ++ j :: r) (put_at y (j :: r) (take j y))) /\
  (copy_assign root (s ++ j :: r) s = Ok (put_at root (s ++ j :: r) y) <-> x = take j y).
Proof. intros F root s j r x y Ht Hs. split; [now apply copy_from_around with x|now apply copy_around_right]. Qed.
Print Assumptions C69_into_itself_partial.
Theorem C69_into_itself_refuted : exists root : json unit, get_at root [] = Some root /\
  get_at root [0%nat] = Some (JInt 1) /\ copy_assign root [0%nat] [] <> Ok (put_at root [0%nat] root).
Proof. exists (JObj [(key_a, JInt 1)]). repeat split. cbn. discriminate. Qed.
Print Assumptions C69_into_itself_refuted.
(** Every pair of nodes is covered. *)
Theorem C69_cases : forall t s : list nat, t = s \/ inside s t \/ inside t s \/ apart t s.
Proof. exact address_cases. Qed.
Print Assumptions C69_cases.
Example C69_ex : let v := JObj [(key_a, JInt 1); (key_b, JArr [JBool true; JNull])] in
  copy_assign (F := unit) v [0%nat] [1%nat; 0%nat] = Ok (JObj [(key_a, JBool true); (key_b, JArr [JBool true; JNull])]) /\
  copy_assign (F := unit) v [] [1%nat] = UB /\
  copy_assign (F := unit) v [1%nat] [] =
    Ok (JObj [(key_a, JInt 1); (key_b, JObj [(key_a, JInt 1); (key_b, JObj [(key_a, JInt 1)])])]).
Proof. repeat split. Qed.

(** C70.  MakeNull, MakeObject, MakeArray and MakeString build what they name. *)
Theorem C70_others_partial : forall (F : Type) (zero : F) xs s, text s ->
  make_null zero = JNull /\ make_object zero = JObj [] /\ make_array zero xs = JArr xs /\
  make_string (F := F) (concat s) = Ok (JStr s).
Proof.
  intros F zero xs s T. repeat split; [apply (append_array zero xs [])|]. unfold make_string, j_of_std.
  rewrite string_of_std_text by exact T. reflexivity.
Qed.
Print Assumptions C70_others_partial.
(** JsonData::Make builds the empty value of the given kind. *)
Theorem C70_make : forall (F : Type) (zero : F) c, let v := make zero c in
  j_type v = c /\ get_boolean v = false /\ get_integral v = 0%Z /\ get_floating zero v = zero /\ get_string v = [] /\
  (c = CObject \/ c = CArray -> j_size v = 0%N).
Proof. intros F zero c. destruct c; repeat split; intros [|]; discriminate. Qed.
Print Assumptions C70_make.
(** Refuted for every integer: MakeIntegral returns a string holding its decimal digits. *)
Theorem C70_integral_refuted : forall (F : Type) (z : Z), exists t s, make_integral (F := F) z = Ok (JStr s) /\
  s_str s = t /\ canonical_numeral t z.
Proof.
  intros F z. pose proof (dec_of_Z_canonical z) as C.
  assert (A : Forall (fun b => 1 <= b < 128)%N (dec_of_Z z)).
  { apply canonical_is_numeral in C. destruct C as [ds _ D|ds _ D|ds _ D]; try (constructor; [lia|]);
      (eapply Forall_impl; [|exact D]; unfold ascii_digit; lia). }
  assert (T : text (map (fun b => [b]) (dec_of_Z z))).
  { clear C. induction A as [|b l Hb A IH]; cbn; constructor; auto. split; [now apply unit1|intros [= ->]; lia]. }
  assert (E : forall l : list N, concat (map (fun b => [b]) l) = l) by (induction l; cbn; congruence).
  exists (dec_of_Z z), (map (fun b => [b]) (dec_of_Z z)). split; [|split; [|exact C]].
  - unfold make_integral, j_of_std. rewrite <- (E (dec_of_Z z)) at 1. rewrite string_of_std_text by exact T. reflexivity.
  - rewrite s_str_text by exact T. apply E.
Qed.
Print Assumptions C70_integral_refuted.
(** MakeBoolean and MakeFloating return strings too. *)
Theorem C70_boolean_refuted : forall (F : Type),
  make_boolean (F := F) true = Ok (JStr [[49%N]]) /\ make_boolean (F := F) false = Ok (JStr [[48%N]]).
Proof. split; reflexivity. Qed.
Print Assumptions C70_boolean_refuted.
Theorem C70_floating_refuted : forall (F : Type) (to_str : F -> list N) f v, make_floating to_str f = Ok v ->
  exists s, v = JStr s.
Proof.
  intros F to_str f v H. unfold make_floating, j_of_std in H. destruct (string_of_std (to_str f)); cbn in H; try discriminate.
  injection H as <-. eauto.
Qed.
Print Assumptions C70_floating_refuted.
Example C70_ex : make_integral (F := unit) (-42) = Ok (JStr [[45]; [52]; [50]]%N) /\
  make_array tt [JInt 1; JNull] = JArr [JInt 1; JNull] /\
  make_floating (F := N) (fun _ => lit "1.500000") 3%N = Ok (JStr (map (fun b => [b]) (lit "1.500000"))).
Proof. repeat split. Qed.

(** C71.  Refuted: two errors share a message; these two are the only ones. *)
Theorem C71_shared_message_refuted :
  get_error_string InvalidEscapeSequence = get_error_string OutOfRangeError /\ InvalidEscapeSequence <> OutOfRangeError.
Proof. split; [reflexivity|discriminate]. Qed.
Print Assumptions C71_shared_message_refuted.
Theorem C71_distinct_partial : forall e e', get_error_string e = get_error_string e' ->
  e = e' \/ (e = InvalidEscapeSequence /\ e' = OutOfRangeError) \/ (e = OutOfRangeError /\ e' = InvalidEscapeSequence).
Proof. intros [] []; cbn; intros H; try discriminate H; auto. Qed.
Print Assumptions C71_distinct_partial.
Example C71_ex : get_error_string TrailingComma <> get_error_string MissingColon.
Proof. discriminate. Qed.

(** C100.  Moving between nodes that are apart transfers the value and leaves null behind. *)
Theorem C100_apart_partial : forall (F : Type) (root : json F) t s x y, apart t s ->
  get_at root t = Some x -> get_at root s = Some y ->
  exists r, move_assign root t s = Ok r /\ get_at r t = Some y /\ get_at r s = Some JNull /\
  forall q, apart t q -> apart s q -> get_at r q = get_at root q.
Proof.
  intros F root t s x y A Ht Hs. unfold move_assign. rewrite Ht, Hs.
  destruct (apart_not_prefix t s A) as (-> & -> & ->). cbn [fst snd j_move].
  assert (A' : apart s t).
  { destruct A as (c & i & j & t' & s' & N & -> & ->). exists c, j, i, s', t'. auto. }
  eexists. split; [reflexivity|]. split; [|split].
  - rewrite get_put_apart by exact A'. eapply get_put_same, Ht.
  - eapply get_put_same. rewrite get_put_apart by exact A. exact Hs.
  - intros q Q1 Q2. rewrite !get_put_apart by assumption. reflexivity.
Qed.
Print Assumptions C100_apart_partial.
(** Refuted for every source inside the target (a = std::move(a["k"])): undefined behaviour. *)
Theorem C100_from_inside_refuted : forall (F : Type) (root : json F) t s x y, inside s t ->
  get_at root t = Some x -> get_at root s = Some y -> move_assign root t s = UB.
Proof.
  intros F root t s x y I Ht Hs. unfold move_assign. rewrite Ht, Hs. destruct (inside_not_prefix s t I) as (E & _ & ->).
  destruct (address_eqb t s) eqn:E'; [|reflexivity]. apply address_eqb_iff in E' as ->.
  rewrite (proj2 (address_eqb_iff s s) eq_refl) in E. discriminate.
Qed.
Print Assumptions C100_from_inside_refuted.
(** And for every target inside the source (a["k"] = std::move(a)): the whole source is lost. *)
Theorem C100_into_itself_refuted : forall (F : Type) (root : json F) t s x y, inside t s ->
  get_at root t = Some x -> get_at root s = Some y ->
  exists r, move_assign root t s = Ok r /\ get_at r s = Some JNull /\ get_at r t = None.
Proof.
  intros F root t s x y I Ht Hs. unfold move_assign. rewrite Ht, Hs. destruct (inside_not_prefix t s I) as (-> & -> & ->).
  eexists. split; [reflexivity|]. assert (G : get_at (put_at root s JNull) s = Some JNull) by (eapply get_put_same, Hs).
  split; [exact G|]. destruct I as (i & r & ->). rewrite get_at_app, G. reflexivity.
Qed.
Print Assumptions C100_into_itself_refuted.
(** A moved-from document is Null, without error; the new one is what the old one was. *)
Theorem C100_document_partial : forall (F : Type) (zero : F) (d : document),
  doc_move zero d = (d, {| root := JNull; error := NoError |}) /\ doc_copy d = d.
Proof. intros F zero [r e]. split; reflexivity. Qed.
Print Assumptions C100_document_partial.
Example C100_ex : let v := JObj [(key_a, JInt 1); (key_b, JArr [JBool true])] in
  move_assign (F := unit) v [0%nat] [1%nat] = Ok (JObj [(key_a, JArr [JBool true]); (key_b, JNull)]) /\
  move_assign (F := unit) v [] [1%nat] = UB /\ move_assign (F := unit) v [1%nat; 0%nat] [1%nat] = Ok (JObj [(key_a, JInt 1); (key_b, JNull)]).
Proof. repeat split. Qed.
