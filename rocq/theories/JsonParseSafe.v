(** The JSON parser on arbitrary Strings: it terminates, keeps errors, moves forward and builds objects with
    unique keys. *)
From Coq Require Import List NArith ZArith Bool Arith Lia.
From Verif Require Import Outcome CharModel CharUtil StrModel StrUtil Dec JsonData JsonParse SpecJson StrProofs StrUtilProofs JsonDataProofs.
Import ListNotations.
Local Open Scope list_scope.
Local Arguments is_space : simpl never.
Local Arguments is_digit : simpl never.
Local Arguments get_code_point : simpl never.

Lemma bind_NoFuel {A B} (m : outcome A) (k : A -> outcome B) : m <> NoFuel -> (forall a, m = Ok a -> k a <> NoFuel) ->
  bind m k <> NoFuel.
Proof. intros H K. destruct m; cbn; try discriminate; [now apply K|congruence]. Qed.

Lemma str_get_total l i : str_get l i <> NoFuel.
Proof. unfold str_get. destruct (nth_error l i); [discriminate|]. destruct (Nat.eqb _ _); discriminate. Qed.
Lemma get_code_point_total c : get_code_point c <> NoFuel.
Proof.
  unfold get_code_point. apply bind_NoFuel; [apply str_get_total|]. intros l _.
  repeat match goal with |- context [if ?b then _ else _] => destruct b end; try discriminate;
    repeat (apply bind_NoFuel; [apply str_get_total|]; intros ? _); discriminate.
Qed.
Lemma s_index_total s i : s_index s i <> NoFuel.
Proof. unfold s_index, vec_get. destruct (nth_error s i); discriminate. Qed.
Lemma s_index_ok s i c : s_index s i = Ok c -> nth_error s i = Some c /\ (i < length s)%nat.
Proof.
  unfold s_index, vec_get. destruct (nth_error s i) eqn:E; intros [= ->]. split; [reflexivity|]. apply nth_error_Some. congruence.
Qed.
Lemma decode_loop_total f : forall mem, (length mem < f)%nat -> decode_loop f mem <> NoFuel.
Proof.
  induction f as [|f IH]; intros mem H; [lia|]. cbn [decode_loop]. destruct mem as [|b r]; [discriminate|].
  destruct (N.eqb b 0); [discriminate|]. apply bind_NoFuel.
  - unfold decode_utf8_char, lead_length. apply bind_NoFuel.
    + repeat match goal with |- context [if ?b then _ else _] => destruct b end; discriminate.
    + intros n _. destruct (Nat.ltb _ _); [discriminate|]. unfold char_of_bytes. destruct (is_valid_utf8_char _); discriminate.
  - intros c E. apply bind_NoFuel; [|intros; discriminate]. apply IH. rewrite skipn_length.
    assert (0 < length c)%nat; [|cbn [length] in *; lia].
    unfold decode_utf8_char in E. apply bind_ok in E as (n & _ & E). destruct (Nat.ltb _ _); [discriminate|].
    unfold char_of_bytes in E. destruct (is_valid_utf8_char (firstn n (b :: r))) eqn:V; [|discriminate]. injection E as <-.
    unfold is_valid_utf8_char in V. destruct (firstn n (b :: r)); [discriminate|cbn; lia].
Qed.
Lemma string_of_cstr_total mem : string_of_cstr mem <> NoFuel.
Proof. apply decode_loop_total. lia. Qed.
Lemma find_total s t p : s_find s t p <> NoFuel.
Proof. unfold s_find. destruct (N.ltb _ _); discriminate. Qed.
Lemma substring_total s p n : s_substring s p n <> NoFuel.
Proof. unfold s_substring. destruct (N.ltb _ _); discriminate. Qed.

Lemma skip_from_total l : forall p, skip_from l p <> NoFuel.
Proof.
  induction l as [|c r IH]; intros p; cbn; [discriminate|]. apply bind_NoFuel; [apply get_code_point_total|].
  intros cp _. destruct (is_space cp); [apply IH|discriminate].
Qed.
Lemma skip_from_le l : forall p q, skip_from l p = Ok q -> (p <= q)%nat.
Proof.
  induction l as [|c r IH]; intros p q H; cbn in H; [injection H as <-; lia|]. apply bind_ok in H as (cp & _ & H).
  destruct (is_space cp); [apply IH in H; lia|injection H as <-; lia].
Qed.
Lemma skip_total s p : skip_space s p <> NoFuel.
Proof. apply skip_from_total. Qed.
Lemma skip_le s p q : skip_space s p = Ok q -> (p <= q)%nat.
Proof. apply skip_from_le. Qed.

Section Safe.
Context {F : Type}.
Variable f_zero : F.
Variable stod : list N -> conversion F.
Variable s : Str.
Notation json := (json F).
Notation result := (json * nat * jerror)%type.

(** A call that starts at [lo] with [err]: it ends, at or after [lo], with an error if there was one. *)
Definition good (lo : nat) (err : jerror) (r : outcome result) : Prop :=
  r <> NoFuel /\ forall v p e, r = Ok (v, p, e) -> (lo <= p)%nat /\ (err <> NoError -> e <> NoError) /\ unique_keys v.

Lemma good_bind {A} lo err (m : outcome A) k : m <> NoFuel -> (forall a, m = Ok a -> good lo err (k a)) -> good lo err (bind m k).
Proof.
  intros H K. destruct m as [a| | |]; cbn; try (split; [discriminate|intros; discriminate]); [now apply K|congruence].
Qed.
Lemma good_ok lo err v p e : (lo <= p)%nat -> (err <> NoError -> e <> NoError) -> unique_keys v -> good lo err (Ok (v, p, e)).
Proof. intros H1 H2 H3. split; [discriminate|]. intros ? ? ? [= <- <- <-]. auto. Qed.
Lemma good_err lo err p e : (lo <= p)%nat -> e <> NoError -> good lo err (Ok (JNull, p, e)).
Proof. intros. apply good_ok; auto. constructor. Qed.
Lemma good_pv {A} lo err lo' (m : outcome result) (k : result -> outcome A) (P : outcome A -> Prop) :
  good lo' err m -> P UB -> (forall e, P (Throw e)) ->
  (forall v p e, (lo' <= p)%nat -> (err <> NoError -> e <> NoError) -> unique_keys v -> P (k (v, p, e))) -> (lo <= lo')%nat -> P (bind m k).
Proof.
  intros [T G] U Th K L. destruct m as [[[v p] e]|e| |]; cbn; auto; [|congruence]. destruct (G v p e eq_refl) as (? & ? & ?). auto.
Qed.

Lemma upd_unique (ms : list (Str * json)) k (v : json) : unique_keys (JObj ms) -> unique_keys v -> unique_keys (JObj (upd ms k (fun _ => v))).
Proof.
  intros H V. inversion H as [|? N A| | | | |]; subst. constructor.
  - rewrite keys_upd. apply (keys_step_nodup (keys ms) (OpTouch (F := F) k) N).
  - clear N H. induction A as [|[k' x] r Hx A IH]; cbn; [repeat constructor; exact V|].
    destruct (s_eqb k' k); constructor; auto.
Qed.

Lemma j_of_std_total b : j_of_std (F := F) b <> NoFuel.
Proof. unfold j_of_std. apply bind_NoFuel; [apply string_of_cstr_total|discriminate]. Qed.
Lemma j_of_std_unique b v : j_of_std (F := F) b = Ok v -> unique_keys v.
Proof. unfold j_of_std. intros H. apply bind_ok in H as (u & _ & [= <-]). constructor. Qed.

Lemma string_loop_good fuel : forall pos err out, (length s < fuel + pos)%nat -> (0 < fuel)%nat ->
  good pos err (string_loop s fuel pos err out).
Proof.
  induction fuel as [|f IH]; intros pos err out H H0; [lia|]. cbn [string_loop].
  destruct (Nat.ltb_spec pos (length s)) as [L|L].
  2:{ apply good_bind; [apply s_index_total|]. intros. apply good_err; [lia|discriminate]. }
  assert (G : forall p o, (pos < p)%nat -> good pos err (string_loop s f p err o)).
  { intros p o Lp. destruct (IH p err o) as [T G]; [lia|lia|]. split; [exact T|]. intros v q e E.
    destruct (G v q e E) as (? & ? & ?). split; [lia|auto]. }
  apply good_bind; [apply s_index_total|]. intros c _.
  destruct (is_ascii c _).
  { apply good_bind; [apply j_of_std_total|]. intros v Ev. apply good_ok; [lia|auto|now apply j_of_std_unique in Ev]. }
  destruct (is_ascii c _); [|apply G; lia].
  destruct (Nat.leb_spec (length s) (S pos)); [apply good_err; [lia|discriminate]|].
  apply good_bind; [apply s_index_total|]. intros c' _. destruct (json_escape c'); [apply G; lia|].
  destruct (is_ascii c' _); [|apply good_err; [lia|discriminate]].
  destruct (Nat.leb_spec (length s) (S pos + 4)); [apply good_err; [lia|discriminate]|].
  apply good_bind; [apply substring_total|]. intros h _.
  destruct (stoul16 (s_str h)); [apply G; lia| |]; (apply good_err; [lia|discriminate]).
Qed.

Lemma good_weaken lo lo' err r : good lo' err r -> (lo <= lo')%nat -> good lo err r.
Proof. intros [T G] L. split; [exact T|]. intros v p e E. destruct (G v p e E) as (? & ? & ?). split; [lia|auto]. Qed.

Lemma parse_string_good pos err : good pos err (parse_string s pos err).
Proof. apply (good_weaken pos (S pos)); [|lia]. apply string_loop_good; lia. Qed.

Lemma compare_total b p n w : compare_at b p n w <> NoFuel.
Proof. unfold compare_at. destruct (Nat.ltb _ _); discriminate. Qed.
Lemma parse_null_good pos err : good pos err (parse_null f_zero s pos err).
Proof.
  apply good_bind; [apply compare_total|]. intros [|] _; [|apply good_err; [lia|discriminate]].
  apply good_ok; [lia|auto|constructor].
Qed.
Lemma parse_boolean_good pos err : good pos err (parse_boolean (F := F) s pos err).
Proof.
  apply good_bind; [apply compare_total|]. intros [|] _; [apply good_ok; [lia|auto|constructor]|].
  apply good_bind; [apply compare_total|]. intros [|] _; [|apply good_err; [lia|discriminate]].
  apply good_ok; [lia|auto|constructor].
Qed.
Lemma number_end_total l : forall e, number_end l e <> NoFuel.
Proof.
  induction l as [|c r IH]; intros e; cbn [number_end]; [discriminate|]. apply bind_NoFuel.
  - apply bind_NoFuel; [apply get_code_point_total|discriminate].
  - intros [|] _; [apply IH|discriminate].
Qed.
Lemma number_end_le l : forall e e', number_end l e = Ok e' -> (e <= e')%nat.
Proof.
  induction l as [|c r IH]; intros e e' H; cbn [number_end] in H; [injection H as <-; lia|].
  apply bind_ok in H as ([|] & _ & H); [apply IH in H; lia|injection H as <-; lia].
Qed.
Lemma parse_number_good pos err : good pos err (parse_number stod s pos err).
Proof.
  apply good_bind; [apply number_end_total|]. intros e He. apply number_end_le in He.
  apply good_bind; [apply substring_total|]. intros t _. do 3 (apply good_bind; [apply find_total|]; intros ? _).
  set (conv := match a with None => _ | _ => _ end).
  assert (U : forall v, conv = Converted v -> unique_keys v).
  { intros v. unfold conv. destruct a, a0, a1; try (destruct (stod (s_str t)); try discriminate; intros [= <-]; constructor).
    destruct (stoll (s_str t)); try discriminate. intros [= <-]. constructor. }
  destruct conv as [v| |]; [apply good_ok; [lia|auto|now apply U]| |]; apply good_err; try lia; discriminate.
Qed.

(** [pv] behaves at every position from [lo] on. *)
Definition pv_good (lo : nat) (pv : nat -> jerror -> outcome result) : Prop :=
  forall p e, (lo <= p)%nat -> good p e (pv p e).

Lemma good_step lo err (m : outcome result) (k : result -> outcome result) lo' :
  good lo' err m -> (forall v p e, (lo' <= p)%nat -> (err <> NoError -> e <> NoError) -> unique_keys v -> good lo e (k (v, p, e))) ->
  good lo err (bind m k).
Proof.
  intros [T G] K. destruct m as [[[v p] e]|e| |]; cbn; try (split; [discriminate|intros; discriminate]); [|congruence].
  destruct (G v p e eq_refl) as (L & E & U). destruct (K v p e L E U) as [T' G']. split; [exact T'|].
  intros v' p' e' Ek. destruct (G' v' p' e' Ek) as (L' & E' & U'). auto.
Qed.

Lemma object_loop_good lo pv : pv_good lo pv -> forall fuel ms pos err,
  (lo <= pos)%nat -> (length s < fuel + pos)%nat -> (0 < fuel)%nat -> unique_keys (JObj ms) ->
  good pos err (object_loop f_zero s pv fuel (JObj ms) pos err).
Proof.
  intros P. induction fuel as [|f IH]; intros ms pos err Hlo H H0 U; [lia|]. cbn [object_loop].
  destruct (Nat.ltb_spec pos (length s)) as [L|L]; [|apply good_err; [lia|discriminate]].
  apply good_bind; [apply skip_total|]. intros p Hp. apply skip_le in Hp.
  apply good_bind; [apply s_index_total|]. intros c _.
  destruct (is_ascii c _); [apply good_ok; [lia|auto|exact U]|].
  destruct (is_ascii c _); [|apply good_err; [lia|discriminate]].
  apply good_bind; [apply find_total|]. intros [e|] He; [|apply good_err; [lia|discriminate]].
  assert (Le : (S p <= e)%nat).
  { unfold s_find in He. destruct (N.ltb _ _); [discriminate|]. destruct (Nat.eqb _ _); [discriminate|]. injection He as <-. lia. }
  apply good_bind; [apply substring_total|]. intros key _.
  apply good_bind; [apply skip_total|]. intros p1 Hp1. apply skip_le in Hp1.
  apply good_bind; [apply s_index_total|]. intros c1 _.
  destruct (is_ascii c1 _); [|apply good_err; [lia|discriminate]].
  apply good_bind; [apply skip_total|]. intros p2 Hp2. apply skip_le in Hp2.
  apply good_step with p2; [apply P; lia|]. intros v p3 e3 L3 E3 U3. cbn [fst snd].
  apply good_bind; [apply skip_total|]. intros p4 Hp4. apply skip_le in Hp4.
  apply good_bind; [apply s_index_total|]. intros c4 Hc4.
  unfold store_key. rewrite update_key_obj. pose proof (upd_unique ms key v U U3) as UU.
  destruct (is_ascii c4 _).
  - apply good_bind; [apply skip_total|]. intros p5 Hp5. apply skip_le in Hp5.
    apply good_bind; [apply s_index_total|]. intros c5 Hc5. apply s_index_ok in Hc5 as [_ Hc5].
    destruct (is_ascii c5 _); [apply good_err; [lia|discriminate]|].
    apply (good_weaken pos p5); [|lia]. apply IH; auto; lia.
  - destruct (is_ascii c4 _); [apply good_ok; [lia|auto|exact UU]|apply good_err; [lia|discriminate]].
Qed.

Lemma append1_arr (l : list json) v : append1 f_zero (JArr l) v = JArr (l ++ [v]).
Proof. reflexivity. Qed.

Lemma array_loop_good lo pv : pv_good lo pv -> forall fuel l pos err,
  (lo <= pos)%nat -> (length s < fuel + pos)%nat -> (0 < fuel)%nat -> Forall unique_keys l ->
  good pos err (array_loop f_zero s pv fuel (JArr l) pos err).
Proof.
  intros P. induction fuel as [|f IH]; intros l pos err Hlo H H0 U; [lia|]. cbn [array_loop].
  destruct (Nat.ltb_spec pos (length s)) as [L|L]; [|apply good_err; [lia|discriminate]].
  apply good_bind; [apply skip_total|]. intros p Hp. apply skip_le in Hp.
  apply good_bind; [apply s_index_total|]. intros c _.
  destruct (is_ascii c _); [apply good_ok; [lia|auto|now constructor]|].
  apply good_step with p; [apply P; lia|]. intros v p3 e3 L3 E3 U3.
  apply good_bind; [apply skip_total|]. intros p4 Hp4. apply skip_le in Hp4.
  apply good_bind; [apply s_index_total|]. intros c4 Hc4. rewrite append1_arr.
  assert (UU : Forall unique_keys (l ++ [v])) by (apply Forall_app; auto).
  destruct (is_ascii c4 _).
  - apply good_bind; [apply skip_total|]. intros p5 Hp5. apply skip_le in Hp5.
    apply good_bind; [apply s_index_total|]. intros c5 Hc5. apply s_index_ok in Hc5 as [_ Hc5].
    destruct (is_ascii c5 _); [apply good_err; [lia|discriminate]|].
    apply (good_weaken pos p5); [|lia]. apply IH; auto; lia.
  - destruct (is_ascii c4 _); [apply good_ok; [lia|auto|now constructor]|apply good_err; [lia|discriminate]].
Qed.

Lemma parse_value_good d : forall pos err, (length s <= d + pos)%nat -> good pos err (parse_value f_zero stod s d pos err).
Proof.
  induction d as [|d IH]; intros pos err H.
  - cbn [parse_value]. apply good_bind; [apply skip_total|]. intros p Hp. apply skip_le in Hp.
    destruct (Nat.leb_spec (length s) p); [apply good_ok; [lia|auto|constructor]|lia].
  - cbn [parse_value]. apply good_bind; [apply skip_total|]. intros p Hp. apply skip_le in Hp.
    destruct (Nat.leb_spec (length s) p); [apply good_ok; [lia|auto|constructor]|].
    apply good_bind; [apply s_index_total|]. intros c _. apply (good_weaken pos p); [|lia].
    assert (P : pv_good (S p) (parse_value f_zero stod s d)) by (intros q e Hq; apply IH; lia).
    destruct (is_ascii c _); [apply parse_string_good|].
    destruct (is_ascii c _).
    { apply good_bind; [apply skip_total|]. intros q Hq. apply skip_le in Hq. apply (good_weaken p q); [|lia].
      apply (object_loop_good (S p)); [exact P|lia|lia|lia|]. repeat constructor. }
    destruct (is_ascii c _).
    { apply good_bind; [apply skip_total|]. intros q Hq. apply skip_le in Hq. apply (good_weaken p q); [|lia].
      apply (array_loop_good (S p)); [exact P|lia|lia|lia|]. repeat constructor. }
    destruct (is_ascii c _ || is_ascii c _); [apply parse_boolean_good|].
    destruct (is_ascii c _); [apply parse_null_good|].
    apply good_bind; [apply get_code_point_total|]. intros cp _.
    destruct (_ || _); [apply parse_number_good|apply good_err; [lia|discriminate]].
Qed.

Lemma first_loop_total l : forall i, first_loop l i <> NoFuel.
Proof.
  induction l as [|c r IH]; intros i; cbn; [discriminate|]. apply bind_NoFuel; [apply get_code_point_total|].
  intros cp _. destruct (is_space cp); [apply IH|discriminate].
Qed.
Lemma last_loop_total l : forall i, last_loop l i <> NoFuel.
Proof.
  induction i as [|i IH]; cbn [last_loop]; [discriminate|]. apply bind_NoFuel; [apply s_index_total|]. intros c _.
  apply bind_NoFuel; [apply get_code_point_total|]. intros cp _. destruct (is_space cp); [apply IH|discriminate].
Qed.

Lemma parser_total d : (length s <= d)%nat -> parser_parse f_zero stod s d <> NoFuel.
Proof.
  intros H. unfold parser_parse. destruct (s_is_empty s); [discriminate|].
  apply bind_NoFuel; [apply first_loop_total|]. intros a _.
  apply bind_NoFuel; [unfold find_last_non_space; destruct s; [discriminate|apply last_loop_total]|]. intros b _.
  apply bind_NoFuel; [apply s_index_total|]. intros c _. destruct (negb _); [discriminate|].
  apply bind_NoFuel; [apply s_index_total|]. intros c' _. destruct (negb _); [discriminate|].
  apply bind_NoFuel; [apply parse_value_good; lia|]. intros [[v p] e] _. discriminate.
Qed.

Lemma doc_parse_total : doc_parse f_zero stod s <> NoFuel.
Proof.
  unfold doc_parse. apply bind_NoFuel; [now apply parser_total|]. intros [v e] _. discriminate.
Qed.

(** ** More nesting allowed changes nothing. *)
Definition extends (r r' : outcome result) : Prop := r = NoFuel \/ r' = r.

Lemma extends_bind {A} (m : outcome A) k k' : (forall a, m = Ok a -> extends (k a) (k' a)) -> extends (bind m k) (bind m k').
Proof. intros H. destruct m; cbn; [now apply H|right|right|left]; reflexivity. Qed.
Lemma extends_refl r : extends r r.
Proof. now right. Qed.
Lemma extends_step (m m' : outcome result) k k' : extends m m' -> (forall x, extends (k x) (k' x)) -> extends (bind m k) (bind m' k').
Proof. intros [->| ->] H; [left; reflexivity|]. destruct m; cbn; [apply H|right|right|left]; reflexivity. Qed.

Lemma object_loop_extends pv pv' : (forall p e, extends (pv p e) (pv' p e)) -> forall fuel obj pos err,
  extends (object_loop f_zero s pv fuel obj pos err) (object_loop f_zero s pv' fuel obj pos err).
Proof.
  intros P. induction fuel as [|f IH]; intros obj pos err; [now left|]. cbn [object_loop].
  destruct (Nat.ltb _ _); [|apply extends_refl].
  do 2 (apply extends_bind; intros ? _). destruct (is_ascii _ _); [apply extends_refl|].
  destruct (is_ascii _ _); [|apply extends_refl]. apply extends_bind; intros [e|] _; [|apply extends_refl].
  do 3 (apply extends_bind; intros ? _). destruct (is_ascii _ _); [|apply extends_refl].
  apply extends_bind; intros ? _. apply extends_step; [apply P|]. intros [[v p] er].
  do 2 (apply extends_bind; intros ? _). destruct (is_ascii _ _); [|apply extends_refl].
  do 2 (apply extends_bind; intros ? _). destruct (is_ascii _ _); [apply extends_refl|apply IH].
Qed.
Lemma array_loop_extends pv pv' : (forall p e, extends (pv p e) (pv' p e)) -> forall fuel arr pos err,
  extends (array_loop f_zero s pv fuel arr pos err) (array_loop f_zero s pv' fuel arr pos err).
Proof.
  intros P. induction fuel as [|f IH]; intros arr pos err; [now left|]. cbn [array_loop].
  destruct (Nat.ltb _ _); [|apply extends_refl].
  do 2 (apply extends_bind; intros ? _). destruct (is_ascii _ _); [apply extends_refl|].
  apply extends_step; [apply P|]. intros [[v p] er].
  do 2 (apply extends_bind; intros ? _). destruct (is_ascii _ _); [|apply extends_refl].
  do 2 (apply extends_bind; intros ? _). destruct (is_ascii _ _); [apply extends_refl|apply IH].
Qed.
Lemma parse_value_extends d : forall d' pos err, (d <= d')%nat ->
  extends (parse_value f_zero stod s d pos err) (parse_value f_zero stod s d' pos err).
Proof.
  induction d as [|d IH]; intros d' pos err H.
  - destruct d'; [apply extends_refl|]. cbn [parse_value]. apply extends_bind; intros p _.
    destruct (Nat.leb _ _); [apply extends_refl|]. apply extends_bind; intros c _.
    destruct (is_ascii c 0x22); [apply extends_refl|]. destruct (is_ascii c 0x7B); [now left|].
    destruct (is_ascii c 0x5B); [now left|]. apply extends_refl.
  - destruct d' as [|d']; [lia|]. cbn [parse_value]. apply extends_bind; intros p _.
    destruct (Nat.leb _ _); [apply extends_refl|]. apply extends_bind; intros c _.
    assert (P : forall q e, extends (parse_value f_zero stod s d q e) (parse_value f_zero stod s d' q e)) by (intros; apply IH; lia).
    destruct (is_ascii c 0x22); [apply extends_refl|].
    destruct (is_ascii c 0x7B); [apply extends_bind; intros ? _; now apply object_loop_extends|].
    destruct (is_ascii c 0x5B); [apply extends_bind; intros ? _; now apply array_loop_extends|]. apply extends_refl.
Qed.
Lemma parser_any_depth d : (length s <= d)%nat -> parser_parse f_zero stod s d = parser_parse f_zero stod s (length s).
Proof.
  intros H. unfold parser_parse. destruct (s_is_empty s); [reflexivity|].
  destruct (find_first_non_space s); cbn; try reflexivity. destruct (find_last_non_space s); cbn; try reflexivity.
  destruct (s_index s a); cbn; try reflexivity. destruct (is_ascii _ _); cbn; try reflexivity.
  destruct (s_index s a0); cbn; try reflexivity. destruct (is_ascii _ _); cbn; try reflexivity.
  destruct (parse_value_extends (length s) d 0 NoError H) as [E| ->]; [|reflexivity].
  destruct (parse_value_good (length s) 0 NoError) as [T _]; [lia|congruence].
Qed.

(** ** The document *)
Lemma object_loop_type pv fuel : forall ms pos err v p, object_loop f_zero s pv fuel (JObj ms) pos err = Ok (v, p, NoError) ->
  j_type v = CObject.
Proof.
  induction fuel as [|f IH]; intros ms pos err v p H; [discriminate|]. cbn [object_loop] in H.
  destruct (Nat.ltb _ _); [|discriminate]. apply bind_ok in H as (? & _ & H). apply bind_ok in H as (? & _ & H).
  destruct (is_ascii _ _); [injection H as <- <- _; reflexivity|]. destruct (is_ascii _ _); [|discriminate].
  apply bind_ok in H as ([e|] & _ & H); [|discriminate]. do 3 (apply bind_ok in H as (? & _ & H)).
  destruct (is_ascii _ _); [|discriminate]. apply bind_ok in H as (? & _ & H). apply bind_ok in H as ([[v1 p1] e1] & _ & H).
  do 2 (apply bind_ok in H as (? & _ & H)). unfold store_key in H. rewrite update_key_obj in H. destruct (is_ascii _ _).
  - do 2 (apply bind_ok in H as (? & _ & H)). destruct (is_ascii _ _); [discriminate|]. eapply IH, H.
  - destruct (is_ascii _ _); [injection H as <- <- _; reflexivity|discriminate].
Qed.

Lemma skip_first l : forall i, skip_from l i = first_loop l i.
Proof. reflexivity. Qed.

Lemma doc_parse_cases d : doc_parse f_zero stod s = Ok d ->
  (error d <> NoError -> root d = JNull) /\ (error d = NoError -> j_type (root d) = CObject) /\ unique_keys (root d).
Proof.
  unfold doc_parse. intros H. apply bind_ok in H as ([v e] & H & E).
  assert (U : unique_keys v /\ (e = NoError -> j_type v = CObject)).
  { unfold parser_parse in H. destruct (s_is_empty s); [injection H as <- <-; split; [constructor|discriminate]|].
    apply bind_ok in H as (a & Ha & H). apply bind_ok in H as (b & Hb & H). apply bind_ok in H as (c & Hc & H).
    destruct (negb (is_ascii c _)) eqn:Ec; [injection H as <- <-; split; [constructor|discriminate]|].
    apply bind_ok in H as (c' & Hc' & H). destruct (negb (is_ascii c' _)); [injection H as <- <-; split; [constructor|discriminate]|].
    apply bind_ok in H as ([[v1 p1] e1] & H & [= -> ->]).
    destruct (parse_value_good (length s) 0 NoError) as [_ G]; [lia|]. split; [apply (G _ _ _ H)|]. intros ->.
    destruct (length s) as [|n] eqn:En; [destruct s; discriminate|]. cbn [parse_value] in H.
    apply bind_ok in H as (p & Hp & H). apply s_index_ok in Hc as [Hc L].
    assert (p = a) as ->.
    { unfold skip_space in Hp. cbn [skipn] in Hp. rewrite skip_first in Hp. unfold find_first_non_space in Ha. congruence. }
    destruct (Nat.leb_spec (length s) a); [lia|].
    apply bind_ok in H as (c0 & Hc0 & H). apply s_index_ok in Hc0 as [Hc0 _]. assert (c0 = c) as -> by congruence.
    apply negb_false_iff in Ec.
    apply is_ascii_iff in Ec as ->.
    cbn [is_ascii char_eqb bytes_eqb N.eqb Pos.eqb andb] in H. unfold parse_object in H. apply bind_ok in H as (q & _ & H).
    eapply object_loop_type, H. }
  destruct U as [U T]. destruct e; injection E as <-; cbn; repeat split; try constructor; try congruence; auto.
Qed.

End Safe.
