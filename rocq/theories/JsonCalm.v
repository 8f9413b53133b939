(** No exception leaves the parser on a text without the escape \u. *)
From Coq Require Import List NArith ZArith Bool Arith Lia.
From Verif Require Import Outcome CharModel CharUtil CharUtilProofs CharProofs StrModel StrUtil StrUtilProofs Dec JsonData SpecJson SpecUtf8 SpecStr SpecChar StrProofs JsonDataProofs JsonParse SpecJsonText JsonParseSafe JsonParseProofs.
Import ListNotations.
Local Open Scope list_scope.

Definition calm {A} (r : outcome A) : Prop := forall e, r <> Throw e.

Lemma calm_bind {A B} (m : outcome A) (k : A -> outcome B) : calm m -> (forall a, m = Ok a -> calm (k a)) -> calm (bind m k).
Proof. intros H K. destruct m; cbn; try (intros x; discriminate); [now apply K|]. exfalso. now apply (H e). Qed.
Lemma calm_ok {A} (a : A) : calm (Ok a).
Proof. intros e. discriminate. Qed.
Lemma calm_nofuel {A} : calm (@NoFuel A).
Proof. intros e. discriminate. Qed.
Lemma calm_index s i : calm (s_index s i).
Proof. unfold s_index, vec_get. destruct (nth_error s i); intros e; discriminate. Qed.
Lemma calm_find s t p : calm (s_find s t p).
Proof. unfold s_find. destruct (N.ltb _ _); intros e; discriminate. Qed.
Lemma calm_substring s p n : (p <= N.of_nat (length s))%N -> calm (s_substring s p n).
Proof. intros H. rewrite (proj1 (s_substring_spec s p n)) by exact H. apply calm_ok. Qed.
Lemma calm_compare b p n w : (p <= length b)%nat -> calm (compare_at b p n w).
Proof. intros H. unfold compare_at. destruct (Nat.ltb_spec (length b) p); [lia|apply calm_ok]. Qed.

Section Calm.
Context {F : Type}.
Variable f_zero : F.
Variable stod : list N -> conversion F.
Variable s : Str.
Hypothesis T : text s.
(** no backslash followed by u *)
Hypothesis U : forall i, ~ occurs_at [ch 0x5C%N; ch 0x75%N] s i.

Lemma calm_skip p : calm (skip_space s p).
Proof.
  unfold skip_space. destruct (skip_from_ok (skipn p s) (text_skipn p s T) p) as (w & r & _ & -> & _). apply calm_ok.
Qed.

Lemma calm_number_end p e : calm (number_end (skipn p s) e).
Proof. destruct (number_end_ok (skipn p s) (text_skipn p s T) e) as (t & r & _ & -> & _). apply calm_ok. Qed.

Lemma calm_string fuel : forall pos err u, text u -> calm (string_loop (F := F) s fuel pos err (concat u)).
Proof.
  induction fuel as [|f IH]; intros pos err u Tu; [apply calm_nofuel|]. cbn [string_loop].
  destruct (Nat.ltb_spec pos (length s)) as [L|L].
  2:{ apply calm_bind; [apply calm_index|]. intros c _. apply calm_ok. }
  apply calm_bind; [apply calm_index|]. intros c Hc. apply s_index_ok in Hc as [Hc _].
  assert (Tc : text_char c) by (eapply (char_text s); eauto).
  assert (Step : forall p c', text_char c' -> calm (string_loop (F := F) s f p err (concat u ++ c'))).
  { intros p c' H. replace (concat u ++ c') with (concat (u ++ [c'])) by (rewrite concat_app; cbn; now rewrite app_nil_r).
    apply IH. apply Forall_app. split; [exact Tu|]. now constructor. }
  destruct (is_ascii c 0x22).
  { apply calm_bind; [|intros v _; apply calm_ok]. unfold j_of_std, string_of_std. rewrite string_of_cstr_text by exact Tu. apply calm_ok. }
  destruct (is_ascii c 0x5C) eqn:EB.
  2:{ rewrite (cstr_char s T _ _ Hc). now apply Step. }
  apply is_ascii_iff in EB as ->. destruct (Nat.leb_spec (length s) (S pos)); [apply calm_ok|].
  apply calm_bind; [apply calm_index|]. intros c' Hc'. apply s_index_ok in Hc' as [Hc' _].
  destruct (json_escape c') as [b|] eqn:EE.
  { apply Step. apply json_escape_spec in EE as (e & -> & J). assert (0 < b < 128)%N by (destruct J; lia). split; [apply unit1; lia|intros [= ->]; lia]. }
  destruct (is_ascii c' 0x75) eqn:EU; [|apply calm_ok]. exfalso. apply is_ascii_iff in EU as ->.
  apply (U pos). apply occurs_skipn. split; [lia|]. rewrite (nth_skipn _ _ _ Hc), (nth_skipn _ _ _ Hc'). reflexivity.
Qed.

Lemma calm_parse_string pos err : calm (parse_string (F := F) s pos err).
Proof. apply (calm_string _ _ _ []). constructor. Qed.

Lemma calm_null p err : (p <= length s)%nat -> calm (parse_null f_zero s p err).
Proof.
  intros H. unfold parse_null. rewrite (s_str_text s T). pose proof (bytes_len s T).
  apply calm_bind; [apply calm_compare; lia|]. intros b _. apply calm_ok.
Qed.
Lemma calm_boolean p err : (p <= length s)%nat -> calm (parse_boolean (F := F) s p err).
Proof.
  intros H. unfold parse_boolean. rewrite (s_str_text s T). pose proof (bytes_len s T).
  apply calm_bind; [apply calm_compare; lia|]. intros [] _; [apply calm_ok|].
  apply calm_bind; [apply calm_compare; lia|]. intros b _. apply calm_ok.
Qed.
Lemma calm_number p err : (p <= length s)%nat -> calm (parse_number stod s p err).
Proof.
  intros H. unfold parse_number. apply calm_bind; [apply calm_number_end|]. intros e _.
  apply calm_bind; [apply calm_substring; lia|]. intros t _. repeat (apply calm_bind; [apply calm_find|]; intros ? _). apply calm_ok.
Qed.

Lemma calm_object pv : (forall p e, calm (pv p e)) -> forall fuel obj pos err, calm (object_loop f_zero s pv fuel obj pos err).
Proof.
  intros P. induction fuel as [|f IH]; intros obj pos err; [apply calm_nofuel|]. cbn [object_loop].
  destruct (Nat.ltb pos (length s)); [|apply calm_ok].
  apply calm_bind; [apply calm_skip|]. intros p Hp. apply calm_bind; [apply calm_index|]. intros c Hc.
  destruct (is_ascii c _); [apply calm_ok|]. destruct (is_ascii c _); [|apply calm_ok].
  apply calm_bind; [apply calm_find|]. intros [e|] He; [|apply calm_ok].
  apply calm_bind; [apply calm_substring; apply s_index_ok in Hc as [_ Hc]; lia|]. intros key _.
  apply calm_bind; [apply calm_skip|]. intros p1 _. apply calm_bind; [apply calm_index|]. intros c1 _.
  destruct (is_ascii c1 _); [|apply calm_ok].
  apply calm_bind; [apply calm_skip|]. intros p2 _. apply calm_bind; [apply P|]. intros [[v p3] e3] _.
  apply calm_bind; [apply calm_skip|]. intros p4 _. apply calm_bind; [apply calm_index|]. intros c4 _.
  destruct (is_ascii c4 _).
  - apply calm_bind; [apply calm_skip|]. intros p5 _. apply calm_bind; [apply calm_index|]. intros c5 _.
    destruct (is_ascii c5 _); [apply calm_ok|apply IH].
  - destruct (is_ascii c4 _); apply calm_ok.
Qed.

Lemma calm_array pv : (forall p e, calm (pv p e)) -> forall fuel arr pos err, calm (array_loop f_zero s pv fuel arr pos err).
Proof.
  intros P. induction fuel as [|f IH]; intros arr pos err; [apply calm_nofuel|]. cbn [array_loop].
  destruct (Nat.ltb pos (length s)); [|apply calm_ok].
  apply calm_bind; [apply calm_skip|]. intros p _. apply calm_bind; [apply calm_index|]. intros c _.
  destruct (is_ascii c _); [apply calm_ok|]. apply calm_bind; [apply P|]. intros [[v p3] e3] _.
  apply calm_bind; [apply calm_skip|]. intros p4 _. apply calm_bind; [apply calm_index|]. intros c4 _.
  destruct (is_ascii c4 _).
  - apply calm_bind; [apply calm_skip|]. intros p5 _. apply calm_bind; [apply calm_index|]. intros c5 _.
    destruct (is_ascii c5 _); [apply calm_ok|apply IH].
  - destruct (is_ascii c4 _); apply calm_ok.
Qed.

Lemma calm_value d : forall pos err, calm (parse_value f_zero stod s d pos err).
Proof.
  induction d as [|d IH]; intros pos err; cbn [parse_value]; (apply calm_bind; [apply calm_skip|]); intros p _;
    (destruct (Nat.leb_spec (length s) p); [apply calm_ok|]); (apply calm_bind; [apply calm_index|]); intros c Hc;
    apply s_index_ok in Hc as [Hc Lp];
    (destruct (is_ascii c 0x22); [apply calm_parse_string|]).
  - destruct (is_ascii c 0x7B); [apply calm_nofuel|]. destruct (is_ascii c 0x5B); [apply calm_nofuel|].
    destruct (_ || _); [apply calm_boolean; lia|]. destruct (is_ascii c 0x6E); [apply calm_null; lia|].
    rewrite (get_code_point_unit c) by (eapply (char_text s); eauto). cbn [bind].
    destruct (_ || _); [apply calm_number; lia|apply calm_ok].
  - destruct (is_ascii c 0x7B); [apply calm_bind; [apply calm_skip|]; intros q _; now apply calm_object|].
    destruct (is_ascii c 0x5B); [apply calm_bind; [apply calm_skip|]; intros q _; now apply calm_array|].
    destruct (_ || _); [apply calm_boolean; lia|]. destruct (is_ascii c 0x6E); [apply calm_null; lia|].
    rewrite (get_code_point_unit c) by (eapply (char_text s); eauto). cbn [bind].
    destruct (_ || _); [apply calm_number; lia|apply calm_ok].
Qed.

Lemma calm_doc : calm (doc_parse f_zero stod s).
Proof.
  unfold doc_parse, parser_parse. apply calm_bind; [|intros [v e] _; apply calm_ok].
  destruct (s_is_empty s) eqn:E; [apply calm_ok|].
  assert (N : s <> []) by (destruct s; discriminate).
  destruct (find_last_spec s T N) as (k & Ek & _).
  apply calm_bind; [apply (calm_skip 0)|]. intros a _. rewrite Ek. cbn [bind].
  apply calm_bind; [apply calm_index|]. intros c _. destruct (negb _); [apply calm_ok|].
  apply calm_bind; [apply calm_index|]. intros c' _. destruct (negb _); [apply calm_ok|].
  apply calm_bind; [apply calm_value|]. intros [[v p] e] _. apply calm_ok.
Qed.
End Calm.
