(** Final theorems: C120 filling and emptying Strings and moving them through streams, C121 searching with a predicate. *)
From Coq Require Import List NArith ZArith Bool Arith Lia.
From Verif Require Import Outcome CharModel CharUtil StrModel SpecUtf8 SpecChar SpecStr CharProofs StrProofs FileProofs Stream StreamProps SpecFile.
Import ListNotations.
Local Open Scope N_scope.

(** ** C120 *)
Lemma nth_error_repeat' {A} (c : A) n i : (i < n)%nat -> nth_error (repeat c n) i = Some c.
Proof. revert i. induction n as [|n IH]; intros i H; [lia|]. destruct i as [|i]; [reflexivity|]. cbn. apply IH. lia. Qed.
Lemma at_repeat c n i : (i < n)%nat -> s_at (repeat c n) (N.of_nat i) = Ok c.
Proof.
  intro H. destruct (s_at_spec (repeat c n) (N.of_nat i)) as [L _]. unfold s_size in L. rewrite repeat_length in L.
  destruct L as (d & E & ->); [lia|]. rewrite Nat2N.id, nth_error_repeat' in E by assumption. congruence.
Qed.
(** String(n, Char): n elements, each the given Char. *)
Theorem C120_fill_char : forall n c, s_size (string_fill_char n c) = n /\
  (forall i, (i < n)%nat -> s_at (string_fill_char n c) (N.of_nat i) = Ok c).
Proof.
  intros n c. split; [apply repeat_length|]. intros i H. now apply at_repeat.
Qed.
Print Assumptions C120_fill_char.
Lemma byte_unit b : is_byte b -> (b < 128 -> char_of_bytes [b] = Ok [b]) /\ (128 <= b -> char_of_bytes [b] = Throw EInvalidArgument).
Proof.
  intro B. destruct (char_of_bytes_spec [b]) as [Y N]; [now repeat constructor|]. split; intro H.
  - apply Y. now constructor.
  - apply N. intro U. inversion U; lia.
Qed.
(** String(n, char): n copies of an ASCII character; any other byte is refused, unless nothing is asked for. *)
Theorem C120_fill_byte : forall n b, is_byte b ->
  (b < 128 -> exists s, string_fill_byte n b = Ok s /\ s_size s = n /\ forall i, (i < n)%nat -> s_at s (N.of_nat i) = Ok [b]) /\
  (128 <= b -> (0 < n)%nat -> string_fill_byte n b = Throw EInvalidArgument) /\
  string_fill_byte 0 b = Ok [].
Proof.
  intros n b B. destruct (byte_unit b B) as [Y N]. split; [|split; [|reflexivity]].
  - intro H. exists (repeat [b] n). split; [|split; [apply repeat_length|intros i L; now apply at_repeat]].
    rewrite (Y H) in *. clear N. induction n as [|n IH]; [reflexivity|]. cbn [string_fill_byte repeat].
    rewrite (Y H). cbn [bind]. now rewrite IH.
  - intros H L. destruct n; [lia|]. cbn [string_fill_byte]. now rewrite (N H).
Qed.
Print Assumptions C120_fill_byte.
(** Clear() and Empty() *)
Theorem C120_empty : forall s, s_size (s_clear s) = 0%nat /\ s_is_empty (s_clear s) = true /\ s_not_empty (s_clear s) = false /\
  s_str (s_clear s) = [] /\ s_empty = Ok (s_clear s) /\
  (s_is_empty s = true <-> s_size s = 0%nat) /\ (s_not_empty s = true <-> (0 < s_size s)%nat).
Proof.
  intro s. unfold s_not_empty. repeat split; destruct s; cbn; intros; (reflexivity || discriminate || lia).
Qed.
Print Assumptions C120_empty.
(** operator<< then operator>> of one line: the same String. *)
Theorem C120_through_a_stream_partial : forall s, text s -> s_input (s_output s) = Ok s.
Proof. intros s T. unfold s_input, s_output. rewrite s_str_text by assumption. now apply FileProofs.string_of_std_text. Qed.
Print Assumptions C120_through_a_stream_partial.
Lemma text_bytes s : text s -> Forall is_byte (concat s).
Proof.
  intro T. induction T as [|c s [U _] _ IH]; cbn; [constructor|]. apply Forall_app. split; [|assumption].
  inversion U; subst; unfold continuation, is_byte in *; repeat constructor; lia.
Qed.
(** Not for Strings with a NUL character: what follows the NUL is lost. *)
Theorem C120_through_a_stream_refuted : forall s t, text s -> text t -> s_input (s_output s ++ 0 :: s_output t) = Ok s.
Proof.
  intros s t Ts Tt. unfold s_input, s_output. apply embedded_nul with (s := s_str s).
  - rewrite !s_str_text by assumption. apply Forall_app. split; [|constructor; [unfold is_byte; lia|]]; now apply text_bytes.
  - rewrite s_str_text by assumption. now apply text_no_nul.
  - rewrite s_str_text by assumption. now apply FileProofs.string_of_std_text.
Qed.
Print Assumptions C120_through_a_stream_refuted.
Example C120_ex : string_fill_byte 2 65 = Ok [[65]; [65]] /\ string_fill_byte 2 0xC3 = Throw EInvalidArgument /\
  string_fill_char 2 [0xC3; 0xA9] = [[0xC3; 0xA9]; [0xC3; 0xA9]] /\
  s_input (s_output [[0xC3; 0xA9]; [65]]) = Ok [[0xC3; 0xA9]; [65]] /\ text [[0xC3; 0xA9]; [65]].
Proof. repeat split; repeat constructor; try discriminate; unfold continuation; lia. Qed.

(** ** C121 *)
(** [i] is the first position from [from] on whose character satisfies [P]. *)
Definition first_from (P : Chr -> Prop) (s : Str) (from i : nat) : Prop :=
  (from <= i)%nat /\ (exists c, nth_error s i = Some c /\ P c) /\
  forall j c, (from <= j < i)%nat -> nth_error s j = Some c -> ~ P c.
Lemma find_if_from_spec p s : let k := find_if_from p s in (k <= length s)%nat /\
  (forall j c, (j < k)%nat -> nth_error s j = Some c -> p c = false) /\
  (k <> length s -> exists c, nth_error s k = Some c /\ p c = true).
Proof.
  induction s as [|a s IH]; cbn; [repeat split; [lia|intros; lia|congruence]|].
  destruct (p a) eqn:E; cbn.
  - split; [lia|]. split; [intros; lia|]. intros _. now exists a.
  - cbn in IH. destruct IH as (L & B & K). split; [lia|]. split.
    + intros [|j] c J N; cbn in N; [congruence|]. apply (B j c); [lia|assumption].
    + intro H. apply K. lia.
Qed.
Lemma nth_error_skipn' {A} (l : list A) n i : nth_error (skipn n l) i = nth_error l (n + i).
Proof. revert n. induction l as [|a l IH]; intros [|n]; try reflexivity; [now destruct i|cbn; apply IH]. Qed.
Lemma find_if_spec s p pos : (pos <= length s)%nat ->
  (forall i, s_find_if s p (N.of_nat pos) = Ok (Some i) <-> first_from (fun c => p c = true) s pos i) /\
  (s_find_if s p (N.of_nat pos) = Ok None <-> forall i c, (pos <= i)%nat -> nth_error s i = Some c -> p c = false).
Proof.
  intro H. unfold s_find_if. destruct (N.ltb_spec (N.of_nat (length s)) (N.of_nat pos)) as [|_]; [lia|]. rewrite Nat2N.id.
  pose proof (find_if_from_spec p (skipn pos s)) as (L & B & K). cbn zeta in *. rewrite skipn_length in *.
  set (k := find_if_from p (skipn pos s)) in *.
  assert (B' : forall j c, (pos <= j < pos + k)%nat -> nth_error s j = Some c -> p c = false).
  { intros j c J N. apply (B (j - pos)%nat c); [lia|]. rewrite nth_error_skipn'. now replace (pos + (j - pos))%nat with j by lia. }
  destruct (Nat.eqb_spec (pos + k) (length s)) as [E|E].
  - assert (A : forall i c, (pos <= i)%nat -> nth_error s i = Some c -> p c = false).
    { intros i c I N. apply (B' i c); [|assumption]. assert (i < length s)%nat by (apply nth_error_Some; congruence). lia. }
    split; [|tauto]. intro i. split; [discriminate|]. intros (I & (c & N & P) & _). rewrite (A i c I N) in P. discriminate.
  - destruct K as (c & N & P); [lia|]. rewrite nth_error_skipn' in N. split.
    + intro i. split.
      * intros [= <-]. split; [lia|]. split; [now exists c|]. intros j d J Nj. rewrite (B' j d J Nj). discriminate.
      * intros (I & (d & Nd & Pd) & M). f_equal. f_equal. destruct (lt_eq_lt_dec i (pos + k)) as [[X|X]|X]; [|congruence|].
        -- rewrite (B' i d) in Pd by (assumption || lia). discriminate.
        -- destruct (M (pos + k)%nat c); [lia|assumption..].
    + split; [discriminate|]. intro A. rewrite (A _ _ (Nat.le_add_r _ _) N) in P. discriminate.
Qed.
(** FindIf and FindIfNot give the first position, from the given one on, whose character satisfies (does not satisfy) the
    predicate, and NPosition when there is none. *)
Theorem C121_first_partial : forall s p pos, (pos <= s_size s)%nat ->
  (forall i, s_find_if s p (N.of_nat pos) = Ok (Some i) <-> first_from (fun c => p c = true) s pos i) /\
  (s_find_if s p (N.of_nat pos) = Ok None <-> forall i c, (pos <= i)%nat -> nth_error s i = Some c -> p c = false) /\
  (forall i, s_find_if_not s p (N.of_nat pos) = Ok (Some i) <-> first_from (fun c => p c = false) s pos i) /\
  (s_find_if_not s p (N.of_nat pos) = Ok None <-> forall i c, (pos <= i)%nat -> nth_error s i = Some c -> p c = true).
Proof.
  intros s p pos H. destruct (find_if_spec s p pos H) as [A B].
  destruct (find_if_spec s (fun c => negb (p c)) pos H) as [C D]. split; [assumption|]. split; [assumption|]. split.
  - intro i. unfold s_find_if_not. rewrite C. unfold first_from. setoid_rewrite negb_true_iff. reflexivity.
  - unfold s_find_if_not. rewrite D. setoid_rewrite negb_false_iff. reflexivity.
Qed.
Print Assumptions C121_first_partial.
(** A start beyond the end is undefined behaviour, where the other searches report NPosition. *)
Theorem C121_beyond_the_end_refuted : forall s p pos, N.of_nat (s_size s) < pos -> s_find_if s p pos = UB /\ s_find_if_not s p pos = UB.
Proof.
  intros s p pos H. unfold s_find_if_not, s_find_if, s_size in *. apply N.ltb_lt in H. now rewrite H.
Qed.
Print Assumptions C121_beyond_the_end_refuted.
Definition is_a (c : Chr) : bool := bytes_eqb c [97].
Example C121_ex : let s := [[98]; [97]; [97]; [98]] in
  s_find_if s is_a 0 = Ok (Some 1%nat) /\ s_find_if s is_a 3 = Ok None /\ s_find_if_not s is_a 1 = Ok (Some 3%nat) /\
  first_from (fun c => is_a c = true) s 0 1.
Proof.
  repeat split; try lia; [now exists [97]|]. intros [|j] c J N; [injection N as <-; discriminate|lia].
Qed.

(** ** C123 reading Strings with operator>> *)
Lemma read_into_line c old p r : ready c -> ~ In 10 p -> pending c = p ++ 10 :: r -> exists c', ready c' /\ pending c' = r /\
  written c' = written c /\
  read_into c old = match s_input p with Ok s => (c', s, Ok tt) | Throw e => (c', old, Throw e) | UB => (c', old, UB) | NoFuel => (c', old, NoFuel) end.
Proof.
  intros R N P. destruct (getline_line c p r R N P) as (S & Q & R'). pose proof (getline_written c) as W.
  unfold read_into. destruct R as [-> ->]. cbn [orb]. destruct (getline c) as [c' i]. cbn [fst snd] in *. subst i. exists c'.
  destruct (s_input p); auto.
Qed.
Lemma no_line_feed s : text s -> ~ In [10] s -> ~ In 10 (concat s).
Proof.
  intros T N I. apply in_concat in I as (x & Ix & I). unfold text in T. rewrite Forall_forall in T. specialize (T x Ix).
  apply (unit_ascii 10 x) in I; [subst; auto|apply T|lia].
Qed.
(** One call: the line up to the line feed is taken off the input, or the String keeps its value (a line that
    is not accepted, a stream that is not good). *)
Theorem C123_one_line : forall c old, ready c ->
  (forall p r, ~ In 10 p -> pending c = p ++ 10 :: r -> exists c', ready c' /\ pending c' = r /\ written c' = written c /\
    (forall s, string_of_std p = Ok s -> read_into c old = (c', s, Ok tt)) /\
    (forall e, string_of_std p = Throw e -> read_into c old = (c', old, Throw e))) /\
  (forall s, text s -> ~ In [10] s -> pending c = concat s ->
    exists c', read_into c old = (c', s, Ok tt) /\ pending c' = [] /\ cin_eof c' = true /\ (cin_fail c' = true <-> s = [])).
Proof.
  intros c old R. split.
  - intros p r N P. destruct (read_into_line c old p r R N P) as (c' & R' & Q & W & E). exists c'.
    rewrite E. unfold s_input. repeat split; try assumption; try apply R'; intros ? H; now rewrite H.
  - intros s T N P. pose proof (no_line_feed s ltac:(assumption) ltac:(assumption)) as N'.
    unfold read_into, getline. destruct R as [-> ->]. cbn [orb]. rewrite P, scan_end by assumption. unfold s_input.
    rewrite FileProofs.string_of_std_text by assumption. eexists. split; [reflexivity|]. cbn. repeat split.
    + destruct s as [|x s]; [reflexivity|]. inversion T as [|? ? [U _] _]; subst. inversion U; cbn; discriminate.
    + now intros ->.
Qed.
Print Assumptions C123_one_line.
Theorem C123_not_good : forall c old, cin_eof c = true \/ cin_fail c = true -> read_into c old = (c, old, Ok tt).
Proof. intros c old [H|H]; unfold read_into; rewrite H; [reflexivity|]. now rewrite orb_true_r. Qed.
Print Assumptions C123_not_good.
(** while (std::cin >> s) goes through exactly the lines of a text that ends with a line feed ... *)
Theorem C123_loop_partial : forall us t c old, text t -> lines [10] (us ++ [[]]) t -> ready c -> pending c = concat t ->
  forall fuel, (length us < fuel)%nat -> read_while fuel c old = Ok us.
Proof.
  induction us as [|u us IH]; intros t c old T L R P fuel H; (destruct fuel as [|fuel]; [lia|]); cbn [read_while].
  - inversion L as [p Np|p ps d Np L']; subst; [|inversion L'].
    destruct (C123_one_line c old R) as [_ E]. destruct (E [] T Np P) as (c' & -> & _ & _ & F).
    now rewrite (proj2 F eq_refl).
  - cbn [app] in L. inversion L as [p Np E0|p ps d Np L' E0]; subst; [destruct us; discriminate|].
    apply Forall_app in T as [Tu T]. inversion T as [|? ? _ Td]; subst.
    pose proof (no_line_feed u ltac:(assumption) ltac:(assumption)) as N'.
    destruct (C123_one_line c old R) as [E _]. destruct (E (concat u) (concat d) N') as (c' & R' & Q & _ & E' & _).
    { rewrite P, concat_app. reflexivity. }
    rewrite (E' u) by now apply FileProofs.string_of_std_text. destruct R' as [R1 R2]. rewrite R2.
    rewrite (IH d c' u Td L' (conj R1 R2) Q fuel) by (cbn in H; lia). reflexivity.
Qed.
Print Assumptions C123_loop_partial.
(** ... and never ends on a text that does not: the last line is delivered for ever. *)
Lemma read_while_stuck fuel : forall c old, cin_eof c = true -> cin_fail c = false -> read_while fuel c old = NoFuel.
Proof.
  induction fuel as [|f IH]; intros c old E F; [reflexivity|]. cbn [read_while]. rewrite C123_not_good by auto.
  rewrite F, IH by assumption. reflexivity.
Qed.
Theorem C123_loop_refuted : forall us u t c old, text t -> u <> [] -> lines [10] (us ++ [u]) t -> ready c -> pending c = concat t ->
  forall fuel, read_while fuel c old = NoFuel.
Proof.
  induction us as [|v us IH]; intros u t c old T U L R P [|fuel]; try reflexivity; cbn [read_while].
  - inversion L as [p Np|p ps d Np L']; subst; [|inversion L'].
    destruct (C123_one_line c old R) as [_ E]. destruct (E t T Np P) as (c' & -> & _ & Eo & F).
    destruct (cin_fail c') eqn:G; [now destruct (U (proj1 F eq_refl))|]. now rewrite read_while_stuck.
  - cbn [app] in L. inversion L as [p Np E0|p ps d Np L' E0]; subst; [destruct us; discriminate|].
    apply Forall_app in T as [Tu T]. inversion T as [|? ? _ Td]; subst.
    pose proof (no_line_feed v ltac:(assumption) ltac:(assumption)) as N'.
    destruct (C123_one_line c old R) as [E _]. destruct (E (concat v) (concat d) N') as (c' & R' & Q & _ & E' & _).
    { rewrite P, concat_app. reflexivity. }
    rewrite (E' v) by now apply FileProofs.string_of_std_text. destruct R' as [R1 R2]. rewrite R2.
    rewrite (IH u d c' v Td U L' (conj R1 R2) Q fuel). reflexivity.
Qed.
Print Assumptions C123_loop_refuted.
Example C123_ex : read_while 3 (typed [97; 10; 98; 10]) [] = Ok [[[97]]; [[98]]] /\
  read_while 100 (typed [97; 10; 98]) [] = NoFuel /\
  lines [10] ([[[97]]; [[98]]] ++ [[]]) [[97]; [10]; [98]; [10]] /\ lines [10] ([[[97]]] ++ [[[98]]]) [[97]; [10]; [98]].
Proof.
  split; [reflexivity|]. split; [reflexivity|]. split.
  - apply (lines_cons [10] [[97]] _ [[98]; [10]]); [intros [[=]|[]]|].
    apply (lines_cons [10] [[98]] [[]] []); [intros [[=]|[]]|]. constructor. intros [].
  - apply (lines_cons [10] [[97]] [[[98]]] [[98]]); [intros [[=]|[]]|]. constructor. intros [[=]|[]].
Qed.

(** ** Prompts made by String::Format (C109, C110) *)
Theorem C109_formatted_prompt : forall c t args,
  (forall m, Values.format_values t args = Ok m -> read_line_format c t args = read_line c m /\ read_char_format c t args = read_char c m) /\
  (forall e, Values.format_values t args = Throw e -> read_line_format c t args = (c, Throw e) /\ read_char_format c t args = (c, Throw e)) /\
  (Values.format_values t args = UB -> read_line_format c t args = (c, UB) /\ read_char_format c t args = (c, UB)).
Proof. intros c t args. unfold read_line_format, read_char_format, with_format. repeat split; intros; match goal with H : _ = _ |- _ => now rewrite H end. Qed.
Print Assumptions C109_formatted_prompt.
