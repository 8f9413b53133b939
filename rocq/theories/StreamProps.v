(** Final theorems about the console streams: C109-C111. *)
From Coq Require Import List NArith ZArith Bool Lia.
From Verif Require Import Outcome CharModel StrModel SpecStr StrProofs SpecFile File FileProofs Values Stream.
Import ListNotations.
Local Open Scope N_scope.

(** [n] calls of ReadLine with these prompts. *)
Fixpoint read_all (c : console) (ps : list Str) : console * list (outcome Str) :=
  match ps with
  | [] => (c, [])
  | p :: r => let (c1, s) := read_line c p in let (c2, ss) := read_all c1 r in (c2, s :: ss)
  end.
(** A console whose input has not been touched. *)
Definition ready (c : console) : Prop := cin_eof c = false /\ cin_fail c = false.

Lemma prompt_pending c m : let c' := if s_not_empty m then put_bytes c SOut (s_str m) else c in
  pending c' = pending c /\ cin_eof c' = cin_eof c /\ cin_fail c' = cin_fail c.
Proof. cbn. destruct (s_not_empty m); auto. Qed.
Lemma prompt_written c m k : let c' := if s_not_empty m then put_bytes c SOut (s_str m) else c in
  written c' k = written c k ++ match k with SOut => s_str m | _ => [] end.
Proof.
  cbn. destruct m as [|a m]; cbn [s_not_empty s_is_empty s_size length negb].
  - cbn. destruct k; now rewrite app_nil_r.
  - unfold s_not_empty, s_is_empty. cbn. destruct k; cbn; now rewrite ?app_nil_r.
Qed.
Lemma getline_written c : written (fst (getline c)) = written c.
Proof. unfold getline. destruct (_ || _); [reflexivity|]. destruct (scan 10 (pending c)) as [p []]; reflexivity. Qed.

Lemma getline_line c p r : ready c -> ~ In 10 p -> pending c = p ++ 10 :: r ->
  snd (getline c) = p /\ pending (fst (getline c)) = r /\ ready (fst (getline c)).
Proof.
  intros [E F] H P. unfold getline. rewrite E, F, P. cbn [orb]. rewrite scan_found by assumption. cbn [fst snd pending].
  repeat split. replace (S (length p)) with (length p + 1)%nat by lia.
  now rewrite skipn_add, skipn_app, skipn_all, PeanoNat.Nat.sub_diag.
Qed.
Lemma getline_end c : ready c -> ~ In 10 (pending c) ->
  snd (getline c) = pending c /\ cin_eof (fst (getline c)) = true.
Proof. intros [E F] H. unfold getline. rewrite E, F. cbn [orb]. rewrite scan_end by assumption. auto. Qed.
Lemma getline_after c : cin_eof c = true -> snd (getline c) = [] /\ cin_eof (fst (getline c)) = true.
Proof. intro E. unfold getline. rewrite E. auto. Qed.

Lemma read_line_parts c m : exists c0, pending c0 = pending c /\ cin_eof c0 = cin_eof c /\ cin_fail c0 = cin_fail c /\
  (forall k, written c0 k = written c k ++ match k with SOut => s_str m | _ => [] end) /\
  read_line c m = (fst (getline c0), string_of_std (snd (getline c0))).
Proof.
  exists (if s_not_empty m then put_bytes c SOut (s_str m) else c).
  destruct (prompt_pending c m) as (H1 & H2 & H3). repeat split; auto.
  - intro k. apply prompt_written.
  - unfold read_line. now destruct (getline _) as [c1 i].
Qed.

Lemma read_all_written ps : forall c k,
  written (fst (read_all c ps)) k = written c k ++ match k with SOut => concat (map s_str ps) | _ => [] end.
Proof.
  induction ps as [|m ps IH]; intros c k; cbn [read_all].
  - cbn. destruct k; now rewrite app_nil_r.
  - destruct (read_line_parts c m) as (c0 & _ & _ & _ & W & ->).
    specialize (IH (fst (getline c0)) k). destruct (read_all (fst (getline c0)) ps) as [c2 ss]. cbn [fst] in *.
    rewrite IH, getline_written, W, <- app_assoc. cbn [map concat]. destruct k; now rewrite ?app_nil_r.
Qed.

Lemma read_all_after ps : forall c, cin_eof c = true -> snd (read_all c ps) = map (fun _ => Ok []) ps.
Proof.
  induction ps as [|m ps IH]; intros c E; cbn [read_all]; [reflexivity|].
  destruct (read_line_parts c m) as (c0 & _ & E0 & _ & _ & ->). rewrite E in E0.
  destruct (getline_after c0 E0) as [-> E1]. specialize (IH _ E1). destruct (read_all _ ps). cbn in *. now rewrite IH.
Qed.

Lemma const_map {A B} (f : nat -> B) b (l : list A) : (forall i, f i = b) -> forall k, map (fun _ => b) l = map f (seq k (length l)).
Proof. intro H. induction l as [|x l IH]; intro k; cbn; [reflexivity|]. now rewrite H, <- IH. Qed.
Lemma read_all_lines ps us b : lines 10 us b -> forall c, ready c -> pending c = b ->
  snd (read_all c ps) = map (fun i => string_of_std (nth i us [])) (seq 0 (length ps)).
Proof.
  intro L. revert ps. induction L as [u Nu|u us b Nu L IH]; intros [|m ps] c R P; try reflexivity; cbn [read_all];
    destruct (read_line_parts c m) as (c0 & P0 & E0 & F0 & _ & ->);
    assert (R0 : ready c0) by (destruct R; split; congruence).
  - destruct (getline_end c0 R0) as [S1 E1]; [rewrite P0, P; assumption|]. rewrite S1, P0, P.
    pose proof (read_all_after ps _ E1) as A. destruct (read_all _ ps) as [c2 ss]. cbn [snd] in *. subst ss.
    cbn [length seq map nth]. f_equal. rewrite <- seq_shift, map_map.
    apply const_map. intros [|i]; reflexivity.
  - destruct (getline_line c0 u b R0 Nu) as (S1 & P1 & R1); [congruence|]. rewrite S1.
    specialize (IH ps _ R1 P1). destruct (read_all _ ps) as [c2 ss]. cbn [snd] in *. subst ss.
    cbn [length seq map nth]. f_equal. rewrite <- seq_shift, map_map. reflexivity.
Qed.

(** ** C109 reading lines *)
(** The i-th call returns the i-th line of the input, and the empty String once there is no more; the
    prompts are written to the standard output in order, nothing goes elsewhere. *)
Theorem C109_lines_of_text_partial : forall c t us prompts, ready c -> text t -> pending c = concat t -> lines [10] us t ->
  snd (read_all c prompts) = map (fun i => Ok (nth i us [])) (seq 0 (length prompts)) /\
  (forall k, written (fst (read_all c prompts)) k =
             written c k ++ match k with SOut => concat (map s_str prompts) | _ => [] end).
Proof.
  intros c t us ps R T P L. split; [|apply read_all_written].
  destruct (lines_bytes 10 us t ltac:(lia) T L) as [LB TU]. rewrite (read_all_lines ps _ _ LB c R P).
  apply map_ext. intro i. change (@nil N) with (concat (@nil Chr)). rewrite map_nth.
  apply FileProofs.string_of_std_text. rewrite Forall_forall in TU.
  destruct (nth_in_or_default i us []) as [I|E]; [auto|rewrite E; constructor].
Qed.
Print Assumptions C109_lines_of_text_partial.
(** Any input: the bytes are cut at the line feeds, each piece is converted. *)
Theorem C109_pieces_partial : forall c prompts, ready c -> exists ps, lines 10 ps (pending c) /\
  snd (read_all c prompts) = map (fun i => string_of_std (nth i ps [])) (seq 0 (length prompts)).
Proof.
  intros c prompts R. destruct (lines_exist 10 (pending c)) as [ps L]. exists ps. split; [assumption|].
  now apply (read_all_lines prompts ps (pending c)).
Qed.
Print Assumptions C109_pieces_partial.
Definition typed (b : list N) : console := Console b false false (fun _ => []).
Example C109_case : ready (typed [97; 10; 0xC3; 0xA9]) /\ lines [10] [[[97]]; [[0xC3; 0xA9]]] [[97]; [10]; [0xC3; 0xA9]] /\
  snd (read_all (typed [97; 10; 0xC3; 0xA9]) [[[62]]; []; []]) = [Ok [[97]]; Ok [[0xC3; 0xA9]]; Ok []] /\
  written (fst (read_all (typed [97; 10; 0xC3; 0xA9]) [[[62]]; []; []])) SOut = [62].
Proof.
  repeat split. apply (lines_cons [10] [[97]] [[[0xC3; 0xA9]]] [[0xC3; 0xA9]]); [intros [[=]|[]]|].
  constructor. intros [[=]|[]].
Qed.
(** A prompt with arguments: the formatted prompt is written; nothing is written or read when formatting throws. *)
Theorem C109_formatted_prompt : forall c t args,
  (forall s, format_values t args = Ok s -> read_line_format c t args = read_line c s /\ read_char_format c t args = read_char c s /\
     forall k, written (fst (read_line_format c t args)) k = written c k ++ match k with SOut => s_str s | _ => [] end /\
               written (fst (read_char_format c t args)) k = written c k ++ match k with SOut => s_str s | _ => [] end) /\
  (forall e, format_values t args = Throw e -> read_line_format c t args = (c, Throw e) /\ read_char_format c t args = (c, Throw e)).
Proof.
  intros c t args. unfold read_line_format, read_char_format. split; [intros s ->|intros e ->; auto]. cbn [with_format].
  split; [reflexivity|]. split; [reflexivity|]. intro k. unfold read_char.
  destruct (read_line_parts c s) as (c0 & _ & _ & _ & W & E). rewrite E. cbn [fst]. now rewrite !getline_written, W.
Qed.
Print Assumptions C109_formatted_prompt.
Example C109_formatted_ex : let (c, r) := read_line_format (typed [97; 10; 98]) [[35]; [123]; [125]] [AInteger 7] in
  r = Ok [[97]] /\ written c SOut = [35; 55] /\ pending c = [98].
Proof. repeat split. Qed.
(** The end of the input cannot be told from an empty line: the same results for both. *)
Theorem C109_end_of_input_refuted : forall prompts,
  snd (read_all (typed []) prompts) = snd (read_all (typed (repeat 10 (length prompts))) prompts).
Proof.
  intro ps. assert (L : lines 10 (repeat [] (S (length ps))) (repeat 10 (length ps))).
  { induction (length ps) as [|n IH]; [constructor; intros []|]. apply (lines_cons 10 [] _ _ (fun x => x) IH). }
  rewrite (read_all_lines ps _ _ L (typed (repeat 10 (length ps)))); [|split; reflexivity|reflexivity].
  rewrite (read_all_lines ps [[]] [] (lines_last 10 [] (fun x => x)) (typed [])); [|split; reflexivity|reflexivity].
  apply map_ext. intro i. rewrite nth_repeat. destruct i as [|[|i]]; reflexivity.
Qed.
Print Assumptions C109_end_of_input_refuted.
(** A line that ends inside a character is undefined behaviour; one with a NUL is cut short. *)
Theorem C109_undefined_refuted :
  snd (read_line (typed [0xE2; 10]) []) = UB /\ snd (read_line (typed [97; 0; 98; 10]) []) = Ok [[97]].
Proof. split; reflexivity. Qed.
Print Assumptions C109_undefined_refuted.

(** ** C110 reading a character *)
(** ReadChar returns the first character of the next line - and consumes the whole line. *)
Theorem C110_first_character_partial : forall c m a t r, ready c -> text (a :: t) -> ~ In [10] (a :: t) ->
  pending c = concat (a :: t) ++ 10 :: r ->
  snd (read_char c m) = Ok a /\ pending (fst (read_char c m)) = r /\ ready (fst (read_char c m)).
Proof.
  intros c m a t r R T Hn P. unfold read_char.
  destruct (read_line_parts c m) as (c0 & P0 & E0 & F0 & _ & ->).
  assert (R0 : ready c0) by (destruct R; split; congruence).
  destruct (lines_bytes 10 [a :: t] (a :: t) ltac:(lia) T (lines_last _ _ Hn)) as [LB _].
  assert (NB : ~ In 10 (concat (a :: t))).
  { inversion LB as [p H|p ps0 c1 H H1 H2]; [assumption|]. exfalso. inversion H1. }
  destruct (getline_line c0 _ r R0 NB) as (S1 & P1 & R1); [congruence|]. rewrite S1.
  rewrite (FileProofs.string_of_std_text _ T). auto.
Qed.
Print Assumptions C110_first_character_partial.
Example C110_case : ready (typed [0xC3; 0xA9; 98; 10; 99]) /\ snd (read_char (typed [0xC3; 0xA9; 98; 10; 99]) []) = Ok [0xC3; 0xA9].
Proof. split; [split|]; reflexivity. Qed.
(** An empty line, or no more input: undefined behaviour. *)
Theorem C110_empty_line_refuted : forall c m, ready c ->
  (pending c = [] \/ exists r, pending c = 10 :: r) -> snd (read_char c m) = UB.
Proof.
  intros c m R H. unfold read_char. destruct (read_line_parts c m) as (c0 & P0 & E0 & F0 & _ & ->).
  assert (R0 : ready c0) by (destruct R; split; congruence).
  destruct H as [H|[r H]].
  - destruct (getline_end c0 R0) as [S1 _]; rewrite P0, H in *; [intros []|]. rewrite S1. reflexivity.
  - destruct (getline_line c0 [] r R0 (fun x => x)) as (S1 & _ & _); [now rewrite P0|]. rewrite S1. reflexivity.
Qed.
Print Assumptions C110_empty_line_refuted.
(** It does not read one character at a time: the second call on "ab" does not give b. *)
Theorem C110_one_at_a_time_refuted :
  let (c, r) := read_char (typed [97; 98; 10; 99; 10]) [] in r = Ok [97] /\ snd (read_char c []) = Ok [99].
Proof. split; reflexivity. Qed.
Print Assumptions C110_one_at_a_time_refuted.

(** ** C111 writing *)
(** What an operation should add to a stream: its text (nothing if formatting throws), and a line feed
    for the WriteLine forms. *)
Definition same_sink (a b : sink) : {a = b} + {a <> b}.
Proof. decide equality. Defined.
Definition addition (k : sink) (o : wop) : list N :=
  let txt k' b := if same_sink k k' then b else [] in
  let fmt t args e := match format_values t args with Ok s => s_str s ++ e | _ => [] end in
  match o with
  | Write k' s => txt k' (s_str s)
  | WriteText k' b => txt k' b
  | WriteFormat k' t args => txt k' (fmt t args [])
  | WriteLine0 k' => txt k' [10]
  | WriteLine k' s => txt k' (s_str s ++ [10])
  | WriteLineText k' b => txt k' (b ++ [10])
  | WriteLineFormat k' t args => txt k' (fmt t args [10])
  end.
(** The format of an operation is not one on which Format has undefined behaviour (see C37). *)
Definition defined (o : wop) : Prop :=
  match o with
  | WriteFormat _ t args | WriteLineFormat _ t args =>
      (exists s, format_values t args = Ok s) \/ exists e, format_values t args = Throw e
  | _ => True
  end.
Lemma wstep_written c o k : defined o ->
  written (fst (wstep c o)) k = written c k ++ addition k o /\ pending (fst (wstep c o)) = pending c /\
  (snd (wstep c o) = Ok tt \/ exists e, snd (wstep c o) = Throw e).
Proof.
  destruct o as [k' s|k' b|k' t args|k'|k' s|k' b|k' t args]; cbn [defined]; intro D;
    unfold wstep, addition, with_format; try destruct D as [[s E]|[e E]]; rewrite ?E; cbn; destruct k, k'; cbn;
    rewrite ?app_nil_r, <- ?app_assoc; eauto 6.
Qed.
Theorem C111_writes_in_order : forall l c, Forall defined l -> snd (wexec c l) = Ok tt /\
  pending (fst (wexec c l)) = pending c /\
  (forall k, written (fst (wexec c l)) k = written c k ++ concat (map (addition k) l)).
Proof.
  induction l as [|o l IH]; intros c F; cbn [wexec].
  - repeat split. intro k. cbn. now rewrite app_nil_r.
  - inversion F as [|? ? D Fl]; subst.
    pose proof (fun k => wstep_written c o k D) as W. destruct (wstep c o) as [c1 r] eqn:E. cbn [fst snd] in *.
    destruct (W SOut) as (_ & P1 & R1). destruct (IH c1 Fl) as (I1 & I2 & I3).
    assert (X : match r with UB => (c1, UB) | NoFuel => (c1, NoFuel) | _ => wexec c1 l end = wexec c1 l)
      by (destruct R1 as [->|[e ->]]; reflexivity).
    rewrite X. repeat split; [assumption|congruence|]. intro k. rewrite I3. destruct (W k) as [-> _].
    cbn [map concat]. now rewrite app_assoc.
Qed.
Print Assumptions C111_writes_in_order.
Example C111_case : let l := [Write SOut [[97]]; WriteLine SErr [[98]]; WriteLineFormat SOut [[123]; [125]] [AInteger 7];
                              WriteFormat SOut [[123]] [AInteger 7]; WriteLine0 SOut] in
  Forall defined l /\ written (fst (wexec (typed []) l)) SOut = [97; 55; 10; 10] /\
  written (fst (wexec (typed []) l)) SErr = [98; 10].
Proof.
  split; [|split; reflexivity].
  apply Forall_cons; [exact I|]. apply Forall_cons; [exact I|]. apply Forall_cons; [left; now exists [[55]]|].
  apply Forall_cons; [right; now exists EFormatError|]. apply Forall_cons; [exact I|constructor].
Qed.
