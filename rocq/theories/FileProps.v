(** Properties C92-C94, C99, C117: File. *)
From Coq Require Import List NArith ZArith Bool Lia.
From Verif Require Import Outcome CharModel StrModel File SpecUtf8 SpecStr SpecFile FileProofs.
Import ListNotations.
Local Open Scope N_scope.

Definition name_f : Str := [[102]].

(** C92.  A file of text, cut at any ASCII delimiter: one ReadLine per line, in order, IsEof
    true after exactly the last one. *)
Theorem C92_lines_of_text_partial : forall name t d us, s_str name <> [] -> text t -> d < 0x80 -> lines [d] us t ->
  exists f, make_file name true (concat t) = (f, Ok tt) /\
  (forall m, (m < length us)%nat -> f_is_eof (snd (read_lines m f d)) = false) /\
  fst (read_lines (length us) f d) = map (@Ok Str) us /\
  f_is_eof (snd (read_lines (length us) f d)) = true.
Proof. exact text_lines. Qed.
Print Assumptions C92_lines_of_text_partial.
(** Any content and delimiter: the calls convert exactly the pieces of the content, in order. *)
Theorem C92_pieces_partial : forall name c d, s_str name <> [] ->
  exists f ps, make_file name true c = (f, Ok tt) /\ lines d ps c /\
  (forall m, (m < length ps)%nat -> f_is_eof (snd (read_lines m f d)) = false) /\
  fst (read_lines (length ps) f d) = map string_of_std ps /\
  f_is_eof (snd (read_lines (length ps) f d)) = true.
Proof. exact file_lines. Qed.
Print Assumptions C92_pieces_partial.
(** Missing: a line with a NUL byte is cut short without an error. *)
Theorem C92_nul_refuted : exists f s, make_file name_f true [97; 0; 98; 10] = (f, Ok tt) /\
  snd (f_read_line f 10) = Ok s /\ s_str s = [97].
Proof. eexists _, _. split; [reflexivity|]. split; reflexivity. Qed.
Print Assumptions C92_nul_refuted.
(** A line that ends inside a character makes the conversion read out of bounds. *)
Theorem C92_undefined_refuted : exists f, make_file name_f true [97; 0xE2; 10; 98] = (f, Ok tt) /\
  snd (f_read_line f 10) = UB.
Proof. eexists. split; reflexivity. Qed.
Print Assumptions C92_undefined_refuted.
Example C92_ex : let t := [[97]; [0xC3; 0xA9]; [10]; [10]; [98]; [10]] in
  text t /\ lines [10] [[[97]; [0xC3; 0xA9]]; []; [[98]]; []] t /\
  fst (read_lines 4 (fst (make_file name_f true (concat t))) 10) = [Ok [[97]; [0xC3; 0xA9]]; Ok []; Ok [[98]]; Ok []].
Proof.
  split; [repeat constructor; cbn; unfold is_byte, continuation; try discriminate; lia|]. split; [|reflexivity].
  apply (lines_cons [10] [[97]; [0xC3; 0xA9]]); [cbn; intuition discriminate|].
  apply (lines_cons [10] []); [cbn; tauto|]. apply (lines_cons [10] [[98]]); [cbn; intuition discriminate|].
  constructor. tauto.
Qed.

(** C93.  Any history of opening, closing, erasing, seeking, reading and writing in which no call
    threw a stream error, IsEof was never true and Open was never called on an open File: the file
    holds exactly what was written, in order. *)
Theorem C93_untroubled_histories_partial : forall name c f os f', make_file name true c = (f, Ok tt) ->
  untroubled f os f' -> disk f' = fold_left (fun c o => written o c) os c.
Proof. exact history_written. Qed.
Print Assumptions C93_untroubled_histories_partial.
(** One write in any state: nothing reaches the file exactly when the stream is open and has an
    eof or fail bit; the call reports success nevertheless. *)
Theorem C93_exact_partial : forall f o f' r, is_write o = true -> f_step f o = (f', r) ->
  (is_open f = true -> r = Ok None /\ disk f' = if eofbit f || failbit f then disk f else written o (disk f)) /\
  (is_open f = false -> s_str (filename f) <> [] -> access f = true -> r = Ok None /\ disk f' = written o (disk f)) /\
  (is_open f = false -> s_str (filename f) = [] \/ access f = false -> r = Throw EIosFailure /\ disk f' = disk f).
Proof. exact write_exact. Qed.
Print Assumptions C93_exact_partial.
(** Reading to the end loses everything written afterwards, and so does opening twice. *)
Theorem C93_lost_after_end_refuted : exists f, make_file name_f true [97] = (f, Ok tt) /\
  let f1 := fst (f_read_line f 10) in
  snd (f_read_line f 10) = Ok [[97]] /\ snd (f_write f1 [98]) = Ok tt /\ disk (fst (f_write f1 [98])) = [97].
Proof. eexists. repeat split; reflexivity. Qed.
Print Assumptions C93_lost_after_end_refuted.
Theorem C93_lost_after_open_refuted : exists f, make_file name_f true [97] = (f, Ok tt) /\
  let f1 := fst (f_open f) in
  snd (f_open f) = Ok tt /\ snd (f_append f1 [98]) = Ok tt /\ disk (fst (f_append f1 [98])) = [97].
Proof. eexists. repeat split; reflexivity. Qed.
Print Assumptions C93_lost_after_open_refuted.
(** All later writes are lost as well, each reporting success. *)
Theorem C93_all_lost_partial : forall f os, is_open f = true -> eofbit f || failbit f = true ->
  forallb is_write os = true ->
  Forall (fun r => r = Ok None) (snd (fold_left (fun '(g, rs) o => let (g', r) := f_step g o in (g', rs ++ [r])) os (f, []))) /\
  disk (fst (fold_left (fun '(g, rs) o => let (g', r) := f_step g o in (g', rs ++ [r])) os (f, []))) = disk f.
Proof. exact lost_writes. Qed.
Print Assumptions C93_all_lost_partial.
Example C93_ex : exists f f', make_file name_f true [97; 10; 98] = (f, Ok tt) /\
  untroubled f [OReadLine 10; OWriteLine [99]; OClose; OAppend [100]; OReadLine 10; OErase; OWrite [101]] f' /\
  disk f' = [101].
Proof.
  eexists _, _. split; [reflexivity|]. split.
  - repeat (eapply ut_cons; [reflexivity|discriminate|reflexivity|reflexivity|discriminate|]). apply ut_nil.
  - reflexivity.
Qed.

(** C94.  Read never returns the content of the file: for a text it reads out of bounds, and when
    it returns at all it returns only what is before the first NUL byte. *)
Theorem C94_undefined_refuted : forall f us, healthy f -> text us -> disk f = concat us -> snd (f_read f) = UB.
Proof. exact read_text_ub. Qed.
Print Assumptions C94_undefined_refuted.
Theorem C94_never_whole_refuted : forall f s, healthy f -> Forall is_byte (disk f) -> snd (f_read f) = Ok s -> s_str s <> disk f.
Proof. exact read_never_whole. Qed.
Print Assumptions C94_never_whole_refuted.
Theorem C94_up_to_nul_partial : forall f us r, healthy f -> text us -> disk f = concat us ++ 0 :: r -> snd (f_read f) = Ok us.
Proof. exact read_terminated. Qed.
Print Assumptions C94_up_to_nul_partial.
Theorem C94_exact_partial : forall f, healthy f -> exists f', f_read f = (f', string_of_cstr (disk f)) /\ disk f' = disk f.
Proof. exact read_exact. Qed.
Print Assumptions C94_exact_partial.
(** After a failed operation reading throws until the file is opened again. *)
Theorem C94_failed_partial : forall f, is_open f = true -> failbit f = true ->
  snd (f_read f) = Throw ELengthError /\ disk (fst (f_read f)) = disk f.
Proof. intros f O F. unfold f_read, ensure_open. rewrite O. cbn. rewrite F. split; reflexivity. Qed.
Print Assumptions C94_failed_partial.
Example C94_ex : exists f g, make_file name_f true [104; 105] = (f, Ok tt) /\ healthy f /\ snd (f_read f) = UB /\
  make_file name_f true [104; 105; 0; 1] = (g, Ok tt) /\ healthy g /\ snd (f_read g) = Ok [[104]; [105]].
Proof. eexists _, _. repeat split; reflexivity. Qed.

(** C99.  A File that is closed and read again continues at the remembered position; if the end
    had been reached that position is -1 and every ReadLine throws. *)
Theorem C99_reopened_partial : forall f d, s_str (filename f) <> [] -> access f = true ->
  f_read_line (f_close f) d =
  let g := set_state f true false false in
  if (position f <? 0)%Z then (set_state f true false true, Throw EIosFailure)
  else let (p, found) := scan d (skipn (Z.to_nat (position f)) (disk f)) in
       if found then (set_pos g (position f + Z.of_nat (length p) + 1)%Z, string_of_std p)
       else (set_pos (set_state f true true true) (-1)%Z, string_of_std p).
Proof. exact reopened_read_line. Qed.
Print Assumptions C99_reopened_partial.
Theorem C99_after_end_refuted : forall f k d p, at_byte f k -> s_str (filename f) <> [] -> access f = true -> ~ In d p ->
  skipn k (disk f) = p -> forall d', snd (f_read_line (f_close (fst (f_read_line f d))) d') = Throw EIosFailure.
Proof. exact end_then_close. Qed.
Print Assumptions C99_after_end_refuted.
(** Erase does not reset the position either: the first three bytes written afterwards are skipped. *)
Theorem C99_after_erase_refuted : exists f f1 f2 f3, make_file name_f true [97; 98; 10; 99] = (f, Ok tt) /\
  f_read_line f 10 = (f1, Ok [[97]; [98]]) /\ f_erase f1 = (f2, Ok tt) /\
  f_write f2 [120; 121; 122; 119; 10] = (f3, Ok tt) /\ snd (f_read_line f3 10) = Ok [[119]].
Proof. eexists _, _, _, _. repeat split; reflexivity. Qed.
Print Assumptions C99_after_erase_refuted.
Example C99_ex : exists f, make_file name_f true [97; 10; 98] = (f, Ok tt) /\ at_byte f 0 /\ skipn 0 (disk f) = [97; 10; 98] /\
  snd (f_read_line (f_close (fst (f_read_line f 33))) 10) = Throw EIosFailure.
Proof. eexists. repeat split; reflexivity. Qed.

(** C117.  After SetPosition(p) on an open File, whatever its state was, ReadLine returns the text from byte p up to
    the next delimiter, and the position is behind that; without a delimiter the rest of the file, and IsEof. *)
Theorem C117_reads_from_partial : forall f p d a u b s, is_open f = true -> p = Z.of_nat (length a) -> text s -> u = concat s ->
  ~ In d u -> (disk f = a ++ u ++ d :: b \/ disk f = a ++ u /\ b = []) ->
  exists f1 f2, f_set_position f p = (f1, Ok tt) /\ f_get_position f1 = p /\ f_is_eof f1 = false /\ disk f1 = disk f /\
  f_read_line f1 d = (f2, Ok s) /\ disk f2 = disk f /\
  (disk f = a ++ u ++ d :: b -> f_get_position f2 = p + Z.of_nat (length u) + 1 /\ f_is_eof f2 = false)%Z /\
  (disk f = a ++ u -> f_is_eof f2 = true).
Proof.
  intros f p d a u b s O -> T -> Nd D. unfold f_set_position. cbn [is_open set_state set_pos]. rewrite O.
  replace (0 <=? Z.of_nat (length a))%Z with true by (symmetry; apply Z.leb_le; lia). cbn [andb].
  set (f1 := set_state (set_pos f (Z.of_nat (length a))) true false false). exists f1.
  enough (exists f2, f_read_line f1 d = (f2, Ok s) /\ disk f2 = disk f /\
    (disk f = a ++ concat s ++ d :: b -> f_get_position f2 = Z.of_nat (length a) + Z.of_nat (length (concat s)) + 1 /\ f_is_eof f2 = false)%Z /\
    (disk f = a ++ concat s -> f_is_eof f2 = true)) as (f2 & H) by (exists f2; repeat (split; [reflexivity|]); exact H).
  unfold f_read_line, ensure_open, f1. cbn [is_open eofbit failbit position disk set_state set_pos].
  replace (Z.of_nat (length a) <? 0)%Z with false by (symmetry; apply Z.ltb_ge; lia).
  rewrite Nat2Z.id. pose proof (string_of_std_text s T) as E.
  assert (L : forall x : list N, skipn (length a) (a ++ x) = x) by (intro x; rewrite skipn_app, skipn_all, Nat.sub_diag; reflexivity).
  destruct D as [D|[D ->]].
  - replace (skipn (length a) (disk f)) with (concat s ++ d :: b) by (now rewrite D, L). rewrite scan_found by exact Nd. rewrite E. eexists. split; [reflexivity|]. split; [reflexivity|]. split; [split; reflexivity|].
    intro C. exfalso. rewrite D in C. apply (f_equal (@length N)) in C. rewrite !app_length in C. cbn in C. lia.
  - replace (skipn (length a) (disk f)) with (concat s) by (now rewrite D, L). rewrite scan_end by exact Nd. rewrite E. eexists. split; [reflexivity|]. split; [reflexivity|]. split; [|reflexivity].
    intro C. exfalso. rewrite D in C. apply (f_equal (@length N)) in C. rewrite !app_length in C. cbn in C. lia.
Qed.
Print Assumptions C117_reads_from_partial.
(** A position beyond the end is accepted: an empty line and IsEof follow. *)
Theorem C117_beyond_end_partial : forall f p d, is_open f = true -> (Z.of_nat (length (disk f)) <= p)%Z ->
  exists f1 f2, f_set_position f p = (f1, Ok tt) /\ f_read_line f1 d = (f2, Ok []) /\ f_is_eof f2 = true /\ disk f2 = disk f.
Proof.
  intros f p d O L. unfold f_set_position. cbn [is_open set_state set_pos]. rewrite O.
  replace (0 <=? p)%Z with true by (symmetry; apply Z.leb_le; lia). cbn [andb].
  eexists _, _. split; [reflexivity|].
  unfold f_read_line, ensure_open. cbn [is_open eofbit failbit position disk set_state set_pos].
  replace (p <? 0)%Z with false by (symmetry; apply Z.ltb_ge; lia).
  rewrite skipn_all2 by lia. repeat split.
Qed.
Print Assumptions C117_beyond_end_partial.
(** A negative position, or a closed File, is refused with an exception ... *)
Theorem C117_refused_partial : forall f p, (is_open f = false \/ p < 0)%Z <-> snd (f_set_position f p) = Throw EIosFailure.
Proof.
  intros f p. unfold f_set_position. cbn [is_open set_state set_pos].
  destruct (is_open f), (0 <=? p)%Z eqn:L; cbn [andb snd]; rewrite ?Z.leb_le, ?Z.leb_gt in L; split; intro H; try reflexivity; try discriminate; auto; try lia.
Qed.
Print Assumptions C117_refused_partial.
(** ... but it takes effect: GetPosition reports the refused position, a File that could be read cannot be read any
    more, and a closed File reads from there. *)
Theorem C117_refused_refuted : forall f p,
  f_get_position (fst (f_set_position f p)) = p /\
  (is_open f = true -> p < 0 -> forall d, snd (f_read_line (fst (f_set_position f p)) d) = Throw EIosFailure)%Z /\
  (is_open f = false -> s_str (filename f) <> [] -> access f = true -> (0 <= p)%Z ->
     snd (f_set_position f p) = Throw EIosFailure /\
     forall d, snd (f_read_line (fst (f_set_position f p)) d) =
       snd (f_read_line (File (filename f) true (disk f) true false false p) d)).
Proof.
  intros f p. unfold f_set_position. cbn [is_open set_state set_pos]. split; [|split].
  - destruct (is_open f && (0 <=? p)%Z); reflexivity.
  - intros O L d. rewrite O. replace (0 <=? p)%Z with false by (symmetry; apply Z.leb_gt; lia). reflexivity.
  - intros O N A L. rewrite O. cbn [andb]. split; [reflexivity|]. intro d. cbn [fst].
    unfold f_read_line at 1, ensure_open. cbn [is_open set_state set_pos]. unfold f_open. cbn [filename is_open access set_state set_pos].
    rewrite A. destruct (s_str (filename f)); [contradiction|]. unfold f_read_line, ensure_open. cbn.
    destruct (p <? 0)%Z; [reflexivity|]. destruct (scan d _) as [q []]; reflexivity.
Qed.
Print Assumptions C117_refused_refuted.
Example C117_ex : let c := [97; 98; 10; 99; 10] in exists f, make_file name_f true c = (f, Ok tt) /\ is_open f = true /\ snd (f_read_line (fst (f_set_position f 1)) 10) = Ok [[98]] /\ snd (f_read_line (fst (f_set_position f 3)) 10) = Ok [[99]] /\ snd (f_read_line (fst (f_set_position f (-1))) 10) = Throw EIosFailure.
Proof. eexists. repeat split. Qed.
