(** Proofs about File. *)
From Coq Require Import List NArith ZArith Bool Lia.
From Verif Require Import Outcome CharModel CharProofs StrModel StrProofs File SpecUtf8 SpecStr SpecFile.
Import ListNotations.
Local Open Scope N_scope.
Local Arguments string_of_cstr : simpl never.
Local Arguments s_str : simpl never.
Local Arguments string_of_std : simpl never.

Lemma scan_found d p c : ~ In d p -> scan d (p ++ d :: c) = (p, true).
Proof.
  induction p as [|b p IH]; intros N; cbn; [now rewrite N.eqb_refl|].
  destruct (N.eqb_spec b d) as [->|_]; [exfalso; apply N; now left|].
  rewrite IH; [reflexivity|]. intros I. apply N. now right.
Qed.
Lemma scan_end d p : ~ In d p -> scan d p = (p, false).
Proof.
  induction p as [|b p IH]; intros N; cbn; [reflexivity|].
  destruct (N.eqb_spec b d) as [->|_]; [exfalso; apply N; now left|].
  rewrite IH; [reflexivity|]. intros I. apply N. now right.
Qed.

(** A stream in good state: open, no bits, position in the file. *)
Definition healthy (f : file) : Prop := is_open f = true /\ eofbit f = false /\ failbit f = false.
(** Reading continues at byte [k]. *)
Definition at_byte (f : file) (k : nat) : Prop := healthy f /\ position f = Z.of_nat k.

(** [n] successive ReadLine calls. *)
Fixpoint read_lines (n : nat) (f : file) (d : N) : list (outcome Str) * file :=
  match n with
  | O => ([], f)
  | S n' => let (f1, r) := f_read_line f d in let (rs, f2) := read_lines n' f1 d in (r :: rs, f2)
  end.

Lemma read_line_step f k d p : at_byte f k -> ~ In d p ->
  (forall c, skipn k (disk f) = p ++ d :: c ->
     exists f1, f_read_line f d = (f1, string_of_std p) /\ at_byte f1 (k + length p + 1) /\ disk f1 = disk f) /\
  (skipn k (disk f) = p -> exists f1, f_read_line f d = (f1, string_of_std p) /\ f_is_eof f1 = true /\ disk f1 = disk f).
Proof.
  intros [(O & E & Fl) P] N. unfold f_read_line, ensure_open. rewrite O, E, Fl, P.
  destruct (Z.ltb_spec (Z.of_nat k) 0); [lia|]. rewrite Nat2Z.id. split.
  - intros c S. rewrite S, (scan_found d p c N). eexists. split; [reflexivity|]. split; [|reflexivity].
    split; [repeat split; assumption|]. cbn. lia.
  - intros S. rewrite S, (scan_end d p N). eexists. split; [reflexivity|]. split; reflexivity.
Qed.

Lemma skipn_add {A} n : forall m (l : list A), skipn (n + m) l = skipn m (skipn n l).
Proof. induction n as [|n IH]; intros m l; cbn; [reflexivity|]. destruct l; [now rewrite skipn_nil|apply IH]. Qed.

(** Reading a whole file line by line, from any position. *)
Lemma read_lines_spec d ps c : lines d ps c -> forall f k, at_byte f k -> skipn k (disk f) = c ->
  (forall m, (m < length ps)%nat -> f_is_eof (snd (read_lines m f d)) = false) /\
  fst (read_lines (length ps) f d) = map string_of_std ps /\
  f_is_eof (snd (read_lines (length ps) f d)) = true /\ disk (snd (read_lines (length ps) f d)) = disk f.
Proof.
  induction 1 as [p N|p ps c N L IH]; intros f k A S.
  - destruct (read_line_step f k d p A N) as [_ H]. destruct (H S) as (f1 & E & Ef & D).
    cbn. rewrite E. cbn. repeat split; try assumption. intros m Hm. assert (m = 0)%nat by lia. subst. apply A.
  - destruct (read_line_step f k d p A N) as [H _]. destruct (H c S) as (f1 & E & A1 & D).
    assert (S1 : skipn (k + length p + 1) (disk f1) = c).
    { rewrite D, !skipn_add, S, skipn_app, skipn_all, Nat.sub_diag. reflexivity. }
    destruct (IH f1 _ A1 S1) as (I1 & I2 & I3 & I4). cbn [length read_lines]. rewrite E.
    destruct (read_lines (length ps) f1 d) as [rs f2] eqn:R. cbn in *. rewrite I2. repeat split; try assumption; [|congruence].
    intros [|m] Hm; [apply A|]. cbn. rewrite E. specialize (I1 m ltac:(lia)).
    destruct (read_lines m f1 d) as [rs' f3]. exact I1.
Qed.

Lemma lines_exist d (c : list N) : exists ps, lines d ps c.
Proof.
  induction c as [|b c [ps IH]]; [exists [[]]; now constructor|].
  destruct (N.eq_dec b d) as [->|Nb].
  - exists ([] :: ps). apply (lines_cons d [] ps c); [intros []|assumption].
  - destruct IH as [p Np|p ps c Np L].
    + exists [b :: p]. constructor. intros [|]; auto.
    + exists ((b :: p) :: ps). apply (lines_cons d (b :: p)); [|assumption]. intros [|]; auto.
Qed.

(** A text cut at an ASCII character is cut at the same places as its bytes. *)
Lemma unit_ascii d c : utf8_unit c -> d < 0x80 -> In d c -> c = [d].
Proof. intros U D I. destruct U; cbn in I; unfold continuation in *; repeat (destruct I as [I|I]); subst; try contradiction; try lia; reflexivity. Qed.

Lemma lines_bytes d us t : d < 0x80 -> text t -> lines [d] us t -> lines d (map (@concat N) us) (concat t) /\ Forall text us.
Proof.
  intros D T L. induction L as [p Np|p us c Np L IH].
  - split; [|now constructor]. constructor. intros I. apply in_concat in I as (x & Ix & I).
    unfold text in T. rewrite Forall_forall in T. specialize (T x Ix). apply (unit_ascii d x) in I; [subst; auto| |assumption].
    apply T.
  - apply Forall_app in T as [Tp T]. inversion T as [|? ? _ Tc]; subst. destruct (IH Tc) as [IH1 IH2].
    split; [|now constructor]. rewrite concat_app. cbn [map concat]. cbn [app]. constructor; [|assumption].
    intros I. apply in_concat in I as (x & Ix & I). rewrite Forall_forall in Tp. specialize (Tp x Ix).
    apply (unit_ascii d x) in I; [subst; auto| |assumption]. apply Tp.
Qed.

Lemma string_of_std_text us : text us -> string_of_std (concat us) = Ok us.
Proof. intros T. unfold string_of_std. now apply string_of_cstr_text. Qed.

Lemma opened name acc c : s_str name <> [] -> acc = true ->
  exists f, make_file name acc c = (f, Ok tt) /\ at_byte f 0 /\ disk f = c.
Proof.
  intros N ->. unfold make_file, f_open. cbn. destruct (s_str name); [contradiction|].
  eexists. split; [reflexivity|]. split; [|reflexivity]. repeat split.
Qed.

Lemma file_lines name c d : s_str name <> [] -> exists f ps, make_file name true c = (f, Ok tt) /\ lines d ps c /\
  (forall m, (m < length ps)%nat -> f_is_eof (snd (read_lines m f d)) = false) /\
  fst (read_lines (length ps) f d) = map string_of_std ps /\
  f_is_eof (snd (read_lines (length ps) f d)) = true.
Proof.
  intros Nm. destruct (opened name true c Nm eq_refl) as (f & M & A & D). destruct (lines_exist d c) as [ps L].
  exists f, ps. split; [assumption|]. split; [assumption|].
  destruct (read_lines_spec d ps c L f 0 A) as (H1 & H2 & H3 & _); [now rewrite D|]. auto.
Qed.

Lemma text_lines name t d us : s_str name <> [] -> text t -> d < 0x80 -> lines [d] us t ->
  exists f, make_file name true (concat t) = (f, Ok tt) /\
  (forall m, (m < length us)%nat -> f_is_eof (snd (read_lines m f d)) = false) /\
  fst (read_lines (length us) f d) = map (@Ok Str) us /\
  f_is_eof (snd (read_lines (length us) f d)) = true.
Proof.
  intros Nm T D L. destruct (opened name true (concat t) Nm eq_refl) as (f & M & A & Di). exists f. split; [assumption|].
  destruct (lines_bytes d us t D T L) as [LB TU].
  destruct (read_lines_spec d _ _ LB f 0 A) as (H1 & H2 & H3 & _); [now rewrite Di|].
  rewrite map_length in *. split; [assumption|]. split; [|assumption]. rewrite H2, map_map.
  clear - TU. induction TU as [|u us Tu _ IH]; cbn; [reflexivity|]. now rewrite string_of_std_text, IH.
Qed.

(** Writing *)
Definition written (o : fop) (c : list N) : list N :=
  match o with
  | OErase => []
  | OWrite b | OAppend b => c ++ b
  | OWriteLine b | OAppendLine b => c ++ b ++ [10]
  | _ => c
  end.
Definition is_write (o : fop) : bool :=
  match o with OWrite _ | OWriteLine _ | OAppend _ | OAppendLine _ => true | _ => false end.

(** One write: exact effect in every state. *)
Lemma write_exact f o f' r : is_write o = true -> f_step f o = (f', r) ->
  (is_open f = true -> r = Ok None /\ disk f' = if eofbit f || failbit f then disk f else written o (disk f)) /\
  (is_open f = false -> s_str (filename f) <> [] -> access f = true -> r = Ok None /\ disk f' = written o (disk f)) /\
  (is_open f = false -> s_str (filename f) = [] \/ access f = false -> r = Throw EIosFailure /\ disk f' = disk f).
Proof.
  intros Wr. destruct o as [| | |p| |d|b|b|b|b]; try discriminate Wr; cbn [f_step written];
  unfold f_write, f_write_line, f_append, f_append_line, ensure_open, put, f_open;
  (intros E; split; [|split]; intros O; [rewrite O in E|intros Nm Ac; rewrite O in E|intros Na; rewrite O in E];
   [destruct (eofbit f || failbit f); cbn in E; injection E as <- <-; cbn; auto
   |destruct (s_str (filename f)) eqn:Es; [contradiction|]; rewrite Ac in E; cbn in E; injection E as <- <-; cbn; auto
   |destruct (s_str (filename f)) eqn:Es; [cbn in E; injection E as <- <-; cbn; auto|
    destruct Na as [Na|Na]; [discriminate|]; rewrite Na in E; cbn in E; injection E as <- <-; cbn; auto]]).
Qed.

(** A history without trouble that a caller can see: no operation threw a stream error, IsEof
    was never true, and Open was never called on an open File. *)
Definition stream_error {A} (r : outcome A) : bool :=
  match r with Throw EIosFailure | Throw ELengthError => true | _ => false end.
Inductive untroubled : file -> list fop -> file -> Prop :=
| ut_nil f : untroubled f [] f
| ut_cons f o os f1 r f2 : f_step f o = (f1, r) -> r <> UB -> stream_error r = false -> f_is_eof f1 = false ->
    (o = OOpen -> is_open f = false) -> untroubled f1 os f2 -> untroubled f (o :: os) f2.

Definition sound (f : file) : Prop := is_open f = true -> eofbit f = false /\ failbit f = false.

Lemma open_closed f : is_open f = false -> (exists f1, f_open f = (f1, Ok tt) /\ healthy f1 /\ disk f1 = disk f /\ position f1 = position f) \/
  exists f1, f_open f = (f1, Throw EIosFailure).
Proof.
  intros O. unfold f_open. destruct (s_str (filename f)); [right; eauto|]. rewrite O. destruct (access f); [left|right; eauto].
  eexists. split; [reflexivity|]. repeat split.
Qed.

Lemma ensure_sound {A} f (k : file -> fresult A) f1 r : sound f -> ensure_open f k = (f1, r) -> stream_error r = false ->
  exists f0, healthy f0 /\ disk f0 = disk f /\ k f0 = (f1, r).
Proof.
  intros S E Se. unfold ensure_open in E. destruct (is_open f) eqn:O.
  - exists f. destruct (S O) as [S1 S2]. repeat split; assumption.
  - destruct (open_closed f O) as [(f0 & Eo & H & D & _)|(f0 & Eo)]; rewrite Eo in E.
    + exists f0. auto.
    + injection E as <- <-. discriminate.
Qed.

Lemma stream_error_omap {A B} (g : A -> B) r : stream_error (omap g r) = stream_error r.
Proof. destruct r as [|[]| |]; reflexivity. Qed.

Lemma untroubled_step f o f1 r : sound f -> f_step f o = (f1, r) -> r <> UB -> stream_error r = false ->
  f_is_eof f1 = false -> (o = OOpen -> is_open f = false) -> sound f1 /\ disk f1 = written o (disk f).
Proof.
  intros S E NU Se Ef Op. destruct o as [| | |p| |d|b|b|b|b]; cbn [f_step written] in *.
  - (* Open *) destruct (f_open f) as [f0 r0] eqn:EO. cbn in E. injection E as <- <-. rewrite stream_error_omap in Se.
    destruct (open_closed f (Op eq_refl)) as [(f2 & Eo & (H1 & H2 & H3) & D & _)|(f2 & Eo)]; rewrite EO in Eo; injection Eo as <- ->.
    + split; [|assumption]. split; assumption.
    + discriminate.
  - (* Close *) injection E as <- <-. split; [|reflexivity]. unfold sound, f_close. cbn. discriminate.
  - (* Erase *) destruct (f_erase f) as [f0 r0] eqn:EO. cbn in E. injection E as <- <-. rewrite stream_error_omap in Se.
    unfold f_erase in EO. cbn in EO.
    destruct (s_str (filename f)) eqn:Es; [injection EO as <- <-; discriminate|].
    destruct (access f) eqn:Ac; [|injection EO as <- <-; discriminate].
    unfold f_open in EO. cbn in EO. rewrite Es, Ac in EO. injection EO as <- <-. split; [|reflexivity].
    split; reflexivity.
  - (* SetPosition *) destruct (f_set_position f p) as [f0 r0] eqn:EO. cbn in E. injection E as <- <-. rewrite stream_error_omap in Se.
    unfold f_set_position in EO. cbn in EO. destruct (is_open f && (0 <=? p)%Z); injection EO as <- <-; [|discriminate].
    split; [|reflexivity]. split; reflexivity.
  - (* Read *) destruct (f_read f) as [f0 r0] eqn:EO. cbn in E. injection E as <- <-. rewrite stream_error_omap in Se.
    apply (ensure_sound f _ _ _ S) in EO; [|assumption]. destruct EO as (f2 & (H1 & H2 & H3) & D & EO). cbn in EO.
    rewrite H3 in EO. injection EO as <- <-. split; [|assumption]. split; [reflexivity|assumption].
  - (* ReadLine *) destruct (f_read_line f d) as [f0 r0] eqn:EO. cbn in E. injection E as <- <-. rewrite stream_error_omap in Se.
    apply (ensure_sound f _ _ _ S) in EO; [|assumption]. destruct EO as (f2 & (H1 & H2 & H3) & D & EO). cbn in EO.
    rewrite H2, H3 in EO. destruct (position f2 <? 0)%Z; [injection EO as <- <-; discriminate|].
    destruct (scan d _) as [q found]. destruct found; injection EO as <- <-; [|discriminate].
    split; [|assumption]. split; assumption.
  - destruct (f_write f b) as [f0 r0] eqn:EO. cbn in E. injection E as <- <-. rewrite stream_error_omap in Se.
    apply (ensure_sound f _ _ _ S) in EO; [|assumption]. destruct EO as (f2 & (H1 & H2 & H3) & D & EO). unfold put in EO.
    rewrite H2, H3 in EO. injection EO as <- <-. cbn. rewrite D. split; [|reflexivity]. split; assumption.
  - destruct (f_write_line f b) as [f0 r0] eqn:EO. cbn in E. injection E as <- <-. rewrite stream_error_omap in Se.
    apply (ensure_sound f _ _ _ S) in EO; [|assumption]. destruct EO as (f2 & (H1 & H2 & H3) & D & EO). unfold put in EO.
    rewrite H2, H3 in EO. injection EO as <- <-. cbn. rewrite D. split; [|reflexivity]. split; assumption.
  - destruct (f_append f b) as [f0 r0] eqn:EO. cbn in E. injection E as <- <-. rewrite stream_error_omap in Se.
    apply (ensure_sound f _ _ _ S) in EO; [|assumption]. destruct EO as (f2 & (H1 & H2 & H3) & D & EO). unfold put in EO.
    rewrite H2, H3 in EO. injection EO as <- <-. cbn. rewrite D. split; [|reflexivity]. split; assumption.
  - destruct (f_append_line f b) as [f0 r0] eqn:EO. cbn in E. injection E as <- <-. rewrite stream_error_omap in Se.
    apply (ensure_sound f _ _ _ S) in EO; [|assumption]. destruct EO as (f2 & (H1 & H2 & H3) & D & EO). unfold put in EO.
    rewrite H2, H3 in EO. injection EO as <- <-. cbn. rewrite D. split; [|reflexivity]. split; assumption.
Qed.

Lemma untroubled_written f os f' : untroubled f os f' -> sound f -> disk f' = fold_left (fun c o => written o c) os (disk f).
Proof.
  induction 1 as [f|f o os f1 r f2 E NU Se Ef Op H IH]; intros S; [reflexivity|].
  destruct (untroubled_step f o f1 r S E NU Se Ef Op) as [S1 D]. cbn. rewrite <- D. now apply IH.
Qed.

Lemma history_written name c f os f' : make_file name true c = (f, Ok tt) -> untroubled f os f' ->
  disk f' = fold_left (fun c o => written o c) os c.
Proof.
  intros M U. unfold make_file, f_open in M. cbn in M. destruct (s_str name); [discriminate|].
  injection M as <-. rewrite (untroubled_written _ _ _ U); [reflexivity|]. split; reflexivity.
Qed.

(** Once the end was reached, everything written through this File is lost until it is closed,
    erased, opened or repositioned. *)
Lemma lost_writes f os : is_open f = true -> eofbit f || failbit f = true ->
  forallb is_write os = true -> Forall (fun r => r = Ok None) (snd (fold_left (fun '(g, rs) o => let (g', r) := f_step g o in (g', rs ++ [r])) os (f, []))) /\
  disk (fst (fold_left (fun '(g, rs) o => let (g', r) := f_step g o in (g', rs ++ [r])) os (f, []))) = disk f.
Proof.
  assert (G : forall os f rs, is_open f = true -> eofbit f || failbit f = true -> forallb is_write os = true ->
    Forall (fun r => r = Ok None) rs ->
    Forall (fun r => r = Ok None) (snd (fold_left (fun '(g, rs) o => let (g', r) := f_step g o in (g', rs ++ [r])) os (f, rs))) /\
    disk (fst (fold_left (fun '(g, rs) o => let (g', r) := f_step g o in (g', rs ++ [r])) os (f, rs))) = disk f).
  { clear. induction os as [|o os IH]; intros f rs O B Wr R; cbn; [auto|]. cbn in Wr. apply andb_true_iff in Wr as [W1 W2].
    destruct (f_step f o) as [f1 r] eqn:E. destruct (write_exact f o f1 r W1 E) as [X _]. destruct (X O) as [-> D].
    rewrite B in D.
    assert (is_open f1 = true /\ eofbit f1 || failbit f1 = true) as [O1 B1].
    { destruct o; try discriminate W1; cbn in E; unfold f_write, f_write_line, f_append, f_append_line, ensure_open, put in E;
      rewrite O, B in E; cbn in E; injection E as <-; cbn; rewrite orb_true_r; auto. }
    specialize (IH f1 (rs ++ [Ok None]) O1 B1 W2). destruct IH as [IH1 IH2]; [apply Forall_app; auto|]. split; [exact IH1|congruence]. }
  intros. apply G; auto.
Qed.

(** Read *)
Lemma read_exact f : healthy f -> exists f', f_read f = (f', string_of_cstr (disk f)) /\ disk f' = disk f.
Proof. intros (O & E & Fl). unfold f_read, ensure_open. rewrite O. cbn. rewrite Fl. eexists. split; reflexivity. Qed.

Lemma read_text_ub f us : healthy f -> text us -> disk f = concat us -> snd (f_read f) = UB.
Proof.
  intros H T D. destruct (read_exact f H) as (f' & E & _). rewrite E, D. cbn. clear - T.
  unfold string_of_cstr.
  assert (G : forall us n, text us -> (length us < n)%nat -> decode_loop n (concat us) = UB).
  { clear. induction us as [|c us IH]; intros n T L; (destruct n as [|n]; [lia|]); [reflexivity|].
    inversion T as [|? ? Tc Tu]; subst. cbn [concat]. rewrite (decode_loop_cons n c (concat us) Tc).
    rewrite IH; [reflexivity|assumption|cbn in L; lia]. }
  apply G; [assumption|]. pose proof (text_length us T). lia.
Qed.

Lemma read_never_whole f s : healthy f -> Forall is_byte (disk f) -> snd (f_read f) = Ok s -> s_str s <> disk f.
Proof.
  intros H B E. destruct (read_exact f H) as (f' & Er & _). rewrite Er in E. cbn in E.
  pose proof (string_of_cstr_ok _ _ B E) as K. intros C. destruct K as (Tx & r & Dm). rewrite <- C in Dm.
  rewrite s_str_text in Dm by assumption. apply (f_equal (@length N)) in Dm. rewrite app_length in Dm. cbn in Dm. lia.
Qed.

Lemma read_terminated f us r : healthy f -> text us -> disk f = concat us ++ 0 :: r -> snd (f_read f) = Ok us.
Proof. intros H T D. destruct (read_exact f H) as (f' & E & _). rewrite E, D. now apply string_of_cstr_text. Qed.

(** Closing and reading again. *)
Lemma reopened_read_line f d : s_str (filename f) <> [] -> access f = true ->
  f_read_line (f_close f) d =
  let g := set_state f true false false in
  if (position f <? 0)%Z then (set_state f true false true, Throw EIosFailure)
  else let (p, found) := scan d (skipn (Z.to_nat (position f)) (disk f)) in
       if found then (set_pos g (position f + Z.of_nat (length p) + 1)%Z, string_of_std p)
       else (set_pos (set_state f true true true) (-1)%Z, string_of_std p).
Proof.
  intros N A. unfold f_read_line, ensure_open, f_open, f_close. cbn. destruct (s_str (filename f)); [contradiction|].
  rewrite A. cbn. reflexivity.
Qed.

Lemma end_then_close f k d p : at_byte f k -> s_str (filename f) <> [] -> access f = true -> ~ In d p ->
  skipn k (disk f) = p -> forall d', snd (f_read_line (f_close (fst (f_read_line f d))) d') = Throw EIosFailure.
Proof.
  intros [(O & E & Fl) P] N A Np S d'. 
  unfold f_read_line at 2. unfold ensure_open. rewrite O, E, Fl, P. destruct (Z.ltb_spec (Z.of_nat k) 0); [lia|].
  rewrite Nat2Z.id, S, (scan_end d p Np). cbn [fst]. rewrite reopened_read_line; [reflexivity|exact N|exact A].
Qed.
