(** Properties C133, C134: several Files on one file system. *)
From Coq Require Import List NArith ZArith Bool Lia.
From Verif Require Import Outcome CharModel StrModel File SpecUtf8 SpecStr SpecFile StrProofs FileProofs FileShare.
Import ListNotations.
Local Open Scope N_scope.

Lemma bytes_eqb_eq a b : bytes_eqb a b = true <-> a = b.
Proof.
  revert b. induction a as [|x a IH]; intros [|y b]; cbn; split; intros H; try reflexivity; try discriminate.
  - apply andb_true_iff in H as [H1 H2]. apply N.eqb_eq in H1 as ->. apply IH in H2 as ->. reflexivity.
  - injection H as -> ->. rewrite N.eqb_refl. cbn. now apply IH.
Qed.
Definition keeps (f g : file) : Prop := filename g = filename f /\ access g = access f.
Lemma keeps_trans f g h : keeps f g -> keeps g h -> keeps f h. Proof. unfold keeps. intuition congruence. Qed.
Lemma open_keeps f : keeps f (fst (f_open f)) /\ disk (fst (f_open f)) = disk f.
Proof. unfold f_open, keeps. destruct (s_str _); [auto|]. destruct (is_open f); [auto|]. destruct (access f) eqn:E; cbn; rewrite ?E; auto. Qed.
Lemma ensure_keeps {A} f (k : file -> fresult A) : (forall g, keeps g (fst (k g))) -> keeps f (fst (ensure_open f k)).
Proof.
  intros K. unfold ensure_open. destruct (is_open f); [apply K|]. pose proof (proj1 (open_keeps f)) as O.
  destruct (f_open f) as [g [u|e| |]]; cbn [fst] in *; auto. now apply keeps_trans with g.
Qed.
Lemma ensure_disk {A} f (k : file -> fresult A) : (forall g, disk (fst (k g)) = disk g) -> disk (fst (ensure_open f k)) = disk f.
Proof.
  intros K. unfold ensure_open. destruct (is_open f); [apply K|]. pose proof (proj2 (open_keeps f)) as O.
  destruct (f_open f) as [g [u|e| |]]; cbn [fst] in *; auto. now rewrite K.
Qed.
Lemma put_keeps f b : keeps f (fst (put f b)). Proof. unfold put, keeps. destruct (_ || _); auto. Qed.
Lemma read_keeps g : keeps g (fst (f_read g)) /\ disk (fst (f_read g)) = disk g.
Proof. split; [apply ensure_keeps|apply ensure_disk]; intros h; cbv zeta; destruct (failbit _); unfold keeps; auto. Qed.
Lemma read_line_keeps g d : keeps g (fst (f_read_line g d)) /\ disk (fst (f_read_line g d)) = disk g.
Proof.
  split; [apply ensure_keeps|apply ensure_disk]; intros h; destruct (eofbit h); unfold keeps; auto; destruct (failbit h); auto; destruct (_ <? _)%Z; auto;
    destruct (scan _ _) as [p [|]]; auto.
Qed.
Lemma set_position_keeps f p : keeps f (fst (f_set_position f p)) /\ disk (fst (f_set_position f p)) = disk f.
Proof. unfold f_set_position. cbv zeta. destruct (_ && _); split; unfold keeps; auto. Qed.
Lemma erase_keeps f : keeps f (fst (f_erase f)).
Proof.
  unfold f_erase. cbv zeta. destruct (s_str _); [unfold keeps; auto|]. destruct (access _); [|unfold keeps; auto].
  apply keeps_trans with (set_disk (f_close f) []); [unfold keeps; auto|apply open_keeps].
Qed.
Lemma step_keeps f o : keeps f (fst (f_step f o)).
Proof.
  destruct o; cbn [f_step fst]; try (apply ensure_keeps; intros g; apply put_keeps).
  - apply open_keeps.
  - unfold keeps. auto.
  - apply erase_keeps.
  - apply set_position_keeps.
  - apply read_keeps.
  - apply read_line_keeps.
Qed.
(** Only writing and erasing change a file. *)
Definition changes (o : fop) : bool := match o with OErase => true | _ => is_write o end.
Lemma step_disk f o : changes o = false -> disk (fst (f_step f o)) = disk f.
Proof.
  destruct o; intros H; try discriminate H; cbn [f_step fst].
  - apply open_keeps.
  - reflexivity.
  - apply set_position_keeps.
  - apply read_keeps.
  - apply read_line_keeps.
Qed.

Section World.
Variable allowed : list N -> bool.
Lemma unload_name f o c op : f = load allowed c o -> o_name (unload (fst (f_step f op))) = o_name o.
Proof. intros ->. cbn. apply step_keeps. Qed.
Lemma load_unload c o f op : f = fst (f_step (load allowed c o) op) ->
  forall c', c' (path o) = disk f -> load allowed c' (unload f) = f.
Proof.
  intros E c' D. destruct (step_keeps (load allowed c o) op) as [N A]. rewrite <- E in N, A. clear E.
  destruct f as [nm ac dk op' ef fb ps]. cbn in N, A, D. subst nm ac dk. reflexivity.
Qed.
Lemma set_same c p d : set_content c p d p = d.
Proof. unfold set_content. now rewrite (proj2 (bytes_eqb_eq p p) eq_refl). Qed.
Lemma set_other c p d q : q <> p -> set_content c p d q = c q.
Proof. intros N. unfold set_content. destruct (bytes_eqb q p) eqn:E; [apply bytes_eqb_eq in E; contradiction|reflexivity]. Qed.

(** The calls made on one object, and their results *)
Fixpoint calls_on (i : nat) (h : list wop) : list fop :=
  match h with [] => [] | FDo j o :: r => if Nat.eqb j i then o :: calls_on i r else calls_on i r | _ :: r => calls_on i r end.
Fixpoint results_on (i : nat) (h : list wop) (xs : list (outcome (option Str))) : list (outcome (option Str)) :=
  match h, xs with
  | FDo j o :: r, x :: xs => if Nat.eqb j i then x :: results_on i r xs else results_on i r xs
  | _ :: r, _ :: xs => results_on i r xs
  | _, _ => []
  end.
Fixpoint alone (f : file) (os : list fop) : list (outcome (option Str)) :=
  match os with [] => [] | o :: r => let (f1, x) := f_step f o in x :: alone f1 r end.
(** Nothing in the history writes to or erases the file of this name through another object, or ends this object. *)
Definition undisturbed (w : fworld) (i : nat) (p : list N) (op : wop) : Prop :=
  match op with
  | FNew _ | FCopy _ => True
  | FEnd j => j <> i
  | FDo j o => j = i \/ changes o = false \/ forall ob, objs w j = Some ob -> path ob <> p
  end.
Fixpoint all_undisturbed (w : fworld) (i : nat) (p : list N) (h : list wop) : Prop :=
  match h with [] => True | op :: r => undisturbed w i p op /\ all_undisturbed (fst (wstep allowed w op)) i p r end.

Definition valid (w : fworld) : Prop := forall j, objs w j <> None -> (j < next w)%nat.
Lemma construct_frame w name i : valid w -> (i < next w)%nat ->
  content (fst (construct allowed w name)) = content w /\ objs (fst (construct allowed w name)) i = objs w i /\
  valid (fst (construct allowed w name)) /\ (next w <= next (fst (construct allowed w name)))%nat.
Proof.
  intros V L. unfold construct. destruct (f_open _) as [f [u|e| |]]; cbn [fst content objs next]; auto.
  unfold set_obj. split; [reflexivity|]. split; [destruct (Nat.eqb_spec i (next w)); [lia|reflexivity]|]. split; [|lia].
  intros j H. cbn in *. destruct (Nat.eqb_spec j (next w)); [lia|]. apply V in H. lia.
Qed.
(** What one step leaves of an object it is not about. *)
Lemma step_frame w i o op : valid w -> objs w i = Some o -> undisturbed w i (path o) op ->
  let w1 := fst (wstep allowed w op) in
  valid w1 /\
  match op with
  | FDo j p => if Nat.eqb j i then
      let r := f_step (load allowed (content w) o) p in
      snd (wstep allowed w op) = snd r /\ objs w1 i = Some (unload (fst r)) /\ content w1 (path o) = disk (fst r)
    else objs w1 i = Some o /\ content w1 (path o) = content w (path o)
  | _ => objs w1 i = Some o /\ content w1 (path o) = content w (path o)
  end.
Proof.
  intros V O U. cbv zeta. assert (L : (i < next w)%nat) by (apply V; congruence).
  destruct op as [name|j|j|j p]; cbn [wstep undisturbed] in *.
  - destruct (construct_frame w name i V L) as (A & B & C & D). rewrite A, B. auto.
  - destruct (objs w j) as [oj|] eqn:Oj; [|cbn; auto]. destruct (construct_frame w (o_name oj) i V L) as (A & B & C & D). rewrite A, B. auto.
  - destruct (objs w j) as [oj|] eqn:Oj; [|cbn; auto]. cbn. unfold set_obj. split.
    + intros k H. cbn in *. destruct (Nat.eqb_spec k j); [congruence|]. now apply V.
    + destruct (Nat.eqb_spec i j); [congruence|]. auto.
  - destruct (Nat.eqb_spec j i) as [->|Nji].
    + rewrite O. destruct (f_step (load allowed (content w) o) p) as [f r]. cbn. unfold set_obj. rewrite Nat.eqb_refl, set_same. split; [|auto].
      intros k H. cbn in *. destruct (Nat.eqb_spec k i); [subst; exact L|]. now apply V.
    + destruct (objs w j) as [oj|] eqn:Oj; [|cbn; auto].
      pose proof (step_disk (load allowed (content w) oj) p) as SD.
      destruct (f_step (load allowed (content w) oj) p) as [f r]. cbn in SD |- *. unfold set_obj. split.
      * intros k H. cbn in *. destruct (Nat.eqb_spec k j); [subst k; apply V; congruence|]. now apply V.
      * destruct (Nat.eqb_spec i j); [congruence|]. split; [exact O|].
        destruct U as [U|[U|U]]; [contradiction| |].
        -- rewrite SD by exact U. unfold set_content. destruct (bytes_eqb (path o) (path oj)) eqn:E; [|reflexivity]. apply bytes_eqb_eq in E. now rewrite E.
        -- apply set_other. intros E. now apply (U oj eq_refl).
Qed.
Lemma noninterference h : forall w i o, valid w -> objs w i = Some o -> all_undisturbed w i (path o) h ->
  results_on i h (snd (wrun allowed w h)) = alone (load allowed (content w) o) (calls_on i h).
Proof.
  induction h as [|op h IH]; intros w i o V O U; [reflexivity|]. destruct U as [U Us].
  destruct (step_frame w i o op V O U) as [V1 F]. cbn [wrun]. destruct (wstep allowed w op) as [w1 x] eqn:E. cbn [fst snd] in *.
  destruct (wrun allowed w1 h) as [w2 xs] eqn:R. cbn [snd].
  assert (Oth : objs w1 i = Some o -> content w1 (path o) = content w (path o) -> results_on i h xs = alone (load allowed (content w) o) (calls_on i h)).
  { intros A B. replace (load allowed (content w) o) with (load allowed (content w1) o) by (unfold load; now rewrite B).
    rewrite <- (IH w1 i o V1 A Us). now rewrite R. }
  destruct op as [name|j|j|j p]; cbn [results_on calls_on]; try (destruct F as [A B]; now apply Oth).
  destruct (Nat.eqb j i); [|destruct F as [A B]; now apply Oth].
  destruct F as (X & A & B). cbn [alone].
  assert (P : path (unload (fst (f_step (load allowed (content w) o) p))) = path o) by (unfold path; now rewrite (unload_name _ o (content w) p)).
  pose proof (load_unload (content w) o _ p eq_refl (content w1) B) as LU.
  destruct (f_step (load allowed (content w) o) p) as [f r]. cbn [fst snd] in *. subst x. f_equal.
  rewrite <- LU. rewrite <- (IH w1 i (unload f) V1 A); [now rewrite R|]. now rewrite P.
Qed.
End World.

Definition wstart (c : list N -> list N) : fworld := FWorld c (fun _ => None) 0.
(** Any state that a program can reach *)
Definition reachable (allowed : list N -> bool) (w : fworld) : Prop := exists c h, w = fst (wrun allowed (wstart c) h).
Lemma step_valid allowed w op : valid w -> valid (fst (wstep allowed w op)).
Proof.
  intros V. assert (C : forall name, valid (fst (construct allowed w name))).
  { intros name. unfold construct. destruct (f_open _) as [f [u|e| |]]; cbn [fst]; auto. intros j H. cbn in *. unfold set_obj in H.
    destruct (Nat.eqb_spec j (next w)); [lia|]. apply V in H. lia. }
  destruct op as [name|j|j|j p]; cbn [wstep]; auto; destruct (objs w j) as [oj|] eqn:Oj; auto.
  - intros k H. cbn in *. unfold set_obj in H. destruct (Nat.eqb_spec k j); [congruence|]. now apply V.
  - destruct (f_step _ p) as [f r]. intros k H. cbn in *. unfold set_obj in H. destruct (Nat.eqb_spec k j); [subst k; apply V; congruence|]. now apply V.
Qed.
Lemma run_valid allowed h : forall w, valid w -> valid (fst (wrun allowed w h)).
Proof.
  induction h as [|op h IH]; intros w V; [exact V|]. cbn. pose proof (step_valid allowed w op V) as S.
  destruct (wstep allowed w op) as [w1 x]. specialize (IH w1 S). destruct (wrun allowed w1 h). exact IH.
Qed.
Lemma reachable_valid allowed w : reachable allowed w -> valid w.
Proof. intros (c & h & ->). apply run_valid. intros j H. now destruct H. Qed.

(** C133.  Files do not get into each other's way: as long as no other File writes to or erases the same file, the calls on
    one File give the results they would give if no other File existed, whatever other Files are created, copied, used
    and destroyed in between. *)
Theorem C133_independent : forall allowed w i o h, reachable allowed w -> objs w i = Some o -> all_undisturbed allowed w i (path o) h ->
  results_on i h (snd (wrun allowed w h)) = alone (load allowed (content w) o) (calls_on i h).
Proof. intros allowed w i o h R. now apply noninterference, reachable_valid with allowed. Qed.
Print Assumptions C133_independent.
(** A copy reads the same file from its beginning, wherever the original is; the original goes on where it was. *)
Theorem C133_copy : forall allowed w i o, reachable allowed w -> objs w i = Some o -> path o <> [] -> allowed (path o) = true ->
  exists w' o', wstep allowed w (FCopy i) = (w', Ok None) /\ content w' = content w /\ objs w' i = Some o /\
    objs w (next w) = None /\ objs w' (next w) = Some o' /\
    load allowed (content w') o' = fst (make_file (o_name o) true (content w (path o))) /\ snd (make_file (o_name o) true (content w (path o))) = Ok tt.
Proof.
  intros allowed w i o R O P A. apply reachable_valid in R. unfold path in *.
  assert (L : (i < next w)%nat) by (apply R; congruence).
  cbn [wstep]. rewrite O. unfold construct, f_open, make_file, f_open, load, path. cbn [filename access is_open eofbit position o_name o_open o_eof o_fail o_pos].
  destruct (s_str (o_name o)) as [|b bs] eqn:E; [contradiction|]. rewrite A.
  eexists _, _. split; [reflexivity|]. cbn [content objs]. unfold set_obj. rewrite Nat.eqb_refl.
  split; [reflexivity|]. split; [destruct (Nat.eqb_spec i (next w)); [lia|exact O]|].
  split; [destruct (objs w (next w)) eqn:X; [|reflexivity]; exfalso; assert ((next w < next w)%nat) by (apply R; congruence); lia|].
  split; [reflexivity|]. cbn [fst snd unload o_name o_open o_eof o_fail o_pos set_state filename access disk is_open eofbit failbit position].
  rewrite E, A. auto.
Qed.
Print Assumptions C133_copy.
(** A second File reads from the start while the first is in the middle; a third file is written meanwhile. *)
Definition ex_content (p : list N) : list N := if bytes_eqb p [102] then [97; 10; 98; 10] else [].
Definition ex_history : list wop :=
  [FNew [[102]]; FDo 0 (OReadLine 10); FCopy 0; FNew [[103]]; FDo 1 (OReadLine 10); FDo 2 (OWriteLine [120]); FDo 0 (OReadLine 10); FEnd 1; FDo 0 (OReadLine 10)].
Example C133_ex : snd (wrun (fun _ => true) (wstart ex_content) ex_history) =
    [Ok None; Ok (Some [[97]]); Ok None; Ok None; Ok (Some [[97]]); Ok None; Ok (Some [[98]]); Ok None; Ok (Some [])] /\
  (forall o, objs (fst (wrun (fun _ => true) (wstart ex_content) (firstn 1 ex_history))) 0 = Some o ->
   all_undisturbed (fun _ => true) (fst (wrun (fun _ => true) (wstart ex_content) (firstn 1 ex_history))) 0 (path o) (tl ex_history)).
Proof.
  split; [vm_compute; reflexivity|]. intros o H. vm_compute in H. injection H as <-.
  cbn -[wstep wrun]. repeat split; auto; try lia.
  right. right. intros ob H. vm_compute in H. injection H as <-. vm_compute. discriminate.
Qed.

(** ** C134 *)
(** The calls that go to the file of this name *)
Definition calls_to (p : list N) (w : fworld) (op : wop) : list fop :=
  match op with
  | FDo j o => match objs w j with Some ob => if bytes_eqb (path ob) p then [o] else [] | None => [] end
  | _ => []
  end.
(** A history in which no call to the file failed with a stream error or met the end of the file, and Open was called on
    closed Files only; together with the calls to the file in their order. *)
Inductive calm (allowed : list N -> bool) (p : list N) : fworld -> list wop -> list fop -> fworld -> Prop :=
| calm_nil w : calm allowed p w [] [] w
| calm_cons w op h os w1 r w2 : wstep allowed w op = (w1, r) ->
    (forall o, In o (calls_to p w op) -> r <> UB /\ stream_error r = false /\
       forall j ob ob1, op = FDo j o -> objs w j = Some ob -> objs w1 j = Some ob1 -> o_eof ob1 = false /\ (o = OOpen -> o_open ob = false)) ->
    calm allowed p w1 h os w2 -> calm allowed p w (op :: h) (calls_to p w op ++ os) w2.

Definition all_sound (p : list N) (w : fworld) : Prop :=
  forall j ob, objs w j = Some ob -> path ob = p -> o_open ob = true -> o_eof ob = false /\ o_fail ob = false.

Lemma construct_sound allowed p w name : all_sound p w ->
  all_sound p (fst (construct allowed w name)) /\ content (fst (construct allowed w name)) = content w.
Proof.
  intros S. unfold construct. destruct (f_open _) as [f [u|e| |]] eqn:E; cbn [fst]; auto.
  split; [|reflexivity]. intros j ob. cbn. unfold set_obj. destruct (Nat.eqb_spec j (next w)); [|apply S].
  intros H _ Op. injection H as <-. cbn in *. unfold f_open in E. cbn [filename access is_open load o_name o_open o_eof o_fail o_pos] in E.
  destruct (s_str _); [discriminate|]. destruct (allowed _); [|discriminate]. injection E as <-. auto.
Qed.

Lemma calm_content allowed p w h os w' : calm allowed p w h os w' -> all_sound p w ->
  content w' p = fold_left (fun c o => written o c) os (content w p).
Proof.
  induction 1 as [w|w op h os w1 r w2 E C H IH]; intros S; [reflexivity|].
  assert (K : all_sound p w1 /\ content w1 p = fold_left (fun c o => written o c) (calls_to p w op) (content w p)).
  { destruct op as [name|j|j|j o]; cbn [wstep calls_to] in *.
    - destruct (construct_sound allowed p w name S) as [A B]. rewrite E in A, B. cbn [fst] in *. rewrite B. auto.
    - destruct (objs w j) as [oj|]; [|injection E as <- <-; auto].
      destruct (construct_sound allowed p w (o_name oj) S) as [A B]. rewrite E in A, B. cbn [fst] in *. rewrite B. auto.
    - destruct (objs w j) as [oj|]; injection E as <- <-; [|auto]. split; [|reflexivity]. intros k ob. cbn. unfold set_obj.
      destruct (Nat.eqb k j); [discriminate|apply S].
    - destruct (objs w j) as [oj|] eqn:Oj; [|injection E as <- <-; auto].
      destruct (f_step (load allowed (content w) oj) o) as [f x] eqn:F. injection E as <- <-. cbn [content objs].
      assert (Nm : path (unload f) = path oj) by (pose proof (unload_name allowed _ oj (content w) o eq_refl) as X; rewrite F in X; unfold path; cbn in *; now rewrite X).
      destruct (bytes_eqb (path oj) p) eqn:Pe.
      + apply bytes_eqb_eq in Pe. subst p. cbn [fold_left]. rewrite set_same.
        destruct (C o (or_introl eq_refl)) as (NU & Se & Ef). specialize (Ef j oj (unload f) eq_refl Oj).
        cbn [objs] in Ef. unfold set_obj at 1 in Ef. rewrite Nat.eqb_refl in Ef. specialize (Ef eq_refl). destruct Ef as [Ef Op].
        assert (So : sound (load allowed (content w) oj)) by (intros X; now apply (S j oj Oj eq_refl)).
        destruct (untroubled_step _ _ _ _ So F NU Se Ef Op) as [S1 D]. split; [|exact D].
        intros k ob. cbn [objs]. unfold set_obj. destruct (Nat.eqb_spec k j); [|apply S]. intros X _ Op1. injection X as <-. now apply S1.
      + assert (Np : path oj <> p) by (intros X; apply bytes_eqb_eq in X; congruence).
        cbn [fold_left]. rewrite set_other by congruence. split; [|reflexivity].
        intros k ob. cbn [objs]. unfold set_obj. destruct (Nat.eqb_spec k j); [|apply S]. intros X Y. injection X as <-. congruence. }
  destruct K as [S1 D]. rewrite IH by exact S1. now rewrite fold_left_app, D.
Qed.

(** C134.  What several Files write to one file is in it in the order of the calls. *)
Theorem C134_in_order_partial : forall allowed p c h os w', calm allowed p (wstart c) h os w' ->
  content w' p = fold_left (fun c o => written o c) os (c p).
Proof. intros allowed p c h os w' H. apply (calm_content allowed p _ h os w' H). intros j ob X. discriminate X. Qed.
Print Assumptions C134_in_order_partial.
(** A reader that stands at the end of the file, without having met it, reads the next line that another File writes. *)
Theorem C134_seen_partial : forall allowed w i j oi oj s, i <> j -> objs w i = Some oi -> objs w j = Some oj ->
  path oi = path oj -> o_open oi = true -> o_eof oi = false -> o_fail oi = false -> o_open oj = true -> o_eof oj = false -> o_fail oj = false ->
  o_pos oj = Z.of_nat (length (content w (path oj))) -> text s -> ~ In [10] s ->
  exists w1 w2, wstep allowed w (FDo i (OWriteLine (s_str s))) = (w1, Ok None) /\ wstep allowed w1 (FDo j (OReadLine 10)) = (w2, Ok (Some s)) /\
    exists oj2, objs w2 j = Some oj2 /\ o_open oj2 = true /\ o_eof oj2 = false /\ o_fail oj2 = false /\
      o_pos oj2 = Z.of_nat (length (content w2 (path oj))).
Proof.
  intros allowed w i j oi oj s Nij Oi Oj P Ii Ei Fi Ij Ej Fj Pos T Nl.
  assert (N10 : ~ In 10 (s_str s)).
  { rewrite (s_str_text s T). intros I. apply in_concat in I as (x & Ix & I). apply Nl. unfold text in T. rewrite Forall_forall in T.
    pose proof (T x Ix) as U. now rewrite <- (unit_ascii 10 x (proj1 U) ltac:(reflexivity) I). }
  cbn [wstep]. rewrite Oi. cbn [f_step]. unfold f_write_line, ensure_open, put. cbn [load is_open eofbit failbit]. rewrite Ii, Ei, Fi. cbn [orb].
  eexists _, _. split; [reflexivity|]. cbn [objs]. unfold set_obj at 1. destruct (Nat.eqb_spec j i); [congruence|]. rewrite Oj.
  cbn [fst snd omap content set_disk disk]. rewrite P.
  cbn [f_step]. unfold f_read_line, ensure_open, load. cbn [is_open eofbit failbit position disk]. rewrite Ij, Ej, Fj, Pos, set_same.
  destruct (Z.ltb_spec (Z.of_nat (length (content w (path oj)))) 0); [lia|]. rewrite Nat2Z.id.
  rewrite !P, skipn_app, skipn_all, Nat.sub_diag. cbn [skipn app]. rewrite scan_found by exact N10.
  cbn [fst snd omap set_pos]. rewrite (s_str_text s T), string_of_std_text by exact T. split; [reflexivity|].
  eexists. cbn [objs]. unfold set_obj. rewrite Nat.eqb_refl. split; [reflexivity|]. cbn. rewrite set_same.
  repeat split. rewrite !app_length. cbn. lia.
Qed.
Print Assumptions C134_seen_partial.
(** A reader that has met the end of the file never sees anything that is written later. *)
Lemma others_keep allowed j h : forall w o, objs w j = Some o -> valid w ->
  Forall (fun op => match op with FDo i _ | FEnd i => i <> j | _ => True end) h -> objs (fst (wrun allowed w h)) j = Some o.
Proof.
  induction h as [|op h IH]; intros w o O V H; [exact O|]. inversion_clear H as [|? ? H1 H2]. cbn.
  pose proof (step_valid allowed w op V) as V1.
  assert (K : objs (fst (wstep allowed w op)) j = Some o).
  { assert (L : (j < next w)%nat) by (apply V; congruence).
    destruct op as [name|i|i|i p]; cbn [wstep].
    - now rewrite (proj1 (proj2 (construct_frame allowed w name j V L))).
    - destruct (objs w i) as [oi|]; [|exact O]. now rewrite (proj1 (proj2 (construct_frame allowed w (o_name oi) j V L))).
    - destruct (objs w i); [|exact O]. cbn. unfold set_obj. destruct (Nat.eqb_spec j i); [congruence|exact O].
    - destruct (objs w i); [|exact O]. destruct (f_step _ p). cbn. unfold set_obj. destruct (Nat.eqb_spec j i); [congruence|exact O]. }
  destruct (wstep allowed w op) as [w1 x]. cbn [fst] in *. specialize (IH w1 o K V1 H2). destruct (wrun allowed w1 h). exact IH.
Qed.
Theorem C134_follow_refuted : forall allowed w j o h d, reachable allowed w -> objs w j = Some o -> o_open o = true -> o_eof o = true ->
  Forall (fun op => match op with FDo i _ | FEnd i => i <> j | _ => True end) h ->
  snd (wstep allowed (fst (wrun allowed w h)) (FDo j (OReadLine d))) = Ok (Some []).
Proof.
  intros allowed w j o h d R O Op Ef H. cbn [wstep]. rewrite (others_keep allowed j h w o O (reachable_valid _ _ R) H).
  cbn [f_step]. unfold f_read_line, ensure_open, load. cbn [is_open eofbit]. now rewrite Op, Ef.
Qed.
Print Assumptions C134_follow_refuted.
(** Two Files write in turn to one file; the reader that comes too early never gets the second line. *)
Example C134_ex :
  let h := [FNew [[102]]; FNew [[102]]; FDo 0 (OWriteLine [97]); FDo 1 (OAppendLine [98]); FDo 0 (OWrite [99])] in
  (exists w', calm (fun _ => true) [102] (wstart (fun _ => [])) h [OWriteLine [97]; OAppendLine [98]; OWrite [99]] w' /\ content w' [102] = [97; 10; 98; 10; 99]) /\
  snd (wrun (fun _ => true) (wstart ex_content) [FNew [[102]]; FDo 0 (OReadLine 33); FCopy 0; FDo 1 (OWriteLine [120]); FDo 0 (OReadLine 10)]) =
    [Ok None; Ok (Some [[97]; [10]; [98]; [10]]); Ok None; Ok None; Ok (Some [])].
Proof.
  cbv zeta. split; [|vm_compute; reflexivity].
  eexists. split.
  - change [OWriteLine [97]; OAppendLine [98]; OWrite [99]] with ([] ++ [] ++ [OWriteLine [97]] ++ [OAppendLine [98]] ++ [OWrite [99]] ++ @nil fop).
    eapply calm_cons; [reflexivity|intros o []|]. eapply calm_cons; [reflexivity|intros o []|].
    eapply calm_cons; [reflexivity| |eapply calm_cons; [reflexivity| |eapply calm_cons; [reflexivity| |apply calm_nil]]];
      intros o [<-|[]]; (split; [discriminate|]); (split; [reflexivity|]); intros j ob ob1 X _ Y; (split; [|discriminate]); injection X as <-; vm_compute in Y; injection Y as <-; reflexivity.
  - vm_compute. reflexivity.
Qed.
