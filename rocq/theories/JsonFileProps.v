(** Property C136: saving a JSON document with File and loading it again. *)
From Coq Require Import String List NArith ZArith Bool Lia.
From Verif Require Import Outcome CharModel StrModel JsonData JsonParse File FileShare SpecUtf8 SpecStr SpecJson SpecJsonText SpecFile StrProofs
  JsonGrammar JsonPrintProofs JsonDocProofs FileProofs FileShareProps.
Import ListNotations.
Local Open Scope list_scope.
Local Open Scope N_scope.

(** White space after an accepted text changes nothing. *)
Lemma trailing_space {F} (f_zero : F) stod s v w : text s -> text w -> ws lib_ws w ->
  doc_parse f_zero stod s = Ok {| root := v; error := NoError |} ->
  doc_parse f_zero stod (s ++ w) = Ok {| root := v; error := NoError |}.
Proof.
  intros T Tw W H. apply doc_accepts in H as (w0 & o & r & E & W0 & V & Ty & Tl); [|exact T].
  apply doc_accepts. { apply Forall_app. split; assumption. }
  exists w0, o, (r ++ w). split; [rewrite E, <- !app_assoc; reflexivity|]. split; [exact W0|]. split; [|split; [exact Ty|]].
  - rewrite concat_app. eapply text_mono; [|exact V]. intros. now apply simple_more.
  - destruct Tl as [Tl|(x & y & -> & Wy)]; [left; now apply Forall_app|]. right. exists x, (y ++ w). rewrite <- app_assoc.
    split; [reflexivity|now apply Forall_app].
Qed.

Lemma lf_ws : lib_ws (ch 10).
Proof. unfold lib_ws. rewrite JsonParseProofs.ascii_value. apply CharUtilProofs.is_space_spec. reflexivity. Qed.
Lemma lf_text : text [ch 10].
Proof. constructor; [apply JsonDocProofs.ascii_text_char; lia|constructor]. Qed.

(** The calls: File f{name}; f.Erase(); f.WriteLine(t); f is destroyed; File g{name} *)
Definition save (name : Str) (t : list N) (i : nat) : list wop :=
  [FNew name; FDo i OErase; FDo i (OWriteLine t); FEnd i; FNew name].

Section Save.
Variable allowed : list N -> bool.
Variable name : Str.
Hypothesis Nn : s_str name <> [].
Hypothesis Al : allowed (s_str name) = true.

Lemma open_ok d e fl p : f_open (File name true d false e fl p) = (File name true d true false false p, Ok tt).
Proof. unfold f_open. cbn [filename is_open access]. destruct (s_str name); [congruence|reflexivity]. Qed.
Lemma load_ok c o : o_name o = name -> load allowed c o = File name true (c (s_str name)) (o_open o) (o_eof o) (o_fail o) (o_pos o).
Proof. intros E. unfold load, path. now rewrite E, Al. Qed.
Lemma step_new w : wstep allowed w (FNew name) =
  (FWorld (content w) (set_obj (objs w) (next w) (Some (FObj name true false false 0))) (S (next w)), Ok None).
Proof. cbn [wstep]. unfold construct. rewrite load_ok by reflexivity. cbn [o_open o_eof o_fail o_pos]. rewrite open_ok. reflexivity. Qed.
Lemma step_do w i o ob f x : objs w i = Some ob -> o_name ob = name ->
  f_step (File name true (content w (s_str name)) (o_open ob) (o_eof ob) (o_fail ob) (o_pos ob)) o = (f, x) ->
  wstep allowed w (FDo i o) = (FWorld (set_content (content w) (s_str name) (disk f)) (set_obj (objs w) i (Some (unload f))) (next w), x).
Proof. intros O E H. cbn [wstep]. rewrite O, load_ok, H by exact E. unfold path. now rewrite E. Qed.

Lemma step_end w i ob : objs w i = Some ob -> wstep allowed w (FEnd i) = (FWorld (content w) (set_obj (objs w) i None) (next w), Ok None).
Proof. intros O. cbn [wstep]. now rewrite O. Qed.
Lemma saved w t :
  let w' := fst (wrun allowed w (save name t (next w))) in
  snd (wrun allowed w (save name t (next w))) = [Ok None; Ok None; Ok None; Ok None; Ok None] /\
  content w' (s_str name) = t ++ [10] /\ (forall p, p <> s_str name -> content w' p = content w p) /\
  objs w' (S (next w)) = Some (FObj name true false false 0) /\
  (forall j, (j < next w)%nat -> objs w' j = objs w j).
Proof.
  assert (Er : forall d, f_step (File name true d true false false 0) OErase = (File name true [] true false false 0, Ok None)).
  { intros d. cbn [f_step]. unfold f_erase, f_close, set_state. cbn [filename access eofbit failbit disk position].
    unfold set_disk. cbn [filename access eofbit failbit disk position is_open]. rewrite open_ok. destruct (s_str name); [congruence|reflexivity]. }
  assert (R : exists m, wrun allowed w (save name t (next w)) =
    (FWorld (set_content (set_content (content w) (s_str name) []) (s_str name) (t ++ [10]))
       (set_obj m (S (next w)) (Some (FObj name true false false 0))) (S (S (next w))), [Ok None; Ok None; Ok None; Ok None; Ok None]) /\
    forall j, (j < next w)%nat -> m j = objs w j).
  { unfold save. cbn [wrun]. rewrite step_new.
    erewrite step_do; [|cbn [objs]; unfold set_obj; rewrite Nat.eqb_refl; reflexivity|reflexivity|apply Er].
    erewrite step_do; [|cbn [objs]; unfold set_obj; rewrite Nat.eqb_refl; reflexivity|reflexivity|cbn [f_step]; unfold f_write_line, ensure_open, put;
      cbn [unload content disk o_open o_eof o_fail o_pos is_open eofbit failbit orb]; rewrite set_same; reflexivity].
    erewrite step_end; [|cbn [objs]; unfold set_obj; rewrite Nat.eqb_refl; reflexivity].
    rewrite step_new. cbn [objs content next disk set_disk]. eexists. split; [reflexivity|].
    intros j Lj. unfold set_obj. destruct (Nat.eqb_spec j (next w)); [lia|reflexivity]. }
  destruct R as (m & -> & Hm). cbn [fst snd objs content next].
  split; [reflexivity|]. split; [now rewrite set_same|]. split; [intros p Hp; now rewrite !set_other by exact Hp|].
  split; [unfold set_obj; now rewrite Nat.eqb_refl|]. intros j Lj. unfold set_obj.
  destruct (Nat.eqb_spec j (S (next w))); [lia|]. now apply Hm.
Qed.
End Save.

(** A text saved with WriteLine is read and parsed as it stands. *)
Lemma loads {F} (zero : F) stod t (v : json F) allowed w name : text t -> doc_parse zero stod t = Ok {| root := v; error := NoError |} ->
  s_str name <> [] -> allowed (s_str name) = true ->
  exists u, let (w', rs) := wrun allowed w (save name (s_str t) (next w)) in
    rs = [Ok None; Ok None; Ok None; Ok None; Ok None] /\
    snd (wstep allowed w' (FDo (S (next w)) (OReadLine 0))) = Ok (Some u) /\
    doc_parse zero stod u = Ok {| root := v; error := NoError |} /\
    doc_parse_bytes zero stod (content w' (s_str name)) = Ok {| root := v; error := NoError |} /\
    (forall p, p <> s_str name -> content w' p = content w p).
Proof.
  intros T D Nn Al. exists (t ++ [ch 10]).
  pose proof (saved allowed name Nn Al w (s_str t)) as S. cbv zeta in S.
  destruct (wrun allowed w (save name (s_str t) (next w))) as [w' rs]. cbn [fst snd] in S. destruct S as (-> & C & Fr & O & _).
  assert (Tt : text (t ++ [ch 10])) by (apply Forall_app; split; [exact T|apply lf_text]).
  assert (Cc : content w' (s_str name) = concat (t ++ [ch 10])) by (rewrite C, (s_str_text t T), concat_app; reflexivity).
  assert (D1 : doc_parse zero stod (t ++ [ch 10]) = Ok {| root := v; error := NoError |})
    by (apply trailing_space; [exact T|apply lf_text|constructor; [exact lf_ws|constructor]|exact D]).
  split; [reflexivity|]. split; [|split; [exact D1|split; [|exact Fr]]].
  - cbn [wstep]. rewrite O. cbn [f_step].
    assert (At : at_byte (load allowed (content w') (FObj name true false false 0)) 0) by (repeat split).
    assert (N0 : ~ In 0 (concat (t ++ [ch 10]))).
    { intros I. apply in_concat in I as (c & Ic & I). unfold text in Tt. rewrite Forall_forall in Tt. destruct (Tt c Ic) as [U N]. apply N.
      apply unit_ascii; [exact U|lia|exact I]. }
    destruct (read_line_step _ 0%nat 0 (concat (t ++ [ch 10])) At N0) as [_ H].
    destruct H as (f1 & R & _); [cbn; exact Cc|]. rewrite R. cbn [fst snd]. rewrite (string_of_std_text _ Tt). reflexivity.
  - unfold doc_parse_bytes. rewrite Cc, (string_of_std_text _ Tt). exact D1.
Qed.

(** C136.  What was saved comes back: with ReadLine up to a NUL character, and by parsing the stream. *)
Theorem C136_save_load_partial : forall (F : Type) (zero : F) f_print stod pretty indent (v : json F) allowed w name,
  printable (fun b x => stod b = Converted x) f_print v -> j_type v = CObject -> literals_in_ascii (parts v) ->
  s_str name <> [] -> allowed (s_str name) = true ->
  exists t u, to_string f_print pretty indent v = Ok t /\
    let (w', rs) := wrun allowed w (save name (s_str t) (next w)) in
    rs = [Ok None; Ok None; Ok None; Ok None; Ok None] /\
    snd (wstep allowed w' (FDo (S (next w)) (OReadLine 0))) = Ok (Some u) /\
    doc_parse zero stod u = Ok {| root := v; error := NoError |} /\
    doc_parse_bytes zero stod (content w' (s_str name)) = Ok {| root := v; error := NoError |} /\
    (forall p, p <> s_str name -> content w' p = content w p).
Proof.
  intros F zero f_print stod pretty indent v allowed w name P Ty A Nn Al.
  destruct (round_trip zero f_print stod pretty indent v P Ty A) as (t & E & T & D).
  destruct (loads zero stod t v allowed w name T D Nn Al) as (u & H). exists t, u. split; [exact E|exact H].
Qed.
Print Assumptions C136_save_load_partial.
(** What comes back of a document in general, with strings holding escapes, repeated keys and floats (see C58_reload_partial). *)
Theorem C136_reload_partial : forall (F : Type) (zero : F) f_print stod pretty indent (v v' : json F) allowed w name,
  comes_back hex_of (JsonParseProofs.real_of stod) f_print v v' -> j_type v = CObject -> literals_in_ascii (parts v) ->
  s_str name <> [] -> allowed (s_str name) = true ->
  exists t u, to_string f_print pretty indent v = Ok t /\
    let (w', rs) := wrun allowed w (save name (s_str t) (next w)) in
    rs = [Ok None; Ok None; Ok None; Ok None; Ok None] /\
    snd (wstep allowed w' (FDo (S (next w)) (OReadLine 0))) = Ok (Some u) /\
    doc_parse zero stod u = Ok {| root := v'; error := NoError |} /\
    doc_parse_bytes zero stod (content w' (s_str name)) = Ok {| root := v'; error := NoError |} /\
    (forall p, p <> s_str name -> content w' p = content w p).
Proof.
  intros F zero f_print stod pretty indent v v' allowed w name P Ty A Nn Al.
  destruct (reload zero f_print stod pretty indent v v' P Ty A) as (t & E & T & D).
  destruct (loads zero stod t v' allowed w name T D Nn Al) as (u & H). exists t, u. split; [exact E|exact H].
Qed.
Print Assumptions C136_reload_partial.
(** Read cannot load any of them. *)
Theorem C136_read_refuted : forall (F : Type) (zero : F) f_print stod pretty indent (v : json F) allowed w name,
  printable (fun b x => stod b = Converted x) f_print v -> j_type v = CObject -> literals_in_ascii (parts v) ->
  s_str name <> [] -> allowed (s_str name) = true ->
  exists t, to_string f_print pretty indent v = Ok t /\
    snd (wstep allowed (fst (wrun allowed w (save name (s_str t) (next w)))) (FDo (S (next w)) ORead)) = UB.
Proof.
  intros F zero f_print stod pretty indent v allowed w name P Ty A Nn Al.
  destruct (round_trip zero f_print stod pretty indent v P Ty A) as (t & E & T & D). exists t. split; [exact E|].
  destruct (saved allowed name Nn Al w (s_str t)) as (_ & C & _ & O & _). cbn [wstep]. rewrite O. cbn [f_step].
  assert (Tt : text (t ++ [ch 10])) by (apply Forall_app; split; [exact T|apply lf_text]).
  pose proof (read_text_ub (load allowed (content (fst (wrun allowed w (save name (s_str t) (next w))))) (FObj name true false false 0)) (t ++ [ch 10])) as R.
  specialize (R ltac:(repeat split) Tt). cbn [fst snd]. rewrite R; [reflexivity|].
  cbn [load disk]. unfold path. cbn [o_name]. rewrite C, (s_str_text t T), concat_app. reflexivity.
Qed.
Print Assumptions C136_read_refuted.
(** {"a":[1,null]} over an old content, compact and pretty *)
Example C136_ex :
  let v : json unit := JObj [([ch 97], JArr [JInt 1; JNull])] in
  printable (fun b x => False) (fun _ => []) v /\ literals_in_ascii (parts v) /\
  content (fst (wrun (fun _ => true) (wstart ex_content) (save [ch 102] (lit "{""a"":[1,null]}") 0))) [102] = lit "{""a"":[1,null]}" ++ [10] /\
  doc_parse tt (fun _ => ConvInvalid) (chars_of (lit "{""a"":[1,null]}" ++ [10])) = Ok {| root := v; error := NoError |}.
Proof.
  cbv zeta. split; [|split; [|split; vm_compute; reflexivity]].
  - apply pr_obj; [repeat constructor; intros []|]. constructor; [|constructor]. cbn [fst snd].
    split; [constructor; [apply JsonDocProofs.ascii_text_char; lia|constructor]|]. split; [intros [H|[]]; discriminate|].
    apply pr_arr. constructor; [apply pr_int; unfold int64; lia|]. constructor; [apply pr_null|constructor].
  - intros a b H. destruct a as [|x a]; [constructor|]. destruct a as [|y a]; [|exfalso; destruct a; discriminate H].
    injection H as <- _. constructor; [|constructor]. cbn. constructor; [|constructor]. exists 97. split; [reflexivity|lia].
Qed.
(** The hypothesis of C136_reload_partial is met by the document of C58_reload_ex; here what its file holds is parsed:
    the escape has swallowed the y, the float is cut. *)
Example C136_reload_ex :
  let v : json bool := JObj [([ch 97], JStr (chars_of (lit "x\ny"))); ([ch 98], JFloat true)] in
  to_string (fun _ => lit "2.5") false 0 v = Ok (chars_of (lit "{""a"":""x\ny"",""b"":2.5}")) /\
  content (fst (wrun (fun _ => true) (wstart ex_content) (save [ch 102] (lit "{""a"":""x\ny"",""b"":2.5}") 0))) [102] =
    lit "{""a"":""x\ny"",""b"":2.5}" ++ [10] /\
  doc_parse_bytes true (fun _ => ConvInvalid) (lit "{""a"":""x\ny"",""b"":2.5}" ++ [10]) =
    Ok {| root := JObj [([ch 97], JStr [ch 120; ch 10]); ([ch 98], JInt 2)]; error := NoError |}.
Proof. cbv zeta. repeat split; vm_compute; reflexivity. Qed.
