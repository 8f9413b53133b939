(** Properties C58-C65, C101: parsing and printing JSON.  [F] is any type of floating-point numbers, [zero]
    its default value, [f_print] how one is printed and [stod] how one is read. *)
From Coq Require Import String Ascii List NArith ZArith Bool Lia.
From Verif Require Import Outcome CharModel StrModel Dec JsonData JsonParse SpecJson SpecStr SpecInt SpecUtf8 SpecChar SpecJsonText
  StrProofs JsonDataProofs JsonParseSafe JsonParseProofs JsonGrammar JsonPrintProofs JsonCalm JsonDocProofs.
Import ListNotations.
Local Open Scope list_scope.

(** An ASCII literal, and é. *)
Definition str (t : string) : Str := chars_of (lit t).
Definition e_acute : Chr := [0xC3; 0xA9]%N.

(** C58.  Holds for objects whose strings have no quotation marks and backslashes, whose keys have no quotation
    marks, whose literals are not preceded by characters outside ASCII and whose floating-point numbers print with an
    exponent or plus sign (and are read back by stod); compact or pretty, any indent. *)
Theorem C58_round_trip_partial : forall (F : Type) (zero : F) f_print stod pretty indent (v : json F),
  printable (fun b x => stod b = Converted x) f_print v -> j_type v = CObject -> literals_in_ascii (parts v) ->
  exists t, to_string f_print pretty indent v = Ok t /\ (forall e, doc_to_string f_print {| root := v; error := e |} pretty indent = Ok t) /\
  text t /\ doc_parse zero stod t = Ok {| root := v; error := NoError |}.
Proof.
  intros F zero f_print stod pretty indent v P Ty A. destruct (round_trip zero f_print stod pretty indent v P Ty A) as (t & T & R). exists t. auto.
Qed.
Print Assumptions C58_round_trip_partial.
(** More generally, what a document whose texts have no raw quotation marks comes back as: escapes are undone (and
    swallow a character), floats written without exponent are cut to integers. *)
Theorem C58_reload_partial : forall (F : Type) (zero : F) f_print stod pretty indent (v v' : json F),
  comes_back hex_of (real_of stod) f_print v v' -> j_type v = CObject -> literals_in_ascii (parts v) ->
  exists t, to_string f_print pretty indent v = Ok t /\ (forall e, doc_to_string f_print {| root := v; error := e |} pretty indent = Ok t) /\
  text t /\ doc_parse zero stod t = Ok {| root := v'; error := NoError |}.
Proof.
  intros F zero f_print stod pretty indent v v' P Ty A. destruct (reload zero f_print stod pretty indent v v' P Ty A) as (t & T & R). exists t. auto.
Qed.
Print Assumptions C58_reload_partial.
Example C58_reload_ex : forall stod, comes_back hex_of (real_of stod) (fun _ : bool => lit "2.5")
  (JObj [(str "a", JStr (str "x\ny")); (str "b", JFloat true)]) (JObj [(str "a", JStr [ch 120%N; ch 10%N]); (str "b", JInt 2)]).
Proof.
  intros stod. apply (cb_obj _ _ _ [(str "a", JStr (str "x\ny")); (str "b", JFloat true)] [(str "a", JStr [ch 120%N; ch 10%N]); (str "b", JInt 2)]).
  assert (T : forall l, Forall (fun b => 0 < b < 128)%N l -> text (chars_of l)).
  { intros l H. apply Forall_map. eapply Forall_impl; [|exact H]. intros b B. now apply JsonDocProofs.ascii_text_char. }
  assert (K : forall b, (0 < b < 128)%N -> b <> 34%N -> text [ch b] /\ ~ In (ch 34%N) [ch b]).
  { intros b B Q. split; [apply (T [b]); now repeat constructor|]. intros [E|[]]. now injection E. }
  constructor; [|constructor; [|constructor]]; (split; [reflexivity|]); cbn [fst snd].
  - destruct (K 97%N) as [K1 K2]; [easy..|]. repeat match goal with |- _ /\ _ => split end; [exact K1|exact K2|].
    apply (cb_str _ _ _ _ (concat [ch 120%N; ch 10%N])); [apply (T (lit "x\ny")); vm_compute; repeat constructor| |apply (T [120; 10]%N); repeat constructor; lia|now left].
    apply (ls_plain _ (ch 120%N)); [discriminate|discriminate|]. apply (ls_escape _ 110%N 10%N (ch 121%N) [] []); constructor.
  - destruct (K 98%N) as [K1 K2]; [easy..|]. repeat match goal with |- _ /\ _ => split end; [exact K1|exact K2|].
    assert (D : forall b, ascii_digit b -> exists v, decimal_digit (utf8_value (ch b)) v).
    { intros b B. exists (b - 48)%N. unfold ascii_digit in B. rewrite ascii_value by lia. split; [lia|]. exists 48%N. split; [now left|lia]. }
    apply (cb_plain _ _ _ _ (ch 50%N) [ch 46%N; ch 53%N] 2%Z); [reflexivity|left; apply D; unfold ascii_digit; lia| | |vm_compute; repeat constructor| |unfold int64; lia].
    + constructor; [left; apply D; unfold ascii_digit; lia|]. constructor; [right; now left|]. constructor; [left; apply D; unfold ascii_digit; lia|constructor].
    + intros [H|[H|H]]; cbn in H; intuition discriminate.
    + apply (li_pos [ch 50%N] [ch 46%N; ch 53%N]); [discriminate|constructor; [exists 50%N; split; [reflexivity|unfold ascii_digit; lia]|constructor]|].
      intros d r [= <- _] (b & [= <-] & B). unfold ascii_digit in B. lia.
Qed.
(** A string with quotation marks comes back as other members. *)
Theorem C58_injection_refuted : forall (F : Type) (zero : F) (f_print : F -> list N) stod, let v := JObj [(str "a", JStr (str """, ""b"":""x"))] in
  exists t, to_string f_print false 4 v = Ok t /\
  doc_parse zero stod t = Ok {| root := JObj [(str "a", JStr []); (str "b", JStr (str "x"))]; error := NoError |}.
Proof. intros. exists (str "{""a"":"""", ""b"":""x""}"). split; vm_compute; reflexivity. Qed.
Print Assumptions C58_injection_refuted.
(** Backslashes, keys with quotation marks, literals after é and roots that are not objects do not come back; a
    string that ends with a backslash is undefined behaviour. *)
Theorem C58_not_read_back_refuted : forall (F : Type) (zero : F) (f_print : F -> list N) stod,
  let back (v : json F) := t <- to_string f_print false 4 v ;; doc_parse zero stod t in
  back (JObj [(str "a", JStr (str "\nx"))]) = Ok {| root := JObj [(str "a", JStr [ch 10%N])]; error := NoError |} /\
  back (JObj [(str "a", JStr (str "\"))]) = UB /\
  back (JObj [(str "a""b", JNull)]) = Ok {| root := JNull; error := MissingColon |} /\
  back (JObj [([e_acute], JBool true)]) = Ok {| root := JNull; error := UnexpectedCharacter |} /\
  back (JArr [JInt 1]) = Ok {| root := JNull; error := InvalidJson |}.
Proof. intros. repeat split; vm_compute; reflexivity. Qed.
Print Assumptions C58_not_read_back_refuted.
(** A number that prints as 1.5 is read back as the integer 1. *)
Theorem C58_float_refuted : forall (F : Type) (zero x : F) f_print stod, f_print x = lit "1.5" ->
  exists t, to_string f_print false 4 (JObj [(str "a", JFloat x)]) = Ok t /\
  doc_parse zero stod t = Ok {| root := JObj [(str "a", JInt 1)]; error := NoError |}.
Proof.
  intros F zero x f_print stod E. exists (str "{""a"":1.5}"). split; [|vm_compute; reflexivity].
  unfold to_string, make_output. cbn -[string_of_std dec_of_Z]. rewrite E. vm_compute. reflexivity.
Qed.
Print Assumptions C58_float_refuted.
Definition C58_value : json bool :=
  JObj [(str "a", JArr [JInt (-12); JNull; JObj []; JFloat true]); (str "b", JBool false); ([e_acute], JStr [e_acute; [0xE2; 0x82; 0xAC]%N])].
Definition C58_print (b : bool) : list N := if b then lit "1e+10" else lit "2e-7".
Definition C58_stod (b : list N) : conversion bool :=
  if key_dec (chars_of b) (str "1e+10") then Converted true else if key_dec (chars_of b) (str "2e-7") then Converted false else ConvInvalid.
Example C58_ex : printable (fun b x => C58_stod b = Converted x) C58_print C58_value /\ j_type C58_value = CObject /\ literals_in_ascii (parts C58_value) /\
  omap (fun t => concat t) (to_string C58_print false 2 C58_value) =
    Ok (lit "{""a"":[-12,null,{},1e+10],""b"":false,""" ++ e_acute ++ lit """:""" ++ concat [e_acute; [0xE2; 0x82; 0xAC]%N] ++ lit """}").
Proof.
  split; [|split; [reflexivity|split; [|vm_compute; reflexivity]]].
  - assert (NQ : forall u, forallb (fun c => negb (if list_eq_dec N.eq_dec c (ch 0x22%N) then true else false)) u = true -> ~ In (ch 0x22%N) u).
    { intros u H I. rewrite forallb_forall in H. apply H in I. destruct (list_eq_dec N.eq_dec (ch 0x22%N) (ch 0x22%N)); [discriminate|congruence]. }
    assert (NB : forall u, forallb (fun c => negb (if list_eq_dec N.eq_dec c (ch 0x5C%N) then true else false)) u = true -> ~ In (ch 0x5C%N) u).
    { intros u H I. rewrite forallb_forall in H. apply H in I. destruct (list_eq_dec N.eq_dec (ch 0x5C%N) (ch 0x5C%N)); [discriminate|congruence]. }
    assert (A : forall b, (0 < b < 128)%N -> text_char (ch b)) by (intros b H; split; [apply unit1; lia|intros [= ->]; lia]).
    assert (E : text_char e_acute) by (split; [apply unit2; unfold continuation; lia|discriminate]).
    apply pr_obj.
    + cbn. repeat constructor; cbn; intuition discriminate.
    + constructor; [|constructor; [|constructor; [|constructor]]]; cbn [fst snd].
      * split; [constructor; [apply (A 97%N); lia|constructor]|]. split; [now apply NQ|]. apply pr_arr.
        constructor; [apply pr_int; unfold int64; lia|]. constructor; [apply pr_null|]. constructor; [apply pr_obj; constructor|].
        constructor; [|constructor]. eapply pr_float; [reflexivity|..].
        -- left. exists 1%N. split; [lia|]. exists 48%N. split; [now left|reflexivity].
        -- assert (D : forall b, (48 <= b <= 57)%N -> lib_num_char (ch b)).
           { intros b B. left. exists (b - 48)%N. rewrite ascii_value. split; [lia|]. exists 48%N. split; [now left|lia]. }
           apply Forall_cons; [apply (D 49%N); lia|]. apply Forall_cons; [right; cbn; tauto|]. apply Forall_cons; [right; cbn; tauto|].
           apply Forall_cons; [apply (D 49%N); lia|]. apply Forall_cons; [apply (D 48%N); lia|constructor].
        -- right. left. cbn. tauto.
        -- repeat constructor.
        -- reflexivity.
      * split; [constructor; [apply (A 98%N); lia|constructor]|]. split; [now apply NQ|apply pr_bool].
      * split; [constructor; [exact E|constructor]|]. split; [now apply NQ|].
        apply pr_str; [|now apply NQ|now apply NB]. constructor; [exact E|]. constructor; [|constructor].
        split; [apply unit3; unfold continuation; lia|discriminate].
  - apply (literals_first [PText (str "a"); PLiteral; PText (str "b"); PLiteral] [PText [e_acute]; PText [e_acute; [0xE2; 0x82; 0xAC]%N]]).
    + repeat (apply Forall_cons; [cbn; repeat constructor; eexists; (split; [reflexivity|cbn; lia])|]). constructor.
    + cbn. intuition discriminate.
Qed.

(** C59.  Parse returns, throws or misbehaves, but never runs on; [NoFuel] stands for running out of steps or nesting. *)
Theorem C59_terminates : forall (F : Type) (zero : F) stod s, doc_parse zero stod s <> NoFuel.
Proof. intros. apply doc_parse_total. Qed.
Print Assumptions C59_terminates.
(** More nesting than the text has characters is never used: allowing more changes nothing. *)
Theorem C59_nesting : forall (F : Type) (zero : F) stod s depth, (length s <= depth)%nat ->
  parser_parse zero stod s depth = parser_parse zero stod s (length s) /\ parser_parse zero stod s depth <> NoFuel.
Proof. intros F zero stod s depth H. split; [now apply parser_any_depth|now apply parser_total]. Qed.
Print Assumptions C59_nesting.
(** The same from the bytes of a stream. *)
Theorem C59_stream : forall (F : Type) (zero : F) stod bytes, doc_parse_bytes zero stod bytes <> NoFuel.
Proof.
  intros F zero stod b. unfold doc_parse_bytes. apply bind_NoFuel; [apply string_of_cstr_total|]. intros s _. apply doc_parse_total.
Qed.
Print Assumptions C59_stream.
(** Nesting does use up the allowance: three levels need three. *)
Example C59_ex : let s := str "{""a"":[{}]}" in
  parser_parse tt (fun _ => ConvInvalid) s 2 = NoFuel /\
  parser_parse tt (fun _ => ConvInvalid) s 3 = Ok (JObj [(str "a", JArr [JObj []])], NoError).
Proof. split; vm_compute; reflexivity. Qed.

(** C60.  Whenever Parse returns: with an error the root is Null, without one it is an Object; no key occurs twice. *)
Theorem C60_result_partial : forall (F : Type) (zero : F) stod s d, doc_parse zero stod s = Ok d ->
  (doc_has_error d = true -> root d = JNull) /\ (doc_has_error d = false -> error d = NoError /\ j_type (root d) = CObject) /\ unique_keys (root d).
Proof.
  intros F zero stod s d H. destruct (doc_parse_cases zero stod s d H) as (A & B & C). unfold doc_has_error.
  split; [|split; [|exact C]]; destruct (error d); try discriminate; intros _; try (apply A; discriminate). split; [reflexivity|now apply B].
Qed.
Print Assumptions C60_result_partial.
(** An error once set is never cleared by what follows. *)
Theorem C60_sticky_partial : forall (F : Type) (zero : F) stod s depth pos err v p e, (length s <= depth + pos)%nat ->
  err <> NoError -> parse_value zero stod s depth pos err = Ok (v, p, e) -> e <> NoError.
Proof.
  intros F zero stod s depth pos err v p e L N H. destruct (parse_value_good zero stod s depth pos err L) as [_ G].
  destruct (G v p e H) as (_ & E & _). auto.
Qed.
Print Assumptions C60_sticky_partial.
(** A text that is not in the library's grammar is never accepted. *)
Theorem C60_rejected_partial : forall (F : Type) (zero : F) stod s d, text s -> (forall v, ~ lib_document hex_of (real_of stod) s v) ->
  doc_parse zero stod s = Ok d -> doc_has_error d = true /\ root d = JNull.
Proof.
  intros F zero stod s d T N H. destruct (doc_parse_cases zero stod s d H) as (A & _). unfold doc_has_error.
  destruct d as [v []]; cbn in *; try (split; [reflexivity|apply A; discriminate]). exfalso. apply (N v). apply (doc_accepts zero stod s T v) in H. exact H.
Qed.
Print Assumptions C60_rejected_partial.
(** Not reported at all: undefined behaviour, or an exception, instead of an error. *)
Theorem C60_unreported_refuted : forall (F : Type) (zero : F) stod,
  doc_parse zero stod (str "{""a"":{}") = UB /\
  doc_parse zero stod (doc1 (str "a") (quoted (ch 0x5C%N :: str "u0080x"))) = Throw ERuntimeError.
Proof. intros. split; vm_compute; reflexivity. Qed.
Print Assumptions C60_unreported_refuted.
Example C60_ex : doc_parse tt (fun _ => ConvInvalid) (str "{""a"":1,""b"":[2,x]}") = Ok {| root := JNull; error := UnexpectedCharacter |} /\
  doc_parse tt (fun _ => ConvInvalid) (str "{""a"":1,""a"":2}") = Ok {| root := JObj [(str "a", JInt 2)]; error := NoError |}.
Proof. split; vm_compute; reflexivity. Qed.

(** C61.  Blank texts, documents missing their last brace and strings ending with an escape make Parse read past the end. *)
Theorem C61_blank_refuted : forall (F : Type) (zero : F) stod s, text s -> s <> [] -> ws lib_ws s -> doc_parse zero stod s = UB.
Proof. intros. now apply blank_undefined. Qed.
Print Assumptions C61_blank_refuted.
(** [{"k":{...}] with anything between the inner braces that makes it a good object. *)
Theorem C61_unclosed_refuted : forall (F : Type) (zero : F) stod k m v, text k -> ~ In (ch 0x22%N) k -> text m ->
  value_text lib_ws lib_key (lib_simple (concat (doc1 k (ch 0x7B%N :: m))) hex_of (real_of stod)) (length k + 4) (ch 0x7B%N :: m ++ [ch 0x7D%N]) v ->
  doc_parse zero stod (doc1 k (ch 0x7B%N :: m)) = UB.
Proof. intros F. exact (@unclosed_undefined F). Qed.
Print Assumptions C61_unclosed_refuted.
Theorem C61_escape_at_end_refuted : forall (F : Type) (zero : F) stod k u e b, text k -> ~ In (ch 0x22%N) k -> text u -> Forall plain u -> json_esc e b ->
  doc_parse zero stod (doc1 k (quoted (u ++ [ch 0x5C%N; ch e]))) = UB.
Proof. intros F. exact (@escape_at_end F). Qed.
Print Assumptions C61_escape_at_end_refuted.
(** Every accepted text is parsed without reading outside. *)
Theorem C61_accepted_partial : forall (F : Type) (zero : F) stod s v, text s -> lib_document hex_of (real_of stod) s v ->
  doc_parse zero stod s = Ok {| root := v; error := NoError |}.
Proof. intros F zero stod s v T H. now apply doc_accepts. Qed.
Print Assumptions C61_accepted_partial.
(** So is every text whose first character that is not white space is not an opening brace, or whose last one is
    not a closing brace. *)
Theorem C61_no_object_partial : forall (F : Type) (zero : F) stod s w c r, text s -> s = w ++ c :: r -> ws lib_ws w -> ~ lib_ws c ->
  c <> ch 0x7B%N \/ (exists x y z, r = x ++ y :: z /\ ws lib_ws z /\ ~ lib_ws y /\ y <> ch 0x7D%N) ->
  doc_parse zero stod s = Ok {| root := JNull; error := InvalidJson |}.
Proof. intros F. exact (@no_object F). Qed.
Print Assumptions C61_no_object_partial.
(** No exception escapes on a text without the escape u. *)
Theorem C61_no_exception_partial : forall (F : Type) (zero : F) stod s x, text s ->
  (forall i, ~ occurs_at [ch 0x5C%N; ch 0x75%N] s i) -> doc_parse zero stod s <> Throw x.
Proof. intros F zero stod s x T U. now apply calm_doc. Qed.
Print Assumptions C61_no_exception_partial.
Example C61_ex : forall (F : Type) (zero : F) stod, doc_parse zero stod (str " ") = UB /\ doc_parse zero stod (str "{") = UB /\
  doc_parse zero stod (str "{""a"":{}") = UB /\ doc_parse zero stod (str "{""a"":""b}") = UB /\
  doc_parse zero stod (str "{""a"":""\n""}") = UB /\ doc_parse zero stod (str "[1]") = Ok {| root := JNull; error := InvalidJson |} /\
  doc_parse zero stod (str "{""a"":1] ") = Ok {| root := JNull; error := InvalidJson |} /\
  doc_parse zero stod (str "{""a"":[{}, ""x\ty""]}") = Ok {| root := JObj [(str "a", JArr [JObj []; JStr (str "x" ++ [ch 9%N])])]; error := NoError |}.
Proof. intros. repeat split; vm_compute; reflexivity. Qed.

(** C62.  What exactly is accepted. *)
Theorem C62_accepted_partial : forall (F : Type) (zero : F) stod s v, text s ->
  (doc_parse zero stod s = Ok {| root := v; error := NoError |} <-> lib_document hex_of (real_of stod) s v).
Proof. intros F zero stod s v T. now apply doc_accepts. Qed.
Print Assumptions C62_accepted_partial.
(** Anything may follow an accepted document, if a closing brace comes after it. *)
Theorem C62_garbage_refuted : forall (F : Type) (zero : F) stod s v x w, text s -> text x -> text w -> ws lib_ws w ->
  doc_parse zero stod s = Ok {| root := v; error := NoError |} ->
  doc_parse zero stod (s ++ x ++ ch 0x7D%N :: w) = Ok {| root := v; error := NoError |}.
Proof. intros F. exact (@garbage F). Qed.
Print Assumptions C62_garbage_refuted.
(** An accepted text that is not JSON. *)
Theorem C62_not_json_refuted : forall (F : Type) (zero : F) stod,
  doc_parse zero stod (str "{}}") = Ok {| root := JObj []; error := NoError |} /\ forall v : json F, ~ std_object_text (str "{}}") v.
Proof. intros F zero stod. split; [vm_compute; reflexivity|]. exact not_std. Qed.
Print Assumptions C62_not_json_refuted.
Example C62_ex : forall (F : Type) (zero : F) stod,
  std_object_text (str "{""a"": 1}") (JObj [(str "a", @JInt F 1)]) /\
  doc_parse zero stod (str "{""a"": 1}") = Ok {| root := JObj [(str "a", JInt 1)]; error := NoError |} /\
  doc_parse zero stod (str "{""a"": 01.2.3} x }") = Ok {| root := JObj [(str "a", JInt 1)]; error := NoError |}.
Proof.
  intros. split; [|split; vm_compute; reflexivity]. exists [], (str "{""a"": 1}"), []. split; [reflexivity|]. split; [constructor|]. split; [constructor|].
  split; [|reflexivity]. change (JObj [(str "a", JInt 1)]) with (JObj (F := F) (collect [(str "a", JInt 1)])).
  apply (vt_object _ _ _ _ [] (str """a"": 1")); [constructor|]. apply ms_one.
  apply (mt_member _ _ _ _ (str "a") (str "a") [] (str " ") (str "1") (JInt 1) []); [|constructor| |constructor|].
  - apply ss_plain; [|constructor]. split; [split; [apply (unit1 97%N); lia|discriminate]|]. split; [cbn; lia|split; discriminate].
  - repeat constructor.
  - apply vt_simple. apply sd_int.
    + exists [], (str "1"). split; [reflexivity|]. split; [now left|]. right. exists (ch 49%N), []. split; [reflexivity|]. split; [discriminate|].
      constructor; [exists 49%N; unfold ascii_digit; split; [reflexivity|lia]|constructor].
    + change 1%Z with (digits_value [49%N]). apply num_plain; [discriminate|]. constructor; [unfold ascii_digit; lia|constructor].
Qed.

(** C63.  A literal after ASCII text only is recognised, at every position of every text. *)
Theorem C63_ascii_partial : forall (F : Type) (zero : F) stod s pre post w (v : json F) depth err, text s -> s = pre ++ chars_of w ++ post ->
  Forall ascii_char pre ->
  (w, v) = (lit "true", JBool true) \/ (w, v) = (lit "false", JBool false) \/ (w, v) = (lit "null", JNull) -> (length s <= depth + length pre)%nat ->
  parse_value zero stod s depth (length pre) err = Ok (v, (length pre + length w)%nat, err).
Proof. intros F. exact (@literal_value F). Qed.
Print Assumptions C63_ascii_partial.
Theorem C63_document_partial : forall (F : Type) (zero : F) stod k w (v : json F), text k -> ~ In (ch 0x22%N) k -> Forall ascii_char k ->
  (w, v) = (lit "true", JBool true) \/ (w, v) = (lit "false", JBool false) \/ (w, v) = (lit "null", JNull) ->
  doc_parse zero stod (doc1 k (chars_of w)) = Ok {| root := JObj [(k, v)]; error := NoError |}.
Proof. intros F. exact (@literal_document F). Qed.
Print Assumptions C63_document_partial.
(** In general what counts is the bytes at the offset that equals the character position, wherever they belong. *)
Theorem C63_offset_refuted : forall (F : Type) (zero : F) stod s p c depth err, text s -> nth_error s p = Some c -> c = ch 0x74%N \/ c = ch 0x66%N ->
  (occurs_at (lit "true") (concat s) p -> parse_value zero stod s depth p err = Ok (JBool true, (p + 4)%nat, err)) /\
  (occurs_at (lit "false") (concat s) p -> parse_value zero stod s depth p err = Ok (JBool false, (p + 5)%nat, err)) /\
  (~ occurs_at (lit "true") (concat s) p -> ~ occurs_at (lit "false") (concat s) p -> parse_value zero stod s depth p err = Ok (JNull, p, InvalidValue)).
Proof. intros F. exact (@literal_offset F). Qed.
Print Assumptions C63_offset_refuted.
(** After é the literal is rejected; after a longer key true is read as false. *)
Theorem C63_after_multibyte_refuted : forall (F : Type) (zero : F) stod,
  doc_parse zero stod (doc1 [e_acute] (str "true")) = Ok {| root := JNull; error := UnexpectedCharacter |} /\
  doc_parse zero stod (doc1 [e_acute] (str "null")) = Ok {| root := JNull; error := UnexpectedCharacter |} /\
  (let k := repeat e_acute 7 ++ str "false" in
   doc_parse zero stod (doc1 k (str "true ")) = Ok {| root := JObj [(k, JBool false)]; error := NoError |}).
Proof. intros. repeat split; vm_compute; reflexivity. Qed.
Print Assumptions C63_after_multibyte_refuted.
Example C63_ex : forall (F : Type) (zero : F) stod, doc_parse zero stod (str "{""k"" : [ true,false,null ] }") =
  Ok {| root := JObj [(str "k", JArr [JBool true; JBool false; JNull])]; error := NoError |}.
Proof. intros. vm_compute. reflexivity. Qed.

(** C64.  An integer within 64 bits parses to its value. *)
Theorem C64_integer_partial : forall (F : Type) (zero : F) stod k i z, text k -> ~ In (ch 0x22%N) k -> std_int i -> int_numeral (concat i) z -> int64 z ->
  doc_parse zero stod (doc1 k i) = Ok {| root := JObj [(k, JInt z)]; error := NoError |}.
Proof.
  intros F zero stod k i z Tk Nk I Z R. rewrite <- (app_nil_r i). apply number_in_range; auto. now left.
Qed.
Print Assumptions C64_integer_partial.
(** One outside is an error (an unexpected character, not OutOfRangeError: C101). *)
Theorem C64_out_of_range_partial : forall (F : Type) (zero : F) stod k i f z, text k -> ~ In (ch 0x22%N) k -> std_int i -> std_frac f ->
  int_numeral (concat i) z -> ~ int64 z ->
  doc_parse zero stod (doc1 k (i ++ f)) = Ok {| root := JNull; error := UnexpectedCharacter |}.
Proof. intros F. exact (@number_out_of_range F). Qed.
Print Assumptions C64_out_of_range_partial.
(** A literal with plus sign or exponent is what stod makes of it. *)
Theorem C64_exponent_partial : forall (F : Type) (zero : F) stod k c t x, text k -> ~ In (ch 0x22%N) k -> text (c :: t) ->
  lib_num_start c -> Forall lib_num_char (c :: t) -> has_exponent (c :: t) -> stod (concat (c :: t)) = Converted x ->
  doc_parse zero stod (doc1 k (c :: t)) = Ok {| root := JObj [(k, JFloat x)]; error := NoError |}.
Proof. intros F zero stod k c t x Tk Nk Tt N W X R. apply doc1_accepted; auto. apply vt_simple. now apply lp_real. Qed.
Print Assumptions C64_exponent_partial.
(** A literal with a decimal point and no exponent loses its fraction. *)
Theorem C64_fraction_refuted : forall (F : Type) (zero : F) stod k i f z, text k -> ~ In (ch 0x22%N) k -> std_int i -> std_frac f ->
  int_numeral (concat i) z -> int64 z ->
  doc_parse zero stod (doc1 k (i ++ f)) = Ok {| root := JObj [(k, JInt z)]; error := NoError |}.
Proof. intros F. exact (@number_in_range F). Qed.
Print Assumptions C64_fraction_refuted.
Example C64_ex : forall (F : Type) (zero : F) stod,
  doc_parse zero stod (str "{""k"":-9223372036854775808}") = Ok {| root := JObj [(str "k", JInt (-9223372036854775808))]; error := NoError |} /\
  doc_parse zero stod (str "{""k"":9223372036854775808}") = Ok {| root := JNull; error := UnexpectedCharacter |} /\
  doc_parse zero stod (str "{""k"":-0.75}") = Ok {| root := JObj [(str "k", JInt 0)]; error := NoError |} /\
  std_int (str "-0") /\ std_frac (str ".75") /\ int_numeral (lit "-0") 0.
Proof.
  intros. split; [vm_compute; reflexivity|]. split; [vm_compute; reflexivity|]. split; [vm_compute; reflexivity|]. split; [|split].
  - exists [ch 45%N], [ch 48%N]. split; [reflexivity|]. split; [now right|now left].
  - right. exists (ch 55%N), [ch 53%N]. split; [reflexivity|].
    constructor; [exists 55%N|constructor; [exists 53%N|constructor]]; unfold ascii_digit; (split; [reflexivity|lia]).
  - change 0%Z with (- digits_value [48%N])%Z. apply (num_minus [48%N]); [discriminate|]. constructor; [unfold ascii_digit; lia|constructor].
Qed.

(** C65.  A string without backslash keeps its characters. *)
Theorem C65_plain_partial : forall (F : Type) (zero : F) stod k u, text k -> ~ In (ch 0x22%N) k -> text u -> Forall plain u ->
  doc_parse zero stod (doc1 k (quoted u)) = Ok {| root := JObj [(k, JStr u)]; error := NoError |}.
Proof. intros F. exact (@string_value F). Qed.
Print Assumptions C65_plain_partial.
(** An escape gives the right character, but the character after it is lost, whatever it is. *)
Theorem C65_escape_refuted : forall (F : Type) (zero : F) stod k u e b c w, text k -> ~ In (ch 0x22%N) k -> text u -> Forall plain u ->
  json_esc e b -> text_char c -> text w -> Forall plain w ->
  doc_parse zero stod (doc1 k (quoted (u ++ ch 0x5C%N :: ch e :: c :: w))) = Ok {| root := JObj [(k, JStr (u ++ ch b :: w))]; error := NoError |}.
Proof. intros F. exact (@string_escape F). Qed.
Print Assumptions C65_escape_refuted.
(** So is the one after the escape u, which gives one byte: outside ASCII a read out of bounds, an exception or another character. *)
Theorem C65_unicode_refuted : forall (F : Type) (zero : F) stod,
  let u t := doc_parse zero stod (doc1 (str "k") (quoted (ch 0x5C%N :: str t))) in
  u "u0041BC"%string = Ok {| root := JObj [(str "k", JStr (str "AC"))]; error := NoError |} /\
  u "u00e9x"%string = UB /\ u "u0080x"%string = Throw ERuntimeError /\
  u "u2141x"%string = Ok {| root := JObj [(str "k", JStr (str "A"))]; error := NoError |} /\
  u "/x"%string = Ok {| root := JNull; error := UnexpectedCharacter |}.
Proof. intros. repeat split; vm_compute; reflexivity. Qed.
Print Assumptions C65_unicode_refuted.
Example C65_ex : forall (F : Type) (zero : F) stod,
  doc_parse zero stod (str "{""k"":""a\tbc""}") = Ok {| root := JObj [(str "k", JStr (str "a" ++ ch 9%N :: str "c"))]; error := NoError |} /\
  json_esc 0x74 9 /\ doc_parse zero stod (doc1 (str "k") (quoted [e_acute])) = Ok {| root := JObj [(str "k", JStr [e_acute])]; error := NoError |}.
Proof. intros. split; [vm_compute; reflexivity|]. split; [constructor|vm_compute; reflexivity]. Qed.

(** C101.  Only seven of the fourteen codes are ever reported: bad literals and numbers, numbers out of range and
    unterminated objects and arrays never are by their own code. *)
Theorem C101_never_reported_refuted : forall (F : Type) (zero : F) stod s d, text s -> doc_parse zero stod s = Ok d ->
  ~ In (error d) [InvalidValue; InvalidNumber; OutOfRangeError; UnterminatedObject; UnterminatedArray; ExpectedStringKey; NumberConversionError].
Proof. intros F. exact (@reported F). Qed.
Print Assumptions C101_never_reported_refuted.
(** A missing colon, a comma before the closing brace, a key without end and a bad escape before the brace are reported as such. *)
Theorem C101_reported_partial : forall (F : Type) (zero : F) stod, let e t := omap (fun d => error d) (doc_parse zero stod (str t)) in
  e "{""a"" 1}"%string = Ok MissingColon /\ e "{""a"":1,}"%string = Ok TrailingComma /\ e "{""a"":[1,]}"%string = Ok UnexpectedCharacter /\
  e "{""a}"%string = Ok UnterminatedString /\ e "{""a"":""\}"%string = Ok InvalidEscapeSequence /\ e "[]"%string = Ok InvalidJson /\ e "{}"%string = Ok NoError /\
  e "{""a"":tru}"%string = Ok UnexpectedCharacter /\ e "{""a"":-}"%string = Ok UnexpectedCharacter /\ e "{""a"":[1}"%string = Ok UnexpectedCharacter.
Proof. intros. repeat split; vm_compute; reflexivity. Qed.
Print Assumptions C101_reported_partial.
