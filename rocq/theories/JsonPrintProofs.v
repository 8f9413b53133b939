(** Printing a document gives a text of the library's grammar that stands for the document. *)
From Coq Require Import List NArith ZArith Bool Arith Lia.
From Verif Require Import Outcome CharModel CharUtil StrModel StrUtil Dec JsonData JsonParse SpecJson SpecUtf8 SpecStr SpecChar SpecInt
  SpecJsonText CharProofs CharUtilProofs StrProofs StrUtilProofs DecProofs JsonDataProofs JsonParseSafe JsonParseProofs JsonGrammar.
Import ListNotations.
Local Open Scope list_scope.
Local Arguments white_space : simpl never.

Section Print.
Context {F : Type}.
Variable f_zero : F.
Variable f_print : F -> list N.
Variable stod : list N -> conversion F.
Variable pretty : bool.
Variable base : nat.
Notation json := (json F).
Notation comes := (comes_back hex_of (real_of stod) f_print).

Definition nl : Str := if pretty then [ch 10%N] else [].
Definition pad (n : nat) : Str := if pretty then repeat (ch 32%N) n else [].

(** The members and elements as written, given how values are. *)
Section Items.
Variable f : json -> Str.
Variable indent : nat.
Definition member_shown (m : Str * json) : Str := ch 0x22%N :: fst m ++ ch 0x22%N :: ch 0x3A%N :: pad 1 ++ f (snd m).
Definition members_shown : bool -> list (Str * json) -> Str :=
  fix loop (first : bool) (ms : list (Str * json)) : Str :=
    match ms with
    | [] => []
    | m :: r => (if first then [] else ch 0x2C%N :: nl) ++ pad indent ++ member_shown m ++ loop false r
    end.
Definition elements_shown : bool -> list json -> Str :=
  fix loop (first : bool) (l : list json) : Str :=
    match l with
    | [] => []
    | x :: r => (if first then [] else ch 0x2C%N :: nl) ++ pad indent ++ f x ++ loop false r
    end.
End Items.

(** The characters written for a value. *)
Fixpoint shown (indent : nat) (v : json) : Str :=
  match v with
  | JObj ms => ch 0x7B%N :: (match ms with
                             | [] => []
                             | _ => nl ++ members_shown (fun x => shown (indent + base) x) indent true ms ++ nl
                             end) ++ pad (indent - base) ++ [ch 0x7D%N]
  | JArr l => ch 0x5B%N :: (match l with
                            | [] => []
                            | _ => nl ++ elements_shown (fun x => shown (indent + base) x) indent true l ++ nl
                            end) ++ pad (indent - base) ++ [ch 0x5D%N]
  | JStr u => ch 0x22%N :: u ++ [ch 0x22%N]
  | JFloat f => chars_of (f_print f)
  | JInt z => chars_of (dec_of_Z z)
  | JBool b => chars_of (if b then true_bytes else false_bytes)
  | JNull => chars_of null_bytes
  end.
Notation sh indent := (fun x => shown (indent + base) x).
Lemma shown_obj indent m ms : shown indent (JObj (m :: ms)) =
  ch 0x7B%N :: (nl ++ members_shown (sh indent) indent true (m :: ms) ++ nl) ++ pad (indent - base) ++ [ch 0x7D%N].
Proof. reflexivity. Qed.
Lemma shown_arr indent x l : shown indent (JArr (x :: l)) =
  ch 0x5B%N :: (nl ++ elements_shown (sh indent) indent true (x :: l) ++ nl) ++ pad (indent - base) ++ [ch 0x5D%N].
Proof. reflexivity. Qed.

Lemma concat_chars b : concat (chars_of b) = b.
Proof. induction b; cbn; [reflexivity|]. now f_equal. Qed.
Lemma chars_app a b : chars_of (a ++ b) = chars_of a ++ chars_of b.
Proof. apply map_app. Qed.
Lemma concat_nl : concat nl = if pretty then [10%N] else [].
Proof. unfold nl. now destruct pretty. Qed.
Lemma concat_pad n : concat (pad n) = if pretty then spaces n else [].
Proof. unfold pad, spaces. destruct pretty; [|reflexivity]. induction n; cbn; [reflexivity|]. now f_equal. Qed.

(** The loops of the model, named. *)
Definition member_loop (indent : nat) : bool -> list (Str * json) -> list N := fix loop (first : bool) (ms : list (Str * json)) : list N :=
  match ms with
  | [] => []
  | (k, x) :: r =>
      (if first then [] else [44%N] ++ (if pretty then [10%N] else [])) ++
      (if pretty then spaces indent else []) ++
      [34%N] ++ s_str k ++ [34%N] ++ [58%N] ++
      (if pretty then [32%N] else []) ++
      make_output f_print pretty base (indent + base) x ++ loop false r
  end.
Definition element_loop (indent : nat) : bool -> list json -> list N := fix loop (first : bool) (l : list json) : list N :=
  match l with
  | [] => []
  | x :: r =>
      (if first then [] else [44%N] ++ (if pretty then [10%N] else [])) ++
      (if pretty then spaces indent else []) ++
      make_output f_print pretty base (indent + base) x ++ loop false r
  end.
Lemma output_obj indent m ms : make_output f_print pretty base indent (JObj (m :: ms)) =
  [123%N] ++ ((if pretty then [10%N] else []) ++ member_loop indent true (m :: ms) ++ (if pretty then [10%N] else [])) ++
  (if pretty then spaces (indent - base) else []) ++ [125%N].
Proof. reflexivity. Qed.
Lemma output_arr indent x l : make_output f_print pretty base indent (JArr (x :: l)) =
  [91%N] ++ ((if pretty then [10%N] else []) ++ element_loop indent true (x :: l) ++ (if pretty then [10%N] else [])) ++
  (if pretty then spaces (indent - base) else []) ++ [93%N].
Proof. reflexivity. Qed.

Lemma sep_bytes (first : bool) : (if first then [] else [44%N] ++ (if pretty then [10%N] else [])) = concat (if first then [] else [44%N] :: nl).
Proof. destruct first; [reflexivity|]. cbn [concat]. now rewrite concat_nl. Qed.

Lemma shown_bytes v : forall v', comes v v' -> forall indent, make_output f_print pretty base indent v = concat (shown indent v).
Proof.
  induction v as [|ms IH|l IH|u|f|z|b] using json_ind'; intros v' P indent.
  - symmetry. apply concat_chars.
  - inversion P as [| | | | | | |? ms' A]; subst. destruct ms as [|m ms].
    { cbn. rewrite concat_app, concat_pad. cbn. now destruct pretty. }
    rewrite shown_obj, output_obj. cbn [concat]. rewrite !concat_app, concat_nl, concat_pad. do 3 f_equal. f_equal.
    clear P. revert ms' IH A. generalize (m :: ms) as l, true as first. induction l as [|[k x] r IHl]; intros first ms' IH A; [reflexivity|].
    inversion IH as [|? ? IHx IHr]; subst. inversion A as [|? m' ? r' Ax Ar]; subst. cbn [fst snd] in *. destruct Ax as (_ & Tk & _ & Px).
    cbn [member_loop members_shown]. unfold member_shown. cbn [fst snd]. rewrite (IHl false r' IHr Ar), sep_bytes, (IHx _ Px), s_str_text by exact Tk.
    rewrite !concat_app. cbn [concat]. rewrite !concat_app. cbn [concat]. rewrite !concat_app, !concat_pad.
    repeat (rewrite <- !app_assoc; cbn [app]). destruct pretty; reflexivity.
  - inversion P as [| | | | | |? l' A|]; subst. destruct l as [|x l].
    { cbn. rewrite concat_app, concat_pad. cbn. now destruct pretty. }
    rewrite shown_arr, output_arr. cbn [concat]. rewrite !concat_app, concat_nl, concat_pad. do 3 f_equal. f_equal.
    clear P. revert l' IH A. generalize (x :: l) as ll, true as first. induction ll as [|y r IHl]; intros first l' IH A; [reflexivity|].
    inversion IH as [|? ? IHx IHr]; subst. inversion A as [|? y' ? r' Ax Ar]; subst.
    cbn [element_loop elements_shown]. rewrite (IHl false r' IHr Ar), sep_bytes, (IHx _ Ax), !concat_app, concat_pad. reflexivity.
  - cbn. inversion P; subst. rewrite s_str_text by assumption. now rewrite concat_app.
  - symmetry. apply concat_chars.
  - symmetry. apply concat_chars.
  - symmetry. apply concat_chars.
Qed.

(** ** The characters are text *)
Lemma ascii_text_char b : (0 < b < 128)%N -> text_char (ch b).
Proof. intros H. split; [apply unit1; lia|]. intros [= ->]. lia. Qed.
Lemma text_chars b : Forall (fun x => 0 < x < 128)%N b -> text (chars_of b).
Proof. intros H. apply Forall_map. eapply Forall_impl; [|exact H]. intros x Hx. now apply ascii_text_char. Qed.
Lemma text_nl : text nl.
Proof. unfold nl. destruct pretty; repeat constructor; lia || discriminate. Qed.
Lemma text_pad n : text (pad n).
Proof.
  unfold pad. destruct pretty; [|constructor]. apply Forall_forall. intros c H. apply List.repeat_spec in H as ->. apply ascii_text_char. lia.
Qed.
Lemma ws_nl : ws lib_ws nl.
Proof. unfold nl. destruct pretty; [|constructor]. constructor; [|constructor]. unfold lib_ws. rewrite ascii_value. unfold white_space. lia. Qed.
Lemma ws_pad n : ws lib_ws (pad n).
Proof.
  unfold pad. destruct pretty; [|constructor]. apply Forall_forall. intros c H. apply List.repeat_spec in H as ->.
  unfold lib_ws. rewrite ascii_value. unfold white_space. lia.
Qed.
Lemma ws_app a b : ws lib_ws a -> ws lib_ws b -> ws lib_ws (a ++ b).
Proof. intros. now apply Forall_app. Qed.

Lemma numeral_digits z : Forall (fun x => 0 < x < 128)%N (dec_of_Z z).
Proof.
  destruct (dec_of_Z_canonical z) as [|ds d r -> _ D|ds d r -> _ D]; [repeat constructor; lia| |constructor; [lia|]];
    (eapply Forall_impl; [|exact D]; intros x Hx; unfold ascii_digit in Hx; lia).
Qed.

Lemma num_char_pos b : lib_num_char (ch b) -> b <> 0%N.
Proof.
  intros [(v & V)|H] ->.
  - rewrite ascii_value in V. apply digit_ascii in V; [unfold ascii_digit in V; lia|lia].
  - cbn [In] in H. repeat (destruct H as [H|H]; [discriminate|]). contradiction.
Qed.
Lemma float_bytes c t b : chars_of b = c :: t -> Forall lib_num_char (c :: t) -> Forall (fun x => x < 128)%N b -> Forall (fun x => 0 < x < 128)%N b.
Proof.
  intros E N L. rewrite <- E in N. clear E. induction b as [|x b IH]; [constructor|]. inversion L; subst. inversion N; subst.
  constructor; [|now apply IH]. apply num_char_pos in H3. lia.
Qed.

Lemma shown_text v : forall v', comes v v' -> forall indent, text (shown indent v).
Proof.
  induction v as [|ms IH|l IH|u|f|z|b] using json_ind'; intros v' P indent.
  - apply text_chars. repeat constructor; lia.
  - inversion P as [| | | | | | |? ms' A]; subst. destruct ms as [|m ms].
    { cbn [shown app]. constructor; [apply ascii_text_char; lia|]. apply Forall_app. split; [apply text_pad|]. repeat constructor; lia || discriminate. }
    rewrite shown_obj. constructor; [apply ascii_text_char; lia|]. apply Forall_app. split.
    + apply Forall_app. split; [apply text_nl|]. apply Forall_app. split; [|apply text_nl].
      clear P. revert ms' IH A. generalize (m :: ms) as l, true as first. induction l as [|[k x] r IHl]; intros first ms' IH A; [constructor|].
      inversion IH as [|? ? IHx IHr]; subst. inversion A as [|? m' ? r' Ax Ar]; subst. cbn [fst snd] in *. destruct Ax as (_ & Tk & _ & Px).
      cbn [members_shown]. apply Forall_app. split.
      { destruct first; [constructor|]. constructor; [apply ascii_text_char; lia|apply text_nl]. }
      apply Forall_app. split; [apply text_pad|]. apply Forall_app. split; [|now apply (IHl false r')].
      unfold member_shown. cbn [fst snd]. constructor; [apply ascii_text_char; lia|]. apply Forall_app. split; [exact Tk|].
      do 2 (constructor; [apply ascii_text_char; lia|]). apply Forall_app. split; [apply text_pad|now apply (IHx (snd m'))].
    + apply Forall_app. split; [apply text_pad|]. repeat constructor; lia || discriminate.
  - inversion P as [| | | | | |? l' A|]; subst. destruct l as [|x l].
    { cbn [shown app]. constructor; [apply ascii_text_char; lia|]. apply Forall_app. split; [apply text_pad|]. repeat constructor; lia || discriminate. }
    rewrite shown_arr. constructor; [apply ascii_text_char; lia|]. apply Forall_app. split.
    + apply Forall_app. split; [apply text_nl|]. apply Forall_app. split; [|apply text_nl].
      clear P. revert l' IH A. generalize (x :: l) as ll, true as first. induction ll as [|y r IHl]; intros first l' IH A; [constructor|].
      inversion IH as [|? ? IHx IHr]; subst. inversion A as [|? y' ? r' Ax Ar]; subst.
      cbn [elements_shown]. apply Forall_app. split.
      { destruct first; [constructor|]. constructor; [apply ascii_text_char; lia|apply text_nl]. }
      apply Forall_app. split; [apply text_pad|]. apply Forall_app. split; [now apply (IHx y')|now apply (IHl false r')].
    + apply Forall_app. split; [apply text_pad|]. repeat constructor; lia || discriminate.
  - inversion P; subst. cbn [shown]. constructor; [apply ascii_text_char; lia|]. apply Forall_app. split; [assumption|]. repeat constructor; lia || discriminate.
  - inversion P; subst; apply text_chars; eapply float_bytes; eauto.
  - apply text_chars, numeral_digits.
  - apply text_chars. destruct b; repeat constructor; lia.
Qed.

(** ** The text stands for the value *)
Lemma collect_app ps : forall ms : list (Str * json), NoDup (keys (ms ++ ps)) -> puts ms ps = ms ++ ps.
Proof.
  induction ps as [|[k x] r IH]; intros ms N; [cbn; now rewrite app_nil_r|].
  change (puts ms ((k, x) :: r)) with (puts (put_member ms k x) r).
  assert (E : put_member ms k x = ms ++ [(k, x)]).
  { assert (K : ~ In k (keys ms)).
    { unfold keys in *. rewrite map_app in N. cbn in N. apply NoDup_remove_2 in N. intros I. apply N, in_or_app. now left. }
    clear IH N. induction ms as [|[k' y] ms IHm]; cbn; [reflexivity|]. cbn in K. destruct (key_dec k' k); [tauto|]. rewrite IHm by tauto. reflexivity. }
  rewrite E. rewrite IH; rewrite <- app_assoc; [reflexivity|exact N].
Qed.
Lemma collect_id (ms : list (Str * json)) : NoDup (keys ms) -> collect ms = ms.
Proof. intros N. apply (collect_app ms []). exact N. Qed.

Variable s : Str.
Notation simple := (lib_simple (concat s) hex_of (real_of stod)).
Notation VT := (value_text lib_ws lib_key simple).
Notation MT := (member_text lib_ws lib_key simple).
Notation MST := (members_text lib_ws lib_key simple).
Notation EST := (elements_text lib_ws lib_key simple).

Lemma ascii_length l : Forall ascii_char l -> length (concat l) = length l.
Proof. induction 1 as [|c l (b & -> & _) H IH]; cbn; [reflexivity|]. now f_equal. Qed.
Lemma ascii_occurs pre w post : s = pre ++ chars_of w ++ post -> Forall ascii_char pre -> occurs_at w (concat s) (length pre).
Proof.
  intros -> A. exists (concat pre), (concat post). rewrite !concat_app, concat_chars. split; [reflexivity|]. now apply ascii_length.
Qed.

Lemma numeral_simple z p : int64 z -> simple p (chars_of (dec_of_Z z)) (JInt z).
Proof.
  intros R.
  assert (D : forall ds, Forall ascii_digit ds -> Forall digit_char (chars_of ds)).
  { intros ds H. apply Forall_map. eapply Forall_impl; [|exact H]. intros x Hx. now exists x. }
  assert (DN : forall c, digit_char c -> lib_num_char c).
  { intros c (b & -> & B). left. unfold ascii_digit in B. exists (b - 48)%N. rewrite ascii_value. split; [lia|]. exists 48%N. split; [now left|lia]. }
  assert (X : forall ds, Forall ascii_digit ds -> ~ has_exponent (chars_of ds)).
  { intros ds H. apply D in H. unfold has_exponent. intros C.
    assert (exists b, In (ch b) (chars_of ds) /\ ~ ascii_digit b) as (b & I & NB).
    { unfold ascii_digit. destruct C as [C|[C|C]]; eexists; (split; [exact C|lia]). }
    rewrite Forall_forall in H. destruct (H _ I) as (b' & [= <-] & B). contradiction. }
  destruct (dec_of_Z_canonical z) as [|ds d r -> _ H|ds d r -> _ H].
  - apply lp_int; [left; exists 0%N; split; [lia|]; exists 48%N; split; [now left|reflexivity]|..]; auto.
    + constructor; [|constructor]. apply DN. exists 48%N. unfold ascii_digit. split; [reflexivity|lia].
    + unfold has_exponent. cbn. intuition discriminate.
    + change 0%Z with (digits_value (concat [ch 48%N])). apply (li_pos [ch 48%N] []); [discriminate| |discriminate].
      constructor; [|constructor]. exists 48%N. unfold ascii_digit. split; [reflexivity|lia].
  - cbn [chars_of map]. apply lp_int; auto.
    + inversion H; subst. left. unfold ascii_digit in *. exists (d - 48)%N. rewrite ascii_value. split; [lia|]. exists 48%N. split; [now left|lia].
    + apply (D (d :: r)) in H. eapply Forall_impl; [|exact H]. exact DN.
    + now apply (X (d :: r)).
    + rewrite <- (concat_chars (d :: r)). rewrite <- (app_nil_r (_ :: _)). apply li_pos; [discriminate|now apply (D (d :: r))|discriminate].
  - cbn [chars_of map]. apply lp_int; auto.
    + right. now left.
    + constructor; [right; cbn; tauto|]. apply (D (d :: r)) in H. eapply Forall_impl; [|exact H]. exact DN.
    + pose proof (X (d :: r) H) as X'. unfold has_exponent in *. cbn [In chars_of map] in *. intuition discriminate.
    + assert (E : lib_integer (ch 45%N :: chars_of (d :: r) ++ []) (- digits_value (concat (chars_of (d :: r)))))
        by (apply li_neg; [discriminate|now apply (D (d :: r))|discriminate]).
      rewrite app_nil_r, concat_chars in E. exact E.
Qed.

Lemma plain_string u : ~ In (ch 0x22%N) u -> ~ In (ch 0x5C%N) u -> lib_string hex_of u (concat u).
Proof using. clear.
  induction u as [|c u IH]; intros N1 N2; [constructor|]. cbn [In] in *. cbn [concat]. apply ls_plain; [intros ->; tauto|intros ->; tauto|]. apply IH; tauto.
Qed.

(** [pre] is ASCII when the parts [L] written in it are. *)
Definition covers (L : list part) (pre : Str) : Prop := Forall ascii_part L -> Forall ascii_char pre.
Lemma ascii_ch b : (b < 128)%N -> ascii_char (ch b).
Proof. intros H. now exists b. Qed.
Lemma covers_app L M a b : covers L a -> covers M b -> covers (L ++ M) (a ++ b).
Proof. intros H K A. apply Forall_app in A as [A1 A2]. apply Forall_app. auto. Qed.
Lemma covers_ascii L a b : covers L a -> Forall ascii_char b -> covers L (a ++ b).
Proof. intros H K A. apply Forall_app. auto. Qed.
Lemma ascii_nl : Forall ascii_char nl.
Proof. unfold nl. destruct pretty; repeat constructor. now exists 10%N. Qed.
Lemma ascii_pad n : Forall ascii_char (pad n).
Proof. unfold pad. destruct pretty; [|constructor]. apply Forall_forall. intros c H. apply List.repeat_spec in H as ->. now exists 32%N. Qed.
Lemma ascii_chars_of b : Forall (fun x => x < 128)%N b -> Forall ascii_char (chars_of b).
Proof. intros H. apply Forall_map. eapply Forall_impl; [|exact H]. intros x Hx. now exists x. Qed.

Definition member_parts (ms : list (Str * json)) : list part := concat (map (fun m => PText (fst m) :: parts (snd m)) ms).
Definition element_parts (l : list json) : list part := concat (map parts l).
Lemma parts_obj ms : parts (JObj ms) = member_parts ms.
Proof. cbn [parts]. induction ms as [|[k x] r IH]; [reflexivity|]. unfold member_parts in *. cbn [map concat fst snd app]. now rewrite <- IH. Qed.
Lemma parts_arr l : parts (JArr l) = element_parts l.
Proof. cbn [parts]. induction l as [|x r IH]; [reflexivity|]. unfold element_parts in *. cbn [map concat]. now rewrite <- IH. Qed.

Definition VT_ok (indent : nat) (v v' : json) : Prop := forall pre post L M, s = pre ++ shown indent v ++ post -> covers L pre ->
  literals_in_ascii (L ++ parts v ++ M) -> VT (length pre) (shown indent v) v' /\ covers (parts v) (shown indent v).

Lemma member_text_shown indent m m' pre post L M W : VT_ok (indent + base) (snd m) (snd m') -> fst m' = fst m -> ~ In (ch 0x22%N) (fst m) -> ws lib_ws W ->
  s = pre ++ (member_shown (sh indent) m ++ W) ++ post -> covers L pre -> literals_in_ascii (L ++ (PText (fst m) :: parts (snd m)) ++ M) ->
  MT (length pre) (member_shown (sh indent) m ++ W) m' /\ covers (PText (fst m) :: parts (snd m)) (member_shown (sh indent) m).
Proof.
  destruct m as [k x], m' as [k' x']. cbn [fst snd]. intros V -> N HW E C A. unfold member_shown in *. cbn [fst snd] in *.
  set (head := ch 0x22%N :: k ++ ch 0x22%N :: ch 0x3A%N :: pad 1).
  assert (Eh : ch 0x22%N :: k ++ ch 0x22%N :: ch 0x3A%N :: pad 1 ++ shown (indent + base) x = head ++ shown (indent + base) x).
  { unfold head. cbn [app]. rewrite <- app_assoc. reflexivity. }
  assert (Ch : covers [PText k] head).
  { intros H. apply Forall_inv in H. cbn in H. unfold head. constructor; [apply ascii_ch; lia|]. apply Forall_app. split; [exact H|].
    constructor; [apply ascii_ch; lia|]. constructor; [apply ascii_ch; lia|]. apply ascii_pad. }
  destruct (V (pre ++ head) (W ++ post) (L ++ [PText k]) M) as [Vx Cx].
  - rewrite Eh in E. rewrite E. rewrite <- !app_assoc. reflexivity.
  - now apply covers_app.
  - rewrite <- app_assoc. exact A.
  - split.
    + assert (Er : (ch 0x22%N :: k ++ ch 0x22%N :: ch 0x3A%N :: pad 1 ++ shown (indent + base) x) ++ W =
        ch 0x22%N :: k ++ ch 0x22%N :: [] ++ ch 0x3A%N :: pad 1 ++ shown (indent + base) x ++ W).
      { cbn [app]. rewrite <- app_assoc. cbn [app]. rewrite <- app_assoc. reflexivity. }
      rewrite Er. apply mt_member; [now split|constructor|apply ws_pad|exact HW|].
      replace (length pre + (length k + 3 + length (@nil Chr) + length (pad 1)))%nat with (length (pre ++ head)); [exact Vx|].
      unfold head. rewrite app_length. cbn [length]. rewrite app_length. cbn [length]. lia.
    + rewrite Eh. change (PText k :: parts x) with ([PText k] ++ parts x). now apply covers_app.
Qed.

Lemma members_text_shown indent W : ws lib_ws W -> forall ms m ms' m' pre post L M,
  Forall2 (fun m m' => VT_ok (indent + base) (snd m) (snd m') /\ fst m' = fst m /\ ~ In (ch 0x22%N) (fst m)) (m :: ms) (m' :: ms') ->
  s = pre ++ (member_shown (sh indent) m ++ members_shown (sh indent) indent false ms ++ W) ++ post -> covers L pre ->
  literals_in_ascii (L ++ member_parts (m :: ms) ++ M) ->
  MST (length pre) (member_shown (sh indent) m ++ members_shown (sh indent) indent false ms ++ W) (m' :: ms') /\
  covers (member_parts (m :: ms)) (member_shown (sh indent) m ++ members_shown (sh indent) indent false ms).
Proof.
  intros HW. induction ms as [|n ms IH]; intros m ms' m' pre post L M P E C A.
  - cbn [members_shown app] in *. inversion P as [|? ? ? ? (V & K & N) P0]; subst. inversion P0; subst. clear P0. unfold member_parts in *. cbn [map concat] in *. rewrite app_nil_r in A |- *.
    destruct (member_text_shown indent m m' pre post L M W V K N HW E C A) as [H K']. split; [now apply ms_one|].
    rewrite app_nil_r. exact K'.
  - inversion P as [|? ? ? ? (V & K & N) P']; subst. inversion P' as [|? n' ? ns' _ _]; subst. cbn [members_shown] in *. set (rest := members_shown (sh indent) indent false ms) in *.
    set (sep := ch 0x2C%N :: nl ++ pad indent).
    assert (Er : forall Z, (((ch 0x2C%N :: nl) ++ pad indent ++ member_shown (sh indent) n ++ rest) ++ Z) =
      sep ++ member_shown (sh indent) n ++ rest ++ Z).
    { intros Z. unfold sep. cbn [app]. rewrite <- !app_assoc. reflexivity. }
    rewrite Er in *.
    assert (A1 : literals_in_ascii (L ++ (PText (fst m) :: parts (snd m)) ++ member_parts (n :: ms) ++ M)).
    { unfold member_parts in *. cbn [map concat] in A. rewrite <- !app_assoc in A. cbn [map concat]. rewrite <- app_assoc. exact A. }
    destruct (member_text_shown indent m m' pre (sep ++ (member_shown (sh indent) n ++ rest ++ W) ++ post) L (member_parts (n :: ms) ++ M) [] V K N) as [Hm Cm].
    + constructor.
    + rewrite E. rewrite app_nil_r, <- !app_assoc. reflexivity.
    + exact C.
    + exact A1.
    + rewrite app_nil_r in Hm.
      destruct (IH n ns' n' (pre ++ member_shown (sh indent) m ++ sep) post (L ++ (PText (fst m) :: parts (snd m))) M P') as [Hr Cr].
      * rewrite E. rewrite <- !app_assoc. reflexivity.
      * apply covers_app; [exact C|]. apply covers_ascii; [exact Cm|]. unfold sep. constructor; [apply ascii_ch; lia|]. apply Forall_app. split; [apply ascii_nl|apply ascii_pad].
      * rewrite <- app_assoc. exact A1.
      * split.
        -- unfold sep. cbn [app]. rewrite <- app_assoc. rewrite (app_assoc nl (pad indent)). apply ms_more; [exact Hm|apply ws_app; [apply ws_nl|apply ws_pad]|].
           replace (length pre + (length (member_shown (sh indent) m) + 1 + length (nl ++ pad indent)))%nat with
             (length (pre ++ member_shown (sh indent) m ++ sep)); [exact Hr|]. unfold sep. rewrite !app_length. cbn [length]. rewrite !app_length. lia.
        -- unfold member_parts in *. cbn [map concat] in *. change (covers ((PText (fst m) :: parts (snd m)) ++ concat (map (fun m => PText (fst m) :: parts (snd m)) (n :: ms)))
             (member_shown (sh indent) m ++ (ch 0x2C%N :: nl) ++ pad indent ++ member_shown (sh indent) n ++ rest)).
           apply covers_app; [exact Cm|]. rewrite app_assoc. change ((PText (fst n) :: parts (snd n)) ++ concat (map (fun m => PText (fst m) :: parts (snd m)) ms)) with
             (concat (map (fun m => PText (fst m) :: parts (snd m)) (n :: ms))).
           intros H. apply Forall_app. split; [|now apply Cr]. cbn [app]. constructor; [apply ascii_ch; lia|]. apply Forall_app. split; [apply ascii_nl|apply ascii_pad].
Qed.

Lemma elements_text_shown indent W : ws lib_ws W -> forall l x l' x' pre post L M,
  Forall2 (VT_ok (indent + base)) (x :: l) (x' :: l') ->
  s = pre ++ (shown (indent + base) x ++ elements_shown (sh indent) indent false l ++ W) ++ post -> covers L pre ->
  literals_in_ascii (L ++ element_parts (x :: l) ++ M) ->
  EST (length pre) (shown (indent + base) x ++ elements_shown (sh indent) indent false l ++ W) (x' :: l') /\
  covers (element_parts (x :: l)) (shown (indent + base) x ++ elements_shown (sh indent) indent false l).
Proof.
  intros HW. induction l as [|y l IH]; intros x l' x' pre post L M P E C A.
  - cbn [elements_shown app] in *. inversion P as [|? ? ? ? V P0]; subst. inversion P0; subst. clear P0. unfold element_parts in *. cbn [map concat] in *. rewrite app_nil_r in A |- *.
    destruct (V pre (W ++ post) L M) as [H K]; [now rewrite <- app_assoc in E|exact C|exact A|]. split; [now apply es_one|].
    rewrite app_nil_r. exact K.
  - inversion P as [|? ? ? ? V P']; subst. inversion P' as [|? y' ? ys' _ _]; subst. cbn [elements_shown] in *. set (rest := elements_shown (sh indent) indent false l) in *.
    set (sep := ch 0x2C%N :: nl ++ pad indent).
    assert (Er : forall Z, (((ch 0x2C%N :: nl) ++ pad indent ++ shown (indent + base) y ++ rest) ++ Z) =
      sep ++ shown (indent + base) y ++ rest ++ Z).
    { intros Z. unfold sep. cbn [app]. rewrite <- !app_assoc. reflexivity. }
    rewrite Er in *.
    assert (A1 : literals_in_ascii (L ++ parts x ++ element_parts (y :: l) ++ M)).
    { unfold element_parts in *. cbn [map concat] in A. rewrite <- !app_assoc in A. cbn [map concat]. rewrite <- app_assoc. exact A. }
    destruct (V pre (sep ++ (shown (indent + base) y ++ rest ++ W) ++ post) L (element_parts (y :: l) ++ M)) as [Hm Cm].
    + rewrite E. rewrite <- !app_assoc. reflexivity.
    + exact C.
    + exact A1.
    + destruct (IH y ys' y' (pre ++ shown (indent + base) x ++ sep) post (L ++ parts x) M P') as [Hr Cr].
      * rewrite E. rewrite <- !app_assoc. reflexivity.
      * apply covers_app; [exact C|]. apply covers_ascii; [exact Cm|]. unfold sep. constructor; [apply ascii_ch; lia|]. apply Forall_app. split; [apply ascii_nl|apply ascii_pad].
      * rewrite <- app_assoc. exact A1.
      * split.
        -- unfold sep. cbn [app]. rewrite <- app_assoc. rewrite (app_assoc nl (pad indent)).
           change (shown (indent + base) x ++ [44%N] :: (nl ++ pad indent) ++ shown (indent + base) y ++ rest ++ W) with
             (shown (indent + base) x ++ [] ++ ch 44%N :: (nl ++ pad indent) ++ shown (indent + base) y ++ rest ++ W).
           apply es_more; [exact Hm|constructor|apply ws_app; [apply ws_nl|apply ws_pad]|].
           replace (length pre + (length (shown (indent + base) x) + length (@nil Chr) + 1 + length (nl ++ pad indent)))%nat with
             (length (pre ++ shown (indent + base) x ++ sep)); [exact Hr|]. unfold sep. rewrite !app_length. cbn [length]. rewrite !app_length. lia.
        -- change (element_parts (x :: y :: l)) with (parts x ++ element_parts (y :: l)).
           apply covers_app; [exact Cm|]. rewrite app_assoc.
           intros H. apply Forall_app. split; [|now apply Cr]. cbn [app]. constructor; [apply ascii_ch; lia|]. apply Forall_app. split; [apply ascii_nl|apply ascii_pad].
Qed.

Lemma literal_ascii L M pre : covers L pre -> literals_in_ascii (L ++ [PLiteral] ++ M) -> Forall ascii_char pre.
Proof. intros C A. apply C. eapply A. reflexivity. Qed.

Lemma forall2_ok {A B} (R Q : A -> B -> Prop) l l' : Forall2 R l l' -> Forall (fun x => forall y, R x y -> Q x y) l -> Forall2 Q l l'.
Proof. induction 1; intros H1; constructor; inversion H1; subst; auto. Qed.
Lemma value_shown v : forall v', comes v v' -> forall indent, VT_ok indent v v'.
Proof.
  induction v as [|ms IH|l IH|u|f|z|b] using json_ind'; intros v' P indent pre post L M E C A.
  - assert (v' = JNull) as -> by (inversion P; reflexivity). split; [|intros _; apply ascii_chars_of; repeat constructor]. apply vt_simple. apply lp_null; [reflexivity|].
    apply (ascii_occurs pre null_bytes post E), (literal_ascii L M); assumption.
  - inversion P as [| | | | | | |? ms' B]; subst. destruct ms as [|m ms].
    { inversion B; subst. split; [apply (vt_empty_object _ _ _ _ (pad (indent - base))), ws_pad|]. intros _. cbn [shown app].
      constructor; [apply ascii_ch; lia|]. apply Forall_app. split; [apply ascii_pad|]. constructor; [apply ascii_ch; lia|constructor]. }
    destruct ms' as [|m' ms']; [inversion B|]. rewrite parts_obj in *. rewrite shown_obj in *. set (W := nl ++ pad (indent - base)).
    assert (Es : forall X : Str, ch 0x7B%N :: (nl ++ members_shown (sh indent) indent true (m :: ms) ++ nl) ++ pad (indent - base) ++ X =
      ch 0x7B%N :: (nl ++ pad indent) ++ (member_shown (sh indent) m ++ members_shown (sh indent) indent false ms ++ W) ++ X).
    { intros X. unfold W. cbn [members_shown app]. rewrite <- !app_assoc. reflexivity. }
    rewrite Es in *.
    assert (HW : ws lib_ws W) by (apply ws_app; [apply ws_nl|apply ws_pad]).
    destruct (members_text_shown indent W HW ms m ms' m' (pre ++ ch 0x7B%N :: nl ++ pad indent) ([ch 0x7D%N] ++ post) L M) as [Hm Cm].
    + eapply forall2_ok; [exact B|]. eapply Forall_impl; [|exact IH]. cbn. intros x Hx y (Ky & _ & Ny & Py). auto.
    + rewrite E. cbn [app]. rewrite <- !app_assoc. cbn [app]. rewrite <- !app_assoc. reflexivity.
    + apply covers_ascii; [exact C|]. constructor; [apply ascii_ch; lia|]. apply Forall_app. split; [apply ascii_nl|apply ascii_pad].
    + exact A.
    + split.
      * apply vt_object; [apply ws_app; [apply ws_nl|apply ws_pad]|].
        replace (length pre + 1 + length (nl ++ pad indent))%nat with (length (pre ++ ch 0x7B%N :: nl ++ pad indent)); [exact Hm|].
        rewrite app_length. cbn [length]. lia.
      * intros H. constructor; [apply ascii_ch; lia|]. apply Forall_app. split; [apply Forall_app; split; [apply ascii_nl|apply ascii_pad]|].
        apply Forall_app. split; [|constructor; [apply ascii_ch; lia|constructor]]. rewrite app_assoc. apply Forall_app. split; [now apply Cm|].
        apply Forall_app; split; [apply ascii_nl|apply ascii_pad].
  - inversion P as [| | | | | |? l' B|]; subst. destruct l as [|x l].
    { inversion B; subst. split; [apply (vt_empty_array _ _ _ _ (pad (indent - base))), ws_pad|]. intros _. cbn [shown app].
      constructor; [apply ascii_ch; lia|]. apply Forall_app. split; [apply ascii_pad|]. constructor; [apply ascii_ch; lia|constructor]. }
    destruct l' as [|x' l']; [inversion B|]. rewrite parts_arr in *. rewrite shown_arr in *. set (W := nl ++ pad (indent - base)).
    assert (Es : forall X : Str, ch 0x5B%N :: (nl ++ elements_shown (sh indent) indent true (x :: l) ++ nl) ++ pad (indent - base) ++ X =
      ch 0x5B%N :: (nl ++ pad indent) ++ (shown (indent + base) x ++ elements_shown (sh indent) indent false l ++ W) ++ X).
    { intros X. unfold W. cbn [elements_shown app]. rewrite <- !app_assoc. reflexivity. }
    rewrite Es in *.
    assert (HW : ws lib_ws W) by (apply ws_app; [apply ws_nl|apply ws_pad]).
    destruct (elements_text_shown indent W HW l x l' x' (pre ++ ch 0x5B%N :: nl ++ pad indent) ([ch 0x5D%N] ++ post) L M) as [Hm Cm].
    + eapply forall2_ok; [exact B|]. eapply Forall_impl; [|exact IH]. cbn. auto.
    + rewrite E. cbn [app]. rewrite <- !app_assoc. cbn [app]. rewrite <- !app_assoc. reflexivity.
    + apply covers_ascii; [exact C|]. constructor; [apply ascii_ch; lia|]. apply Forall_app. split; [apply ascii_nl|apply ascii_pad].
    + exact A.
    + split.
      * apply vt_array; [apply ws_app; [apply ws_nl|apply ws_pad]|].
        replace (length pre + 1 + length (nl ++ pad indent))%nat with (length (pre ++ ch 0x5B%N :: nl ++ pad indent)); [exact Hm|].
        rewrite app_length. cbn [length]. lia.
      * intros H. constructor; [apply ascii_ch; lia|]. apply Forall_app. split; [apply Forall_app; split; [apply ascii_nl|apply ascii_pad]|].
        apply Forall_app. split; [|constructor; [apply ascii_ch; lia|constructor]]. rewrite app_assoc. apply Forall_app. split; [now apply Cm|].
        apply Forall_app; split; [apply ascii_nl|apply ascii_pad].
  - inversion P; subst. split.
    + apply vt_simple. cbn [shown]. eapply lp_string; eassumption.
    + intros H. apply Forall_inv in H. cbn in H. cbn [shown]. constructor; [apply ascii_ch; lia|]. apply Forall_app. split; [exact H|].
      constructor; [apply ascii_ch; lia|constructor].
  - inversion P as [| | |? c t x Ec NS NC NE AB SH|? c t z Ec NS NC NE AB SH R| | |]; subst; (split; [|intros _; now apply ascii_chars_of]);
    apply vt_simple; cbn [shown]; rewrite Ec; [now apply lp_real|now apply lp_int].
  - assert (v' = JInt z) as -> by (inversion P; reflexivity). assert (R : int64 z) by (inversion P; assumption). split; [apply vt_simple; cbn [shown]; now apply numeral_simple|]. intros _. apply ascii_chars_of.
    eapply Forall_impl; [|apply numeral_digits]. intros x Hx. cbn in Hx. lia.
  - assert (v' = JBool b) as -> by (inversion P; reflexivity). split; [|intros _; apply ascii_chars_of; destruct b; repeat constructor]. apply vt_simple. destruct b.
    + apply (lp_true _ _ _ _ (ch 0x74%N)); [reflexivity|now left|]. apply (ascii_occurs pre true_bytes post E), (literal_ascii L M); assumption.
    + apply (lp_false _ _ _ _ (ch 0x66%N)); [reflexivity|now right|]. apply (ascii_occurs pre false_bytes post E), (literal_ascii L M); assumption.
Qed.
End Print.

Lemma reload {F} (f_zero : F) f_print stod pretty indent (v v' : json F) :
  comes_back hex_of (real_of stod) f_print v v' -> j_type v = CObject -> literals_in_ascii (parts v) ->
  exists t, to_string f_print pretty indent v = Ok t /\ text t /\ doc_parse f_zero stod t = Ok {| root := v'; error := NoError |}.
Proof.
  intros P Ty A. exists (shown f_print pretty indent indent v). pose proof (shown_text f_zero f_print stod pretty indent v v' P indent) as T. split; [|split; [exact T|]].
  - unfold to_string. rewrite (shown_bytes f_print stod pretty indent v v' P). unfold string_of_std. now apply string_of_cstr_text.
  - apply (doc_accepts f_zero stod _ T). exists [], (shown f_print pretty indent indent v), []. rewrite app_nil_r. split; [reflexivity|]. split; [constructor|].
    split; [|split; [destruct P; try discriminate Ty; reflexivity|left; constructor]].
    apply (value_shown f_zero f_print stod pretty indent _ v v' P indent [] [] [] []).
    + now rewrite app_nil_r.
    + intros _. constructor.
    + rewrite app_nil_r. exact A.
Qed.
(** What is printable comes back as it is. *)
Lemma printable_comes {F} (f_zero : F) (stod : list N -> conversion F) f_print v : printable (fun b x => stod b = Converted x) f_print v ->
  comes_back hex_of (real_of stod) f_print v v.
Proof.
  induction v as [|ms IH|l IH|u|f|z|b] using json_ind'; intros P; inversion P as [| | | | |? A|? ND A]; subst; try (constructor; assumption).
  - assert (C : comes_back hex_of (real_of stod) f_print (JObj ms) (JObj (collect ms))); [|now rewrite (collect_id f_zero f_print stod ms ND) in C]. constructor. clear P ND.
    induction ms as [|m ms IHm]; [constructor|]. apply Forall_cons_iff in IH as [H IH], A as [(A1 & A2 & A3) A]. constructor; auto.
  - constructor. clear P. induction l as [|x l IHl]; [constructor|]. apply Forall_cons_iff in IH as [H IH], A as [A1 A]. constructor; auto.
  - econstructor; [assumption|eapply plain_string; assumption|assumption|now left].
  - eapply cb_real; eauto. unfold real_of. match goal with E : chars_of _ = _ |- _ => rewrite <- E end. now rewrite concat_chars.
Qed.
Lemma round_trip {F} (f_zero : F) f_print stod pretty indent (v : json F) :
  printable (fun b x => stod b = Converted x) f_print v -> j_type v = CObject -> literals_in_ascii (parts v) ->
  exists t, to_string f_print pretty indent v = Ok t /\ text t /\ doc_parse f_zero stod t = Ok {| root := v; error := NoError |}.
Proof. intros P. apply reload. now apply (printable_comes f_zero). Qed.
