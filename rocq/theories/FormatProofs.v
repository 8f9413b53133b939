(** Proofs about String::Format. *)
From Coq Require Import List NArith ZArith Bool Arith Lia ZifyBool ZifyNat ZifyN.
From Verif Require Import Outcome CharModel CharUtil StrModel StrUtil Format SpecUtf8 SpecChar SpecStr SpecFormat
  CharProofs CharUtilProofs StrProofs StrUtilProofs.
Import ListNotations.
Local Open Scope N_scope.

(** * Searching one character *)
Lemma std_search_single c : forall s r, ~ In c s -> std_search (s ++ c :: r) [c] = length s.
Proof.
  induction s as [|x s IH]; intros r H; cbn.
  - unfold match_at. replace (char_eqb c c) with true; [reflexivity|]. symmetry; now apply char_eqb_iff.
  - destruct (char_eqb c x) eqn:E; [apply char_eqb_iff in E; subst; exfalso; apply H; now left|].
    destruct (char_eqb x c) eqn:E'; [apply char_eqb_iff in E'; subst; exfalso; apply H; now left|].
    cbn. f_equal. apply IH. intro; apply H; now right.
Qed.
Lemma std_search_none c : forall s, ~ In c s -> std_search s [c] = length s.
Proof.
  induction s as [|x s IH]; intros H; cbn; [reflexivity|].
  destruct (char_eqb c x) eqn:E; [apply char_eqb_iff in E; subst; exfalso; apply H; now left|].
  destruct (char_eqb x c) eqn:E'; [apply char_eqb_iff in E'; subst; exfalso; apply H; now left|].
  cbn. f_equal. apply IH. intro; apply H; now right.
Qed.
Lemma s_find_single c s r : ~ In c s -> s_find (s ++ c :: r) [c] 0 = Ok (Some (length s)).
Proof.
  intros H. unfold s_find. destruct (N.ltb_spec (N.of_nat (length (s ++ c :: r))) 0); [lia|].
  cbn [N.to_nat skipn Nat.add]. rewrite std_search_single by trivial.
  destruct (Nat.eqb_spec (length s) (length (s ++ c :: r))) as [E|]; [|reflexivity].
  rewrite app_length in E. cbn in E. lia.
Qed.
Lemma s_find_absent c s : ~ In c s -> s_find s [c] 0 = Ok None.
Proof.
  intros H. unfold s_find. destruct (N.ltb_spec (N.of_nat (length s)) 0); [lia|].
  cbn [N.to_nat skipn Nat.add]. rewrite std_search_none by trivial. now rewrite Nat.eqb_refl.
Qed.
Lemma first_occurrence c (s : Str) : In c s -> exists a b, s = a ++ c :: b /\ ~ In c a.
Proof.
  induction s as [|x s IH]; intros H; [contradiction|].
  destruct (list_eq_dec N.eq_dec c x) as [->|n].
  - exists [], s. split; [reflexivity|easy].
  - destruct H as [->|H]; [contradiction|]. destruct (IH H) as (a & b & -> & Ha).
    exists (x :: a), b. split; [reflexivity|]. intros [->|I]; auto.
Qed.

(** * The loop does not depend on its fuel *)
Lemma format_loop_fuel args : forall f f' rest k, (length rest < f)%nat -> (length rest < f')%nat ->
  format_loop f args rest k = format_loop f' args rest k.
Proof.
  induction f as [|f IH]; intros f' rest k H H'; [lia|].
  destruct f' as [|f']; [lia|]. cbn [format_loop].
  destruct rest as [|c r]; [reflexivity|]. cbn in H, H'.
  assert (S2 : (length (skipn 2 (c :: r)) < f /\ length (skipn 2 (c :: r)) < f')%nat).
  { rewrite skipn_length. cbn. lia. }
  destruct (is_ascii c 123).
  - destruct (match r with [] => false | c1 :: _ => is_ascii c1 123 end).
    + rewrite (IH f') by apply S2. reflexivity.
    + destruct (s_find (c :: r) [[125]] 0) as [[e|]| | |]; cbn [bind]; try reflexivity.
      destruct (s_substring (c :: r) 1 (N.of_nat e - 1)); cbn [bind]; try reflexivity.
      destruct (format_field args a k) as [[p k']| | |]; cbn [bind]; try reflexivity.
      rewrite (IH f'); [reflexivity| |]; rewrite skipn_length; cbn; lia.
  - destruct (is_ascii c 125).
    + destruct (match r with [] => false | c1 :: _ => is_ascii c1 125 end); [|reflexivity].
      rewrite (IH f') by apply S2. reflexivity.
    + rewrite (IH f') by lia. reflexivity.
Qed.

Definition fmt args rest k := format_loop (S (length rest)) args rest k.

Lemma fmt_fuel args f rest k : (length rest < f)%nat -> format_loop f args rest k = fmt args rest k.
Proof. intros. unfold fmt. apply format_loop_fuel; lia. Qed.

Lemma fmt_nil args k : fmt args [] k = Ok [].
Proof. reflexivity. Qed.

Lemma is_ascii_false c b : c <> [b] -> is_ascii c b = false.
Proof. intros H. destruct (is_ascii c b) eqn:E; [|reflexivity]. apply is_ascii_iff in E. contradiction. Qed.
Lemma is_ascii_refl b : is_ascii [b] b = true.
Proof. now apply is_ascii_iff. Qed.

Lemma fmt_plain args c r k : c <> lbrace -> c <> rbrace ->
  fmt args (c :: r) k = (out <- fmt args r k ;; Ok (cstr c ++ out)).
Proof.
  intros A B. unfold fmt at 1. remember (length (c :: r)) as n eqn:En. cbn [format_loop].
  rewrite (is_ascii_false c 123), (is_ascii_false c 125) by trivial.
  rewrite fmt_fuel by (subst n; cbn; lia). reflexivity.
Qed.
Lemma fmt_ll args r k : fmt args (lbrace :: lbrace :: r) k = (out <- fmt args r k ;; Ok (0x7B :: out)).
Proof.
  unfold fmt at 1. remember (length (lbrace :: lbrace :: r)) as n eqn:En.
  cbn [format_loop skipn]. unfold lbrace. rewrite is_ascii_refl.
  rewrite fmt_fuel by (subst n; cbn; lia). reflexivity.
Qed.
Lemma fmt_rr args r k : fmt args (rbrace :: rbrace :: r) k = (out <- fmt args r k ;; Ok (0x7D :: out)).
Proof.
  unfold fmt at 1. remember (length (rbrace :: rbrace :: r)) as n eqn:En.
  cbn [format_loop skipn]. unfold rbrace.
  rewrite is_ascii_refl, (is_ascii_false _ 123) by discriminate.
  rewrite fmt_fuel by (subst n; cbn; lia). reflexivity.
Qed.
Lemma fmt_lone_r args r k : (forall r', r <> rbrace :: r') -> fmt args (rbrace :: r) k = Throw EFormatError.
Proof.
  intros H. unfold fmt. cbn [format_loop length]. unfold rbrace in *.
  rewrite is_ascii_refl, (is_ascii_false _ 123) by discriminate.
  destruct r as [|c r]; [reflexivity|]. rewrite is_ascii_false; [reflexivity|].
  intros ->. now apply (H r).
Qed.
Lemma not_ll (r : Str) : (forall r', r <> lbrace :: r') ->
  match r with [] => false | c1 :: _ => is_ascii c1 123 end = false.
Proof.
  intros H. destruct r as [|c r]; [reflexivity|]. apply is_ascii_false. intros ->. now apply (H r).
Qed.
Lemma fmt_open args r k : (forall r', r <> lbrace :: r') -> ~ In rbrace r ->
  fmt args (lbrace :: r) k = Throw EFormatError.
Proof.
  intros H I. unfold fmt. cbn [format_loop length]. unfold lbrace at 1. rewrite is_ascii_refl.
  rewrite not_ll by trivial. rewrite (s_find_absent rbrace); [reflexivity|].
  intros [E|E]; [discriminate|contradiction].
Qed.
Lemma fmt_field args spec r k : (forall r', spec <> lbrace :: r') -> ~ In rbrace spec ->
  fmt args (lbrace :: spec ++ rbrace :: r) k =
  ('(p, k') <- format_field args spec k ;; out <- fmt args r k' ;; Ok (p ++ out)).
Proof.
  intros H I. unfold fmt at 1. remember (length (lbrace :: spec ++ rbrace :: r)) as n eqn:En.
  cbn [format_loop]. unfold lbrace at 1. rewrite is_ascii_refl.
  rewrite not_ll.
  2: { intros r' E. destruct spec; cbn in E; [discriminate|]. injection E as -> E. now apply (H spec). }
  change (lbrace :: spec ++ rbrace :: r) with ((lbrace :: spec) ++ rbrace :: r).
  rewrite (s_find_single rbrace); [|intros [E|E]; [discriminate|contradiction]].
  cbn [bind].
  rewrite (proj1 (s_substring_spec _ _ _)) by (rewrite app_length; cbn; lia).
  cbn [bind].
  replace (firstn _ _) with spec.
  2: { replace (N.to_nat (N.min _ _)) with (length spec) by (cbn [app length]; rewrite app_length; cbn [length]; lia).
       change (skipn (N.to_nat 1) ((lbrace :: spec) ++ rbrace :: r)) with (spec ++ rbrace :: r).
       now rewrite firstn_app_l. }
  destruct (format_field args spec k) as [[p k']| | |]; cbn [bind]; try reflexivity.
  replace (skipn _ _) with r.
  2: { replace ((lbrace :: spec) ++ rbrace :: r) with ((lbrace :: spec ++ [rbrace]) ++ r)
         by (cbn [app]; now rewrite <- app_assoc).
       replace (S (length (lbrace :: spec))) with (length (lbrace :: spec ++ [rbrace]))
         by (cbn [length]; rewrite app_length; cbn; lia).
       now rewrite skipn_app_l. }
  rewrite fmt_fuel; [reflexivity|]. subst n. cbn. rewrite app_length. cbn. lia.
Qed.

(** Every template falls into one of these cases. *)
Lemma template_cases (t : Str) :
  t = [] \/ (exists c r, t = c :: r /\ c <> lbrace /\ c <> rbrace) \/
  (exists r, t = lbrace :: lbrace :: r) \/ (exists r, t = rbrace :: rbrace :: r) \/
  (exists r, t = rbrace :: r /\ forall r', r <> rbrace :: r') \/
  (exists r, t = lbrace :: r /\ (forall r', r <> lbrace :: r') /\ ~ In rbrace r) \/
  (exists spec r, t = lbrace :: spec ++ rbrace :: r /\ (forall r', spec <> lbrace :: r') /\ ~ In rbrace spec).
Proof.
  destruct t as [|c r]; [now left|right].
  destruct (list_eq_dec N.eq_dec c lbrace) as [->|n].
  - assert (D : (exists r', r = lbrace :: r') \/ forall r', r <> lbrace :: r').
    { destruct r as [|x r]; [right; discriminate|].
      destruct (list_eq_dec N.eq_dec x lbrace) as [->|n]; [left; eauto|right; congruence]. }
    destruct D as [[r' ->]|D]; [right; left; eauto|].
    destruct (in_dec (list_eq_dec N.eq_dec) rbrace r) as [I|I].
    + destruct (first_occurrence _ _ I) as (a & b & -> & Ha).
      do 5 right. exists a, b. split; [reflexivity|]. split; [|trivial].
      intros r' ->. now apply (D (r' ++ rbrace :: b)).
    + do 4 right. left. eauto.
  - destruct (list_eq_dec N.eq_dec c rbrace) as [->|n'].
    + destruct r as [|x r].
      { do 3 right. left. exists []. split; [reflexivity|discriminate]. }
      destruct (list_eq_dec N.eq_dec x rbrace) as [->|n'].
      * do 2 right. left. eauto.
      * do 3 right. left. exists (x :: r). split; [reflexivity|congruence].
    + left. eauto.
Qed.

Lemma bind_bind {A B C} (m : outcome A) (f : A -> outcome B) (g : B -> outcome C) :
  bind (bind m f) g = bind m (fun x => bind (f x) g).
Proof. now destruct m. Qed.
Lemma bind_ret {A} (m : outcome A) : bind m Ok = m.
Proof. now destruct m. Qed.

(** * Continuing after a prefix that formats *)
Lemma fmt_prefix args tail : forall n pre k out, (length pre <= n)%nat -> fmt args pre k = Ok out ->
  exists k', fmt args (pre ++ tail) k = (o <- fmt args tail k' ;; Ok (out ++ o)).
Proof.
  assert (R : forall m : outcome (list N), m = (o <- m ;; Ok ([] ++ o))) by now intros [].
  induction n as [|n IH]; intros pre k out L H.
  - destruct pre; [|cbn in L; lia]. cbn in H. injection H as <-. exists k. apply R.
  - destruct (template_cases pre) as [->|[(c & r & -> & Hl & Hr)|[(r & ->)|[(r & ->)|[(r & -> & D)|
      [(r & -> & D & I)|(spec & r & -> & D & I)]]]]]].
    + cbn in H. injection H as <-. exists k. apply R.
    + rewrite fmt_plain in H by trivial. apply bind_ok in H as (o & E & H). injection H as <-.
      destruct (IH r k o ltac:(cbn in L; lia) E) as [k' E']. exists k'.
      cbn [app]. rewrite fmt_plain, E' by trivial. rewrite bind_bind. cbn [bind].
      destruct (fmt args tail k'); cbn [bind]; rewrite ?app_assoc; reflexivity.
    + rewrite fmt_ll in H. apply bind_ok in H as (o & E & H). injection H as <-.
      destruct (IH r k o ltac:(cbn in L; lia) E) as [k' E']. exists k'.
      cbn [app]. rewrite fmt_ll, E'. rewrite bind_bind. reflexivity.
    + rewrite fmt_rr in H. apply bind_ok in H as (o & E & H). injection H as <-.
      destruct (IH r k o ltac:(cbn in L; lia) E) as [k' E']. exists k'.
      cbn [app]. rewrite fmt_rr, E'. rewrite bind_bind. reflexivity.
    + rewrite fmt_lone_r in H by trivial. discriminate.
    + rewrite fmt_open in H by trivial. discriminate.
    + rewrite fmt_field in H by trivial. apply bind_ok in H as ([p k1] & E1 & H).
      apply bind_ok in H as (o & E & H). injection H as <-.
      destruct (IH r k1 o ltac:(cbn in L; rewrite app_length in L; cbn in L; lia) E) as [k' E']. exists k'.
      cbn [app]. rewrite <- app_assoc. cbn [app]. rewrite fmt_field, E1 by trivial. cbn [bind].
      rewrite E', bind_bind. cbn [bind]. destruct (fmt args tail k'); cbn [bind]; rewrite ?app_assoc; reflexivity.
Qed.

Lemma format_fmt t args : format t args = (out <- fmt args t 0 ;; string_of_std out).
Proof. reflexivity. Qed.

Lemma unbalanced_error pre bad args r :
  format pre args = Ok r ->
  (exists t, bad = lbrace :: t /\ ~ In rbrace t /\ forall t', t <> lbrace :: t') \/
  (exists t, bad = rbrace :: t /\ forall t', t <> rbrace :: t') ->
  format (pre ++ bad) args = Throw EFormatError.
Proof.
  intros H B. rewrite format_fmt in *. apply bind_ok in H as (o & E & _).
  destruct (fmt_prefix args bad _ _ _ _ (le_n _) E) as [k' ->].
  destruct B as [(t & -> & I & D)|(t & -> & D)].
  - now rewrite fmt_open.
  - now rewrite fmt_lone_r.
Qed.

(** * Literal text *)
Lemma fmt_lit args t tail k : text t ->
  fmt args (double_braces t ++ tail) k = (o <- fmt args tail k ;; Ok (concat t ++ o)).
Proof.
  induction 1 as [|c t Hc Ht IH]; cbn [double_braces app concat].
  - now destruct (fmt args tail k).
  - destruct (list_eq_dec N.eq_dec c lbrace) as [->|n]; [|destruct (list_eq_dec N.eq_dec c rbrace) as [->|n']].
    + cbn [app]. rewrite fmt_ll, IH, bind_bind. reflexivity.
    + cbn [app]. rewrite fmt_rr, IH, bind_bind. reflexivity.
    + cbn [app]. rewrite fmt_plain, IH, bind_bind by trivial. cbn [bind].
      rewrite cstr_id by (now apply text_char_no_nul).
      destruct (fmt args tail k); cbn [bind]; rewrite ?app_assoc; reflexivity.
Qed.

Lemma string_of_std_text t : text t -> string_of_std (concat t) = Ok t.
Proof. intros. unfold string_of_std. now apply (string_of_cstr_text t []). Qed.

Lemma escaped_braces t args : text t -> format (double_braces t) args = Ok t.
Proof.
  intros H. rewrite format_fmt. rewrite <- (app_nil_r (double_braces t)).
  rewrite fmt_lit by trivial. cbn. rewrite app_nil_r. now apply string_of_std_text.
Qed.

(** * Numerals *)
Lemma gcp_ascii b : b < 0x80 -> get_code_point [b] = Ok b.
Proof.
  intros H. destruct (N.eq_dec b 0) as [->|n]; [reflexivity|].
  rewrite <- (utf8_encode_ascii b) at 1 by trivial.
  rewrite get_code_point_unit by (apply utf8_encode_unit; lia). f_equal.
  apply utf8_value_encode. lia.
Qed.
Lemma is_digit_ascii d : d <= 9 -> is_digit (0x30 + d) = true.
Proof. intros H. apply is_digit_spec. exists d. split; [trivial|]. exists 0x30. split; [now left|reflexivity]. Qed.

Definition starts_nondigit (r : Str) : Prop :=
  match r with [] => True | c :: _ => exists b, c = [b] /\ 0 < b < 0x80 /\ is_digit b = false end.

Lemma digit_run_numeral ds r : Forall (fun d => d <= 9) ds -> starts_nondigit r ->
  digit_run (numeral_text ds ++ r) = Ok (numeral_text ds, r).
Proof.
  intros H R. induction H as [|d ds Hd H IH]; cbn [numeral_text map app].
  - destruct r as [|c r]; [reflexivity|]. destruct R as (b & -> & Hb & E).
    cbn [digit_run]. rewrite gcp_ascii by lia. cbn [bind]. now rewrite E.
  - cbn [digit_run]. rewrite gcp_ascii by lia. cbn [bind]. rewrite is_digit_ascii by trivial.
    change (map _ ds) with (numeral_text ds). rewrite IH. reflexivity.
Qed.
Lemma cstr_single b : 0 < b -> cstr [b] = [b].
Proof. intros. cbn. destruct (N.eqb_spec b 0); [lia|reflexivity]. Qed.
Lemma s_str_cons c s : s_str (c :: s) = cstr c ++ s_str s.
Proof. reflexivity. Qed.
Lemma s_str_numeral ds r : s_str (numeral_text ds ++ r) = map (fun d => 0x30 + d) ds ++ s_str r.
Proof.
  induction ds as [|d ds IH]; [reflexivity|].
  cbn [numeral_text map app]. rewrite s_str_cons, cstr_single by lia. cbn [app]. f_equal. exact IH.
Qed.
Lemma dec_digit_ok d : d <= 9 -> dec_digit (0x30 + d) = Some d.
Proof.
  intros. unfold dec_digit. destruct ((48 <=? 48 + d) && (48 + d <=? 57)) eqn:E; [f_equal; lia|lia].
Qed.
Lemma dec_digit_none b : is_digit b = false -> dec_digit b = None.
Proof.
  intros H. unfold dec_digit. destruct ((48 <=? b) && (b <=? 57)) eqn:E; [|reflexivity].
  replace b with (0x30 + (b - 48)) in H by lia. rewrite is_digit_ascii in H by lia. discriminate.
Qed.
Lemma dec_run_numeral r : starts_nondigit r -> forall ds acc, Forall (fun d => d <= 9) ds ->
  dec_run acc (map (fun d => 0x30 + d) ds ++ s_str r) = fold_left (fun a d => a * 10 + d) ds acc.
Proof.
  intros R ds. induction ds as [|d ds IH]; intros acc H.
  - cbn [map app fold_left]. destruct r as [|c r]; [reflexivity|]. destruct R as (b & -> & Hb & E).
    rewrite s_str_cons, cstr_single by lia. cbn [app dec_run]. now rewrite dec_digit_none.
  - inversion H; subst. cbn [map app dec_run fold_left]. rewrite dec_digit_ok by trivial. now apply IH.
Qed.
Lemma sto_decimal_numeral limit ds r : numeral ds -> starts_nondigit r ->
  sto_decimal limit (s_str (numeral_text ds ++ r)) =
  if limit <? numeral_value ds then Throw EOutOfRange else Ok (numeral_value ds).
Proof.
  intros [N H] R. rewrite s_str_numeral. unfold sto_decimal.
  destruct ds as [|d ds]; [congruence|]. cbn [map app].
  rewrite dec_digit_ok by now inversion H.
  change (0x30 + d :: map (fun d => 0x30 + d) ds ++ s_str r) with (map (fun d => 0x30 + d) (d :: ds) ++ s_str r).
  rewrite dec_run_numeral by trivial. reflexivity.
Qed.

Lemma numeral_text_chars ds : Forall (fun d => d <= 9) ds -> forall c, In c (numeral_text ds) ->
  exists d, c = [0x30 + d] /\ d <= 9.
Proof.
  intros H c I. apply in_map_iff in I as (d & <- & I). rewrite Forall_forall in H. eauto.
Qed.
Lemma numeral_text_no c ds : Forall (fun d => d <= 9) ds -> (forall d, d <= 9 -> c <> [0x30 + d]) -> ~ In c (numeral_text ds).
Proof. intros H N I. destruct (numeral_text_chars ds H c I) as (d & E & L). now apply (N d). Qed.
Lemma numeral_text_hd ds r c : Forall (fun d => d <= 9) ds -> (forall d, d <= 9 -> c <> [0x30 + d]) ->
  ds <> [] -> forall r', numeral_text ds ++ r <> c :: r'.
Proof.
  intros H N D r' E. destruct ds as [|d ds]; [congruence|]. cbn in E. injection E as E _.
  inversion H; subst. now apply (N d).
Qed.

(** * Fields without specification *)
Lemma vec_get_some {A} (l : list A) i a : nth_error l i = Some a -> vec_get l i = Ok a.
Proof. intros H. unfold vec_get. now rewrite H. Qed.

Lemma field_auto args k a : (2 <= length args)%nat -> nth_error args k = Some a ->
  format_field args [] k = Ok (s_str a, S k).
Proof.
  intros H E. unfold format_field. cbn [digit_run bind].
  destruct (length args) as [|[|n]] eqn:L; [lia|lia|]. now rewrite (vec_get_some _ _ _ E).
Qed.
Lemma field_auto_one a k : format_field [a] [] k = Ok (s_str a, k).
Proof. reflexivity. Qed.

Lemma field_pos args ds k : numeral ds -> args <> [] -> (Z.of_nat (length args) < 2 ^ 64)%Z ->
  format_field args (numeral_text ds) k =
  match nth_error args (N.to_nat (numeral_value ds)) with
  | Some a => Ok (s_str a, k)
  | None => Throw EFormatError
  end.
Proof.
  intros Hn A L. pose proof Hn as [N H]. unfold format_field.
  rewrite <- (app_nil_r (numeral_text ds)) at 1. rewrite digit_run_numeral by (trivial; exact I).
  cbn [bind]. destruct (numeral_text ds) as [|c l] eqn:E; [destruct ds; [congruence|discriminate]|].
  rewrite <- E. clear c l E. unfold stoul_or_format_error.
  rewrite <- (app_nil_r (numeral_text ds)). rewrite sto_decimal_numeral by (trivial; exact I).
  assert (L1 : (1 <= length args)%nat) by (destruct args; [congruence|cbn; lia]).
  rewrite wrap64_small by lia. unfold size_max.
  destruct (N.ltb_spec 18446744073709551615 (numeral_value ds)) as [B|B].
  - cbn [bind]. destruct (nth_error args _) eqn:E; [|reflexivity].
    assert (N.to_nat (numeral_value ds) < length args)%nat by (apply nth_error_Some; congruence). lia.
  - cbn [bind]. destruct (N.ltb_spec (Z.to_N (Z.of_nat (length args) - 1)) (numeral_value ds)) as [C|C].
    + destruct (nth_error args _) eqn:E; [|reflexivity].
      assert (N.to_nat (numeral_value ds) < length args)%nat by (apply nth_error_Some; congruence). lia.
    + destruct (nth_error args _) eqn:E.
      * unfold vec_get_N. destruct (N.leb_spec (N.of_nat (length args)) (numeral_value ds)); [lia|].
        now rewrite (vec_get_some _ _ _ E).
      * apply nth_error_None in E. lia.
Qed.

Lemma fmt_auto args r k : fmt args (lbrace :: rbrace :: r) k =
  ('(p, k') <- format_field args [] k ;; out <- fmt args r k' ;; Ok (p ++ out)).
Proof. apply (fmt_field args [] r k); [discriminate|easy]. Qed.
Lemma fmt_pos args ds r k : numeral ds -> fmt args (lbrace :: numeral_text ds ++ rbrace :: r) k =
  ('(p, k') <- format_field args (numeral_text ds) k ;; out <- fmt args r k' ;; Ok (p ++ out)).
Proof.
  intros [N H]. apply fmt_field.
  - intros r'. rewrite <- (app_nil_r (numeral_text ds)). apply numeral_text_hd; trivial. intros d L E.
    apply (f_equal (hd 0)) in E. cbn [hd lbrace rbrace] in E. lia.
  - apply numeral_text_no; trivial. intros d L E. apply (f_equal (hd 0)) in E. cbn [hd lbrace rbrace] in E. lia.
Qed.

Lemma nth_error_text args k a : Forall text args -> nth_error args k = Some a -> text a.
Proof. intros H E. apply nth_error_In in E. rewrite Forall_forall in H. auto. Qed.

Lemma expands_text args k is r : Forall text args -> expands args k is r -> text r.
Proof.
  intros H. induction 1; [constructor| | |]; apply Forall_app; split; trivial; eapply nth_error_text; eassumption.
Qed.

Lemma fmt_expands args k is r : Forall text args -> (2 <= length args)%nat -> (Z.of_nat (length args) < 2 ^ 64)%Z ->
  expands args k is r -> fmt args (template is) k = Ok (concat r).
Proof.
  intros T A L. induction 1 as [k|k t is r Ht H IH|k a is r E H IH|k ds a is r Hd E H IH];
    unfold template; cbn [map concat item_text].
  - reflexivity.
  - fold (template is). rewrite fmt_lit, IH by trivial. cbn. now rewrite concat_app.
  - fold (template is). cbn [app]. rewrite fmt_auto, (field_auto _ _ _ A E). cbn [bind]. rewrite IH.
    cbn [bind]. rewrite concat_app, s_str_text; [reflexivity|]. eapply nth_error_text; eassumption.
  - fold (template is). cbn [app]. rewrite <- app_assoc. cbn [app]. rewrite fmt_pos by trivial.
    rewrite field_pos, E; trivial. 2: { intros ->; cbn in A; lia. }
    cbn [bind]. rewrite IH. cbn [bind]. rewrite concat_app, s_str_text; [reflexivity|]. eapply nth_error_text; eassumption.
Qed.

Lemma format_expands args is r : Forall text args -> (2 <= length args)%nat -> (Z.of_nat (length args) < 2 ^ 64)%Z ->
  expands args 0 is r -> format (template is) args = Ok r.
Proof.
  intros T A L E. rewrite format_fmt, (fmt_expands _ _ _ _ T A L E). cbn [bind].
  apply string_of_std_text. eapply expands_text; eassumption.
Qed.

(** * Specifications *)
Definition to_align (a : salign) : alignment := match a with SLeft => ALeft | SRight => ARight | SCenter => ACenter end.
Definition to_type (t : stype) : value_type := match t with TS => VString | TD => VIntegral | TF => VFloating end.
Definition to_fspec (s : sspec) : fspec :=
  {| f_align := to_align (sp_align s);
     f_width := match s_width s with Some w => numeral_value w | None => 0 end;
     f_fill := sp_fill s;
     f_type := match s_type s with Some t => to_type t | None => VString end;
     f_prec := match s_prec s with Some p => Z.of_N (numeral_value p) | None => (-1)%Z end |}.

Definition tail_t (s : sspec) : Str := opt (fun t => [type_text t]) (s_type s).
Definition tail_p (s : sspec) : Str := opt (fun p => dot :: numeral_text p) (s_prec s) ++ tail_t s.
Definition tail_w (s : sspec) : Str := opt numeral_text (s_width s) ++ tail_p s.

Lemma tail_t_nd s : starts_nondigit (tail_t s).
Proof. unfold tail_t. destruct (s_type s) as [[]|]; cbn; [eexists; repeat split; lia..|exact I]. Qed.
Lemma tail_p_nd s : starts_nondigit (tail_p s).
Proof.
  unfold tail_p. destruct (s_prec s) as [p|]; cbn [opt app]; [|apply tail_t_nd].
  exists 0x2E. repeat split; lia.
Qed.

Lemma align_char_digit d : d <= 9 -> align_char [0x30 + d] = None.
Proof.
  intros H. unfold align_char. rewrite !is_ascii_single.
  destruct (N.eqb_spec (0x30 + d) 0x3C); [lia|]. destruct (N.eqb_spec (0x30 + d) 0x3E); [lia|].
  destruct (N.eqb_spec (0x30 + d) 0x5E); [lia|]. reflexivity.
Qed.
Lemma numeral_no_align ds : Forall (fun d => d <= 9) ds -> Forall (fun c => align_char c = None) (numeral_text ds).
Proof. intros H. apply Forall_map. eapply Forall_impl; [|exact H]. intros d; apply align_char_digit. Qed.
Lemma tail_w_no_align s : sspec_ok s -> Forall (fun c => align_char c = None) (tail_w s).
Proof.
  intros (_ & W & P & _). unfold tail_w, tail_p, tail_t.
  apply Forall_app; split; [|apply Forall_app; split].
  - destruct (s_width s) as [w|]; [|constructor]. apply numeral_no_align. now apply W.
  - destruct (s_prec s) as [p|]; [|constructor]. constructor; [reflexivity|]. apply numeral_no_align. now apply P.
  - destruct (s_type s) as [[]|]; repeat constructor.
Qed.
Lemma align_char_text a : align_char (align_text a) = Some (to_align a).
Proof. now destruct a. Qed.

Lemma parse_alignment_spec s : sspec_ok s ->
  parse_alignment (sspec_text s) fspec0 =
  Ok (set_align (set_fill fspec0 (sp_fill s)) (to_align (sp_align s)), tail_w s).
Proof.
  intros H. pose proof (tail_w_no_align s H) as NA. destruct H as (_ & _ & _ & NE).
  unfold sspec_text in *. change (opt numeral_text (s_width s) ++ _) with (tail_w s) in *.
  unfold sp_fill, sp_align. destruct (s_align s) as [[[f|] a]|]; cbn [opt app] in *.
  - unfold parse_alignment. rewrite align_char_text. reflexivity.
  - unfold parse_alignment. rewrite align_char_text.
    destruct (tail_w s) as [|c r]; [reflexivity|]. inversion NA as [|? ? E]; subst. now rewrite E.
  - unfold parse_alignment. destruct (tail_w s) as [|c [|c1 r]]; [congruence| |];
      inversion NA as [|? ? E NA']; subst; rewrite E; [reflexivity|].
    inversion NA' as [|? ? E' _]; subst. now rewrite E'.
Qed.

Lemma numeral_text_cons ds : numeral ds -> exists c l, numeral_text ds = c :: l.
Proof. intros [N _]. destruct ds; [congruence|]. cbn. eauto. Qed.

Lemma digit_run_nd r : starts_nondigit r -> digit_run r = Ok ([], r).
Proof. intros H. apply (digit_run_numeral [] r); [constructor|trivial]. Qed.

Lemma parse_width_spec s sp : sspec_ok s -> f_width sp = 0 ->
  parse_width (tail_w s) sp =
  Ok (set_width sp (match s_width s with Some w => numeral_value w | None => 0 end), tail_p s).
Proof.
  intros (_ & W & _) Z. unfold parse_width, tail_w. pose proof (tail_p_nd s) as ND.
  destruct (s_width s) as [w|]; cbn [opt app].
  - destruct (W _ eq_refl) as [Nw L]. rewrite digit_run_numeral; [|apply Nw|trivial]. cbn [bind].
    destruct (numeral_text_cons w Nw) as (c & l & E). rewrite E at 1. 
    rewrite sto_decimal_numeral by trivial. unfold size_max.
    destruct (N.ltb_spec 18446744073709551615 (numeral_value w)); [lia|reflexivity].
  - rewrite digit_run_nd by trivial. cbn [bind]. rewrite <- Z. now destruct sp.
Qed.

Lemma parse_precision_spec s sp : sspec_ok s -> f_prec sp = (-1)%Z ->
  parse_precision (tail_p s) sp =
  Ok (set_prec sp (match s_prec s with Some p => Z.of_N (numeral_value p) | None => (-1)%Z end), tail_t s).
Proof.
  intros (_ & _ & P & _) Z. unfold parse_precision, tail_p. pose proof (tail_t_nd s) as ND.
  destruct (s_prec s) as [p|]; cbn [opt app].
  - unfold dot at 1. rewrite is_ascii_refl.
    destruct (P _ eq_refl) as [Np L]. rewrite digit_run_numeral; [|apply Np|trivial]. cbn [bind].
    destruct (numeral_text_cons p Np) as (c & l & E). rewrite E at 1.
    rewrite sto_decimal_numeral by trivial.
    destruct (N.ltb_spec 2147483647 (numeral_value p)); [lia|reflexivity].
  - rewrite <- Z. destruct (tail_t s) as [|c r] eqn:E; [now destruct sp|].
    rewrite is_ascii_false; [now destruct sp|].
    unfold tail_t in E. destruct (s_type s) as [[]|]; cbn in E; injection E as <- _ || discriminate; discriminate.
Qed.

Lemma make_specifier_spec s : sspec_ok s -> make_specifier (colon :: sspec_text s) = Ok (to_fspec s).
Proof.
  intros H. unfold make_specifier, colon. rewrite is_ascii_refl. cbn [negb].
  rewrite parse_alignment_spec by trivial. cbn [bind].
  rewrite parse_width_spec by trivial. cbn [bind].
  rewrite parse_precision_spec by trivial. cbn [bind]. f_equal.
  unfold parse_value_type, tail_t, to_fspec. destruct (s_type s) as [[]|]; reflexivity.
Qed.

(** * Applying a specification *)
Lemma to_nat_half n : N.to_nat (n / 2) = (N.to_nat n / 2)%nat.
Proof. rewrite N2Nat.inj_div. reflexivity. Qed.

Lemma process_alignment_pad v sp a : f_align sp = to_align a ->
  process_alignment v sp = Ok (pad a (N.to_nat (f_width sp)) (f_fill sp) v).
Proof.
  intros A. unfold process_alignment, pad. rewrite A.
  destruct (N.leb_spec (f_width sp) (N.of_nat (length v))) as [L|L].
  - replace (N.to_nat (f_width sp) - length v)%nat with 0%nat by lia.
    destruct a; cbn; rewrite ?app_nil_r; reflexivity.
  - set (w := f_width sp) in *.
    assert (E : N.to_nat (w - N.of_nat (length v)) = (N.to_nat w - length v)%nat) by lia.
    destruct a; cbn [to_align].
    + unfold s_append_n_char. now rewrite E.
    + unfold s_insert_n_char. destruct (N.ltb_spec (N.of_nat (length v)) 0); [lia|].
      unfold vec_insert. cbn. now rewrite E.
    + unfold s_insert_n_char. destruct (N.ltb_spec (N.of_nat (length v)) 0); [lia|].
      unfold vec_insert, s_append_n_char. cbn [bind N.to_nat firstn skipn app].
      rewrite N2Nat.inj_sub, to_nat_half, E. now rewrite <- app_assoc.
Qed.

Lemma pad_length a w f v : length (pad a w f v) = Nat.max w (length v).
Proof.
  unfold pad. pose proof (Nat.div_le_upper_bound (w - length v) 2 (w - length v) ltac:(lia) ltac:(lia)).
  destruct a; rewrite !app_length, !repeat_length; lia.
Qed.
Lemma pad_text a w f v : text_char f -> text v -> text (pad a w f v).
Proof.
  intros F V. assert (R : forall n, text (repeat f n)).
  { intros n. apply Forall_forall. intros x I. apply List.repeat_spec in I. now subst. }
  unfold pad. destruct a; repeat (apply Forall_app; split); trivial; apply R.
Qed.

Lemma ascii_text_char b : 0 < b < 0x80 -> text_char [b].
Proof.
  intros H. split; [|intros E; injection E as E; lia].
  rewrite <- (utf8_encode_ascii b) by lia. apply utf8_encode_unit. lia.
Qed.
Lemma numeral_is_text ds : Forall (fun d => d <= 9) ds -> text (numeral_text ds).
Proof.
  intros H. apply Forall_map. eapply Forall_impl; [|exact H]. intros d L. apply ascii_text_char. cbn beta in *. lia.
Qed.
Lemma zeros_text n : text (repeat zero n).
Proof. apply Forall_forall. intros x I. apply List.repeat_spec in I. subst. now apply ascii_text_char. Qed.
Lemma concat_zeros n : concat (repeat zero n) = repeat 0x30 n.
Proof. induction n; cbn; [reflexivity|]. now f_equal. Qed.

Lemma copy_decimals_spec : forall p ds, Forall (fun d => d <= 9) ds ->
  copy_decimals p (numeral_text ds) = Ok (concat (firstn p (numeral_text ds)), Nat.min p (length ds)).
Proof.
  induction p as [|p IH]; intros ds H; [reflexivity|].
  destruct ds as [|d ds]; [reflexivity|]. inversion H; subst. cbn [numeral_text map copy_decimals].
  rewrite gcp_ascii by lia. cbn [bind]. rewrite is_digit_ascii by trivial.
  change (map (fun d => [0x30 + d]) ds) with (numeral_text ds). rewrite IH by trivial. cbn [bind firstn concat length Nat.min].
  rewrite cstr_single by lia. reflexivity.
Qed.

Lemma firstn_text p t : text t -> text (firstn p t).
Proof. intros H. rewrite <- (firstn_skipn p t) in H. now apply Forall_app in H. Qed.

Lemma with_decimals_text p v u : text v -> with_decimals p v u -> text u.
Proof.
  intros V H. destruct H as [ip ds NI D|v NI].
  - apply Forall_app in V as [V1 V2]. apply Forall_app; split; [trivial|].
    constructor; [now inversion V2|]. apply Forall_app; split; [|apply zeros_text].
    apply firstn_text. now apply numeral_is_text.
  - apply Forall_app; split; [trivial|]. constructor; [now apply ascii_text_char|apply zeros_text].
Qed.

Lemma floating_text_spec v u p : text v -> 1 <= p -> with_decimals (N.to_nat p) v u ->
  floating_text v (Z.of_N p) = Ok (concat u).
Proof.
  intros V P H. unfold floating_text. destruct H as [ip ds NI D|v NI].
  - change [[0x2E]] with [dot]. rewrite s_find_single by trivial. cbn [bind].
    rewrite (proj1 (s_substring_spec _ _ _)) by lia. cbn [bind].
    replace (firstn _ _) with (ip ++ [dot]).
    2: { replace (ip ++ dot :: numeral_text ds) with ((ip ++ [dot]) ++ numeral_text ds) by now rewrite <- app_assoc.
         change (skipn (N.to_nat 0) ((ip ++ [dot]) ++ numeral_text ds)) with ((ip ++ [dot]) ++ numeral_text ds).
         replace (N.to_nat _) with (length (ip ++ [dot])) by (rewrite !app_length; cbn; lia).
         now rewrite firstn_app_l. }
    replace (0 <? Z.of_N p)%Z with true by lia.
    replace (skipn (S (length ip)) (ip ++ dot :: numeral_text ds)) with (numeral_text ds).
    2: { replace (ip ++ dot :: numeral_text ds) with ((ip ++ [dot]) ++ numeral_text ds) by now rewrite <- app_assoc.
         replace (S (length ip)) with (length (ip ++ [dot])) by (rewrite !app_length; cbn; lia).
         now rewrite skipn_app_l. }
    replace (Z.to_nat (Z.of_N p)) with (N.to_nat p) by lia.
    rewrite copy_decimals_spec by trivial. cbn [bind]. f_equal.
    apply Forall_app in V as [V1 V2].
    rewrite s_str_app, (s_str_text ip) by trivial.
    rewrite !concat_app. cbn [concat]. rewrite concat_app, concat_zeros.
    replace (N.to_nat p - Nat.min (N.to_nat p) (length ds))%nat with (N.to_nat p - length ds)%nat by lia.
    rewrite <- app_assoc. reflexivity.
  - change [[0x2E]] with [dot]. rewrite s_find_absent by trivial. cbn [bind].
    replace (0 <? Z.of_N p)%Z with true by lia.
    rewrite s_str_text, concat_app by trivial. cbn [concat]. rewrite concat_zeros.
    replace (Z.to_nat (Z.of_N p)) with (N.to_nat p) by lia. reflexivity.
Qed.

Lemma process_formatted s v r : text v -> formatted s v r -> process v (to_fspec s) = Ok r.
Proof.
  intros V F. unfold formatted in F. unfold process, to_fspec.
  assert (W : sp_width s = N.to_nat (match s_width s with Some w => numeral_value w | None => 0 end)).
  { unfold sp_width. now destruct (s_width s). }
  rewrite W in F.
  destruct (s_type s) as [[]|]; cbn [to_type f_type].
  1, 2, 4: subst r; erewrite process_alignment_pad by reflexivity; reflexivity.
  destruct F as (p & u & E & P & D & ->). rewrite E. cbn [f_prec].
  rewrite (floating_text_spec v u) by trivial. cbn [bind].
  rewrite string_of_std_text by (eapply with_decimals_text; eassumption). cbn [bind].
  erewrite process_alignment_pad by reflexivity. reflexivity.
Qed.

Lemma sp_fill_text s : sspec_ok s -> text_char (sp_fill s).
Proof.
  intros (F & _). unfold sp_fill. destruct (s_align s) as [[[f|] a]|]; try now apply ascii_text_char.
  now apply (F f a).
Qed.
Lemma formatted_text s v r : sspec_ok s -> text v -> formatted s v r -> text r.
Proof.
  intros H V F. pose proof (sp_fill_text s H). unfold formatted in F.
  destruct (s_type s) as [[]|].
  1, 2, 4: subst r; now apply pad_text.
  destruct F as (p & u & E & P & D & ->). apply pad_text; [trivial|]. eapply with_decimals_text; eassumption.
Qed.

(** * Fields with a specification *)
Lemma field_spec args s k a r : sspec_ok s -> nth_error args 0 = Some a -> text a -> formatted s a r ->
  format_field args (colon :: sspec_text s) k = Ok (s_str r, k).
Proof.
  intros H E V F. unfold format_field.
  rewrite digit_run_nd by (exists 0x3A; repeat split; lia). cbn [bind].
  change (is_ascii colon 58) with true. cbn iota.
  rewrite make_specifier_spec by trivial. cbn [bind]. rewrite (vec_get_some _ _ _ E). cbn [bind].
  rewrite (process_formatted _ _ _ V F). reflexivity.
Qed.
Lemma field_pos_spec args ds s k a r : numeral ds -> (N.to_nat (numeral_value ds) < length args)%nat ->
  (Z.of_nat (length args) < 2 ^ 64)%Z ->
  sspec_ok s -> nth_error args k = Some a -> text a -> formatted s a r ->
  format_field args (numeral_text ds ++ colon :: sspec_text s) k = Ok (s_str r, k).
Proof.
  intros Hn L L64 H E V F. pose proof Hn as [N D]. unfold format_field.
  rewrite digit_run_numeral by (trivial; exists 0x3A; repeat split; lia). cbn [bind].
  destruct (numeral_text_cons ds Hn) as (c & l & Ec). rewrite Ec at 1.
  unfold stoul_or_format_error. rewrite <- (app_nil_r (numeral_text ds)) at 1.
  rewrite sto_decimal_numeral by (trivial; exact I). unfold size_max.
  destruct (N.ltb_spec 18446744073709551615 (numeral_value ds)) as [B|B]; [lia|].
  cbn [bind]. rewrite wrap64_small by lia.
  destruct (N.ltb_spec (Z.to_N (Z.of_nat (length args) - 1)) (numeral_value ds)) as [C|C]; [lia|].
  change (is_ascii colon 58) with true. cbn iota.
  rewrite make_specifier_spec by trivial. cbn [bind]. rewrite (vec_get_some _ _ _ E). cbn [bind].
  rewrite (process_formatted _ _ _ V F). reflexivity.
Qed.

Lemma sspec_no_rbrace s : sspec_ok s -> ~ In rbrace (sspec_text s).
Proof.
  intros (F & W & P & _) I. unfold sspec_text in I. repeat rewrite in_app_iff in I.
  assert (ND : forall ds, Forall (fun d => d <= 9) ds -> ~ In rbrace (numeral_text ds)).
  { intros ds D. apply numeral_text_no; trivial. intros d L E. apply (f_equal (hd 0)) in E. cbn [hd rbrace] in E. lia. }
  destruct I as [I|[I|[I|I]]].
  - destruct (s_align s) as [[[f|] a]|]; cbn in I.
    + destruct I as [I|[I|[]]]; [now apply (F f a)|destruct a; discriminate].
    + destruct I as [I|[]]; destruct a; discriminate.
    + contradiction.
  - destruct (s_width s) as [w|]; [|contradiction]. eapply ND; [|exact I]. now apply W.
  - destruct (s_prec s) as [p|]; [|contradiction]. destruct I as [I|I]; [discriminate|].
    eapply ND; [|exact I]. now apply P.
  - destruct (s_type s) as [[]|]; cbn in I; intuition discriminate.
Qed.

Lemma fmt_spec args s r k : sspec_ok s -> fmt args (lbrace :: colon :: sspec_text s ++ rbrace :: r) k =
  ('(p, k') <- format_field args (colon :: sspec_text s) k ;; out <- fmt args r k' ;; Ok (p ++ out)).
Proof.
  intros H. apply (fmt_field args (colon :: sspec_text s)); [discriminate|].
  intros [E|E]; [discriminate|]. now apply sspec_no_rbrace in E.
Qed.
Lemma fmt_pos_spec args ds s r k : numeral ds -> sspec_ok s ->
  fmt args (lbrace :: numeral_text ds ++ colon :: sspec_text s ++ rbrace :: r) k =
  ('(p, k') <- format_field args (numeral_text ds ++ colon :: sspec_text s) k ;; out <- fmt args r k' ;; Ok (p ++ out)).
Proof.
  intros [N D] H. change (colon :: sspec_text s ++ rbrace :: r) with ((colon :: sspec_text s) ++ rbrace :: r).
  rewrite app_assoc. apply fmt_field.
  - apply numeral_text_hd; trivial. intros d L E. apply (f_equal (hd 0)) in E. cbn [hd lbrace] in E. lia.
  - intros I. apply in_app_iff in I as [I|[I|I]]; [|discriminate|now apply sspec_no_rbrace in I].
    revert I. apply numeral_text_no; trivial. intros d L E. apply (f_equal (hd 0)) in E. cbn [hd rbrace] in E. lia.
Qed.

Lemma fmt_one a is r : text a -> expands_one a is r -> forall k, (k = 0)%nat -> fmt [a] (template is) k = Ok (concat r) /\ text r.
Proof.
  intros V. induction 1 as [|t is r T H IH|is r H IH|ds is r D Z H IH|s u is r S F H IH|ds s u is r D Z S F H IH];
    intros k ->; unfold template; cbn [map concat item_text]; try fold (template is);
    try (destruct (IH 0%nat eq_refl) as [IHf IHt]).
  - split; [reflexivity|constructor].
  - rewrite fmt_lit, IHf by trivial. cbn [bind]. rewrite concat_app. split; [reflexivity|now apply Forall_app].
  - cbn [app]. rewrite fmt_auto, field_auto_one. cbn [bind]. rewrite IHf. cbn [bind].
    rewrite concat_app, s_str_text by trivial. split; [reflexivity|now apply Forall_app].
  - cbn [app]. rewrite <- app_assoc. cbn [app]. rewrite fmt_pos by trivial.
    rewrite field_pos by (trivial; try discriminate; cbn; lia). rewrite Z. cbn [bind nth_error N.to_nat]. rewrite IHf. cbn [bind].
    rewrite concat_app, s_str_text by trivial. split; [reflexivity|now apply Forall_app].
  - pose proof (formatted_text _ _ _ S V F) as U.
    cbn [app]. rewrite <- app_assoc. cbn [app]. rewrite fmt_spec by trivial.
    rewrite (field_spec [a] s 0%nat a u) by trivial. cbn [bind]. rewrite IHf. cbn [bind].
    rewrite concat_app, s_str_text by trivial. split; [reflexivity|now apply Forall_app].
  - pose proof (formatted_text _ _ _ S V F) as U.
    cbn [app]. rewrite <- app_assoc. cbn [app]. rewrite <- app_assoc. cbn [app]. rewrite fmt_pos_spec by trivial.
    rewrite (field_pos_spec [a] ds s 0%nat a u) by (trivial; cbn; lia). cbn [bind]. rewrite IHf. cbn [bind].
    rewrite concat_app, s_str_text by trivial. split; [reflexivity|now apply Forall_app].
Qed.
Lemma format_one a is r : text a -> expands_one a is r -> format (template is) [a] = Ok r.
Proof.
  intros V H. rewrite format_fmt. destruct (fmt_one a is r V H 0%nat eq_refl) as [-> T]. cbn [bind].
  now apply string_of_std_text.
Qed.

Lemma fmt_many args k is r : Forall text args -> (2 <= length args)%nat -> (Z.of_nat (length args) < 2 ^ 64)%Z ->
  expands_many args k is r -> fmt args (template is) k = Ok (concat r) /\ text r.
Proof.
  intros T A L.
  assert (NE : args <> []) by (intros ->; cbn in A; lia).
  induction 1 as [k|k t is r Ht H IH|k a is r E H IH|k ds a is r Hd E H IH|k s a u is r S E F H IH|
                          k ds s a u is r D R S E F H IH];
    unfold template; cbn [map concat item_text]; try fold (template is); try destruct IH as [IHf IHt].
  - split; [reflexivity|constructor].
  - rewrite fmt_lit, IHf by trivial. cbn [bind]. rewrite concat_app. split; [reflexivity|now apply Forall_app].
  - pose proof (nth_error_text _ _ _ T E) as V.
    cbn [app]. rewrite fmt_auto, (field_auto _ _ _ A E). cbn [bind]. rewrite IHf. cbn [bind].
    rewrite concat_app, s_str_text by trivial. split; [reflexivity|now apply Forall_app].
  - pose proof (nth_error_text _ _ _ T E) as V.
    cbn [app]. rewrite <- app_assoc. cbn [app]. rewrite fmt_pos by trivial.
    rewrite field_pos, E by trivial. cbn [bind]. rewrite IHf. cbn [bind].
    rewrite concat_app, s_str_text by trivial. split; [reflexivity|now apply Forall_app].
  - pose proof (nth_error_text _ _ _ T E) as V. pose proof (formatted_text _ _ _ S V F) as U.
    cbn [app]. rewrite <- app_assoc. cbn [app]. rewrite fmt_spec by trivial.
    rewrite (field_spec args s k a u) by trivial. cbn [bind]. rewrite IHf. cbn [bind].
    rewrite concat_app, s_str_text by trivial. split; [reflexivity|now apply Forall_app].
  - pose proof (nth_error_text _ _ _ T E) as V. pose proof (formatted_text _ _ _ S V F) as U.
    cbn [app]. rewrite <- app_assoc. cbn [app]. rewrite <- app_assoc. cbn [app]. rewrite fmt_pos_spec by trivial.
    rewrite (field_pos_spec args ds s k a u) by trivial. cbn [bind]. rewrite IHf. cbn [bind].
    rewrite concat_app, s_str_text by trivial. split; [reflexivity|now apply Forall_app].
Qed.
Lemma format_many args is r : Forall text args -> (2 <= length args)%nat -> (Z.of_nat (length args) < 2 ^ 64)%Z ->
  expands_many args 0 is r -> format (template is) args = Ok r.
Proof.
  intros T A L H. rewrite format_fmt. destruct (fmt_many _ _ _ _ T A L H) as [-> U]. cbn [bind].
  now apply string_of_std_text.
Qed.

(** * An index out of range, anywhere *)
Lemma format_bad_index args pre ds tail r : args <> [] -> (Z.of_nat (length args) < 2 ^ 64)%Z -> numeral ds ->
  (length args <= N.to_nat (numeral_value ds))%nat -> format pre args = Ok r ->
  format (pre ++ item_text (Pos ds) ++ tail) args = Throw EFormatError.
Proof.
  intros NE L D O H. rewrite format_fmt in *. apply bind_ok in H as (o & E & _).
  destruct (fmt_prefix args (item_text (Pos ds) ++ tail) _ _ _ _ (le_n _) E) as [k' ->].
  cbn [item_text app]. rewrite <- app_assoc. cbn [app]. rewrite fmt_pos by trivial.
  rewrite field_pos by trivial. apply nth_error_None in O. rewrite O. reflexivity.
Qed.

(** * Safety *)
Lemma gcp_text c : text_char c -> exists v, get_code_point c = Ok v.
Proof. intros [U _]. rewrite get_code_point_unit by trivial. eauto. Qed.

Lemma digit_run_safe s : text s -> exists d r, digit_run s = Ok (d, r) /\ s = d ++ r.
Proof.
  induction 1 as [|c s Hc Hs (d & r & E & ->)]; [exists [], []; split; reflexivity|].
  cbn [digit_run]. destruct (gcp_text c Hc) as [v ->]. cbn [bind].
  destruct (is_digit v); [|exists [], (c :: d ++ r); split; reflexivity].
  rewrite E. cbn [bind]. exists (c :: d), r. split; reflexivity.
Qed.

Lemma sto_decimal_safe limit s : (exists v, sto_decimal limit s = Ok v) \/ (exists e, sto_decimal limit s = Throw e).
Proof.
  unfold sto_decimal. destruct s; [eauto|]. destruct (dec_digit n); [|eauto].
  destruct (limit <? _); eauto.
Qed.

Definition spec_good (m : outcome (fspec * Str)) : Prop :=
  (exists sp r, m = Ok (sp, r) /\ text_char (f_fill sp) /\ text r) \/ (exists e, m = Throw e).

Lemma parse_alignment_safe config sp : config <> [] -> text config -> text_char (f_fill sp) ->
  spec_good (parse_alignment config sp).
Proof.
  intros NE T F. left. destruct config as [|c r]; [congruence|]. inversion T; subst.
  unfold parse_alignment.
  assert (D : (exists sp' r', match align_char c with Some a => Ok (set_align sp a, r) | None => Ok (sp, c :: r) end = Ok (sp', r')
     /\ text_char (f_fill sp') /\ text r')).
  { destruct (align_char c); eexists _, _; (split; [reflexivity|]); split; trivial. }
  destruct r as [|c1 r1]; [exact D|]. destruct (align_char c1); [|exact D]. cbn.
  eexists _, _. split; [reflexivity|]. cbn. split; [trivial|]. now inversion H2.
Qed.
Lemma app_text a b : text (a ++ b) -> text a /\ text b.
Proof. apply Forall_app. Qed.
Lemma parse_width_safe config sp : text config -> text_char (f_fill sp) -> spec_good (parse_width config sp).
Proof.
  intros T F. unfold parse_width. destruct (digit_run_safe _ T) as (d & r & -> & E). cbn [bind].
  subst config. destruct (app_text _ _ T) as [Td Tr].
  destruct d; [left; eexists _, _; eauto|].
  destruct (sto_decimal_safe size_max (s_str ((l :: d) ++ r))) as [[v ->]|[e ->]]; cbn [bind].
  - left. eexists _, _. split; [reflexivity|]. now split.
  - right. eauto.
Qed.
Lemma parse_precision_safe config sp : text config -> text_char (f_fill sp) -> spec_good (parse_precision config sp).
Proof.
  intros T F. unfold parse_precision. destruct config as [|c config]; [left; eexists _, _; eauto|].
  destruct (is_ascii c 46); [|left; eexists _, _; eauto]. inversion T; subst.
  destruct (digit_run_safe config) as (d & r & -> & E); [trivial|]. cbn [bind].
  subst config. destruct (app_text d r) as [Td Tr]; [trivial|].
  destruct d; [left; eexists _, _; eauto|].
  destruct (sto_decimal_safe 2147483647 (s_str ((l :: d) ++ r))) as [[v ->]|[e ->]]; cbn [bind].
  - left. eexists _, _. split; [reflexivity|]. now split.
  - right. eauto.
Qed.
Lemma make_specifier_safe c config : config <> [] -> text config ->
  (exists sp, make_specifier (c :: config) = Ok sp /\ text_char (f_fill sp)) \/
  (exists e, make_specifier (c :: config) = Throw e).
Proof.
  intros NE T. unfold make_specifier. destruct (negb (is_ascii c 58)); [eauto|].
  destruct (parse_alignment_safe config fspec0 NE T) as [(sp & r & -> & F & Tr)|[e ->]]; cbn [bind]; [now apply ascii_text_char| |eauto].
  destruct (parse_width_safe r sp Tr F) as [(sp1 & r1 & -> & F1 & Tr1)|[e ->]]; cbn [bind]; [|eauto].
  destruct (parse_precision_safe r1 sp1 Tr1 F1) as [(sp2 & r2 & -> & F2 & Tr2)|[e ->]]; cbn [bind]; [|eauto].
  left. eexists. split; [reflexivity|]. unfold parse_value_type. destruct r2; [trivial|].
  destruct (is_ascii l 115), (is_ascii l 100), (is_ascii l 102); exact F2.
Qed.

Lemma copy_decimals_safe : forall p s, text s -> exists us n, copy_decimals p s = Ok (concat us, n) /\ text us.
Proof.
  induction p as [|p IH]; intros s T; [exists [], O; split; [reflexivity|constructor]|].
  destruct T as [|c s Hc Hs]; [exists [], O; split; [reflexivity|constructor]|].
  cbn [copy_decimals]. destruct (gcp_text c Hc) as [v ->]. cbn [bind].
  destruct (is_digit v); [|exists [], O; split; [reflexivity|constructor]].
  destruct (IH s Hs) as (us & n & -> & U). cbn [bind]. exists (c :: us), (S n).
  rewrite cstr_id by (now apply text_char_no_nul). split; [reflexivity|now constructor].
Qed.

Lemma floating_text_safe v p : text v -> exists us, floating_text v p = Ok (concat us) /\ text us.
Proof.
  intros V. unfold floating_text. change [[0x2E]] with [dot].
  destruct (in_dec (list_eq_dec N.eq_dec) dot v) as [I|I].
  - destruct (first_occurrence _ _ I) as (a & b & -> & Ha). rewrite s_find_single by trivial. cbn [bind].
    rewrite (proj1 (s_substring_spec _ _ _)) by lia. cbn [bind].
    set (h := firstn _ _). assert (Th : text h) by (apply firstn_text; exact V). clearbody h.
    destruct (0 <? p)%Z.
    + destruct (copy_decimals_safe (Z.to_nat p) (skipn (S (length a)) (a ++ dot :: b))) as (us & n & -> & U).
      { rewrite <- (firstn_skipn (S (length a)) (a ++ dot :: b)) in V. now apply app_text in V. }
      cbn [bind]. exists (h ++ us ++ repeat zero (Z.to_nat p - n)).
      rewrite !concat_app, concat_zeros, s_str_text by trivial. split; [reflexivity|].
      apply Forall_app; split; [trivial|]. apply Forall_app; split; [trivial|apply zeros_text].
    + exists h. rewrite s_str_text by trivial. split; [reflexivity|trivial].
  - rewrite s_find_absent by trivial. cbn [bind].
    exists (v ++ if (0 <? p)%Z then dot :: repeat zero (Z.to_nat p) else []).
    rewrite concat_app, s_str_text by trivial. split.
    + destruct (0 <? p)%Z; cbn [concat]; rewrite ?concat_zeros; reflexivity.
    + apply Forall_app; split; [trivial|]. destruct (0 <? p)%Z; [|constructor].
      constructor; [now apply ascii_text_char|apply zeros_text].
Qed.

Lemma process_safe v sp : text v -> text_char (f_fill sp) -> exists u, process v sp = Ok u /\ text u.
Proof.
  intros V F.
  assert (A : forall v, text v -> exists u, process_alignment v sp = Ok u /\ text u).
  { intros w W. assert (E : exists a, f_align sp = to_align a)
      by (destruct (f_align sp); [exists SLeft|exists SRight|exists SCenter]; reflexivity).
    destruct E as [a E]. rewrite (process_alignment_pad _ _ _ E). eexists. split; [reflexivity|]. now apply pad_text. }
  unfold process. destruct (f_type sp); auto.
  destruct (floating_text_safe v (f_prec sp) V) as (us & -> & U). cbn [bind].
  rewrite string_of_std_text by trivial. cbn [bind]. auto.
Qed.

Definition field_good (n k : nat) (m : outcome (list N * nat)) : Prop :=
  (exists us k', m = Ok (concat us, k') /\ text us /\ (k' <= S k)%nat /\ (n = 1%nat -> k' = k)) \/ (exists e, m = Throw e).

Lemma field_safe args spec k : Forall text args -> args <> [] -> (Z.of_nat (length args) < 2 ^ 64)%Z ->
  (k < length args)%nat -> text spec -> (forall a, spec <> a ++ [colon]) ->
  field_good (length args) k (format_field args spec k).
Proof.
  intros TA NE L64 K T NC.
  assert (G : forall i, (i < length args)%nat -> exists a, vec_get args i = Ok a /\ text a).
  { intros i I. destruct (nth_error args i) as [a|] eqn:E.
    - exists a. split; [now apply vec_get_some|]. eapply nth_error_text; eassumption.
    - apply nth_error_None in E. lia. }
  assert (P : forall c rest i, (exists p, spec = p ++ c :: rest) -> is_ascii c 58 = true -> (i < length args)%nat ->
     field_good (length args) k (parsed <- make_specifier (c :: rest) ;; a <- vec_get args i ;;
        r <- process a parsed ;; Ok (s_str r, k))).
  { intros c rest i [p E] C I. apply is_ascii_iff in C. subst c.
    assert (R : rest <> []) by (intros ->; now apply (NC p)).
    assert (TR : text rest). { rewrite E in T. apply app_text in T as [_ T]. now inversion T. }
    destruct (make_specifier_safe [0x3A] rest R TR) as [(sp & -> & F)|[e ->]]; cbn [bind]; [|right; eauto].
    destruct (G i I) as (a & -> & Ta). cbn [bind].
    destruct (process_safe a sp Ta F) as (u & -> & U). cbn [bind].
    left. exists u, k. rewrite s_str_text by trivial. repeat split; trivial; lia. }
  assert (A : field_good (length args) k
     (match length args with
      | 1%nat => a <- vec_get args 0 ;; Ok (s_str a, k)
      | O => Throw EFormatError
      | _ => a <- vec_get args k ;; Ok (s_str a, S k)
      end)).
  { destruct (G 0%nat ltac:(lia)) as (a & Ea & Ta). destruct (G k K) as (b & Eb & Tb).
    destruct (length args) as [|[|n]].
    - right; eauto.
    - rewrite Ea. cbn [bind]. left. exists a, k. rewrite s_str_text by trivial. repeat split; trivial; lia.
    - rewrite Eb. cbn [bind]. left. exists b, (S k). rewrite s_str_text by trivial. repeat split; trivial; lia. }
  unfold format_field. destruct (digit_run_safe spec T) as (d & r & -> & E). cbn [bind].
  destruct d as [|d0 d].
  - destruct spec as [|c spec']; [exact A|].
    destruct (is_ascii c 58) eqn:C; [|exact A].
    apply P; trivial; [|lia]. exists []. reflexivity.
  - unfold stoul_or_format_error.
    destruct (sto_decimal_safe size_max (s_str (d0 :: d))) as [[v ->]|[e ->]].
    2: { destruct e; right; cbn [bind]; eauto. }
    cbn [bind]. rewrite wrap64_small by lia.
    destruct (N.ltb_spec (Z.to_N (Z.of_nat (length args) - 1)) v) as [C|C]; [right; eauto|].
    destruct r as [|c r].
    + unfold vec_get_N. destruct (N.leb_spec (N.of_nat (length args)) v); [lia|].
      destruct (G (N.to_nat v) ltac:(lia)) as (a & -> & Ta). cbn [bind]. left.
      exists a, k. rewrite s_str_text by trivial. repeat split; trivial; lia.
    + destruct (is_ascii c 58) eqn:C'.
      * apply P; trivial. exists (d0 :: d). exact E.
      * left. exists [], k. repeat split; [constructor|lia].
Qed.

Definition count_lbrace (t : Str) : nat := count_occ (list_eq_dec N.eq_dec) t lbrace.

Lemma fmt_safe args : Forall text args -> args <> [] -> (Z.of_nat (length args) < 2 ^ 64)%Z ->
  forall n t k, (length t <= n)%nat -> text t -> ~ occurs [colon; rbrace] t ->
  (length args = 1%nat /\ k = 0%nat) \/ (k + count_occ (list_eq_dec N.eq_dec) t lbrace <= length args)%nat ->
  (exists us, fmt args t k = Ok (concat us) /\ text us) \/ (exists e, fmt args t k = Throw e).
Proof.
  intros TA NE L64. induction n as [|n IH]; intros t k L T O K.
  - destruct t; [|cbn in L; lia]. left. exists []. split; [reflexivity|constructor].
  - assert (SO : forall a b, t = a ++ b -> ~ occurs [colon; rbrace] b).
    { intros a b -> (x & y & E). apply O. exists (a ++ x), y. rewrite E. now rewrite app_assoc. }
    destruct (template_cases t) as [->|[(c & r & -> & Hl & Hr)|[(r & ->)|[(r & ->)|[(r & -> & D)|
      [(r & -> & D & I)|(spec & r & -> & D & I)]]]]]].
    + left. exists []. split; [reflexivity|constructor].
    + rewrite fmt_plain by trivial. inversion T; subst.
      destruct (IH r k) as [(us & -> & U)|[e ->]]; cbn [bind]; [cbn in L; lia|trivial|now apply (SO [c])| | |right; eauto].
      * rewrite count_occ_cons_neq in K by trivial. exact K.
      * left. exists (c :: us). rewrite cstr_id by (now apply text_char_no_nul). split; [reflexivity|now constructor].
    + rewrite fmt_ll. inversion T as [|? ? T1 T2]; subst. inversion T2; subst.
      destruct (IH r k) as [(us & -> & U)|[e ->]]; cbn [bind]; [cbn in L; lia|trivial|now apply (SO [lbrace; lbrace])| | |right; eauto].
      * rewrite !count_occ_cons_eq in K by reflexivity. lia.
      * left. exists (lbrace :: us). split; [reflexivity|now constructor].
    + rewrite fmt_rr. inversion T as [|? ? T1 T2]; subst. inversion T2; subst.
      destruct (IH r k) as [(us & -> & U)|[e ->]]; cbn [bind]; [cbn in L; lia|trivial|now apply (SO [rbrace; rbrace])| | |right; eauto].
      * rewrite !count_occ_cons_neq in K by discriminate. lia.
      * left. exists (rbrace :: us). split; [reflexivity|now constructor].
    + rewrite fmt_lone_r by trivial. right; eauto.
    + rewrite fmt_open by trivial. right; eauto.
    + rewrite fmt_field by trivial. rewrite count_occ_cons_eq, count_occ_app, (count_occ_cons_neq _ r) in K by (reflexivity || discriminate).
      inversion T as [|? ? T1 T2]; subst. apply app_text in T2 as [Ts T3]. inversion T3; subst.
      assert (K1 : (k < length args)%nat) by (destruct args; [congruence|cbn [length] in *; lia]).
      destruct (field_safe args spec k TA NE L64 K1 Ts) as [(us & k' & -> & U & K' & K1')|[e ->]]; cbn [bind]; [|  |right; eauto].
      { intros a ->. apply O. exists (lbrace :: a), r. cbn. now rewrite <- app_assoc. }
      destruct (IH r k') as [(vs & -> & V)|[e ->]]; cbn [bind]; [cbn in L; rewrite app_length in L; cbn in L; lia|trivial| | | |right; eauto].
      * apply (SO (lbrace :: spec ++ [rbrace])). cbn. now rewrite <- app_assoc.
      * destruct K as [[K2 ->]|K]; [left; split; [trivial|now apply K1']|right; lia].
      * left. exists (us ++ vs). rewrite concat_app. split; [reflexivity|now apply Forall_app].
Qed.

Lemma format_safe args t : Forall text args -> args <> [] -> (Z.of_nat (length args) < 2 ^ 64)%Z ->
  text t -> ~ occurs [colon; rbrace] t ->
  length args = 1%nat \/ (count_occ (list_eq_dec N.eq_dec) t lbrace <= length args)%nat ->
  (exists r, format t args = Ok r /\ text r) \/ (exists e, format t args = Throw e).
Proof.
  intros TA NE L T O K. rewrite format_fmt.
  destruct (fmt_safe args TA NE L _ t 0%nat (le_n _) T O) as [(us & -> & U)|[e ->]]; cbn [bind].
  - destruct K as [K|K]; [left; split; trivial|right; exact K].
  - left. exists us. split; [now apply string_of_std_text|trivial].
  - right; eauto.
Qed.

(** * Precision 0 *)
Lemma precision_zero v p ip ds : v = ip ++ dot :: numeral_text ds -> ~ In dot ip -> text v -> (p <= 0)%Z ->
  floating_text v p = Ok (concat ip ++ [0x2E]).
Proof.
  intros -> NI V P. unfold floating_text. change [[0x2E]] with [dot]. rewrite s_find_single by trivial. cbn [bind].
  rewrite (proj1 (s_substring_spec _ _ _)) by lia. cbn [bind].
  replace (0 <? p)%Z with false by lia.
  replace (firstn _ _) with (ip ++ [dot]).
  2: { replace (ip ++ dot :: numeral_text ds) with ((ip ++ [dot]) ++ numeral_text ds) by now rewrite <- app_assoc.
       change (skipn (N.to_nat 0) ((ip ++ [dot]) ++ numeral_text ds)) with ((ip ++ [dot]) ++ numeral_text ds).
       replace (N.to_nat _) with (length (ip ++ [dot])) by (rewrite !app_length; cbn; lia).
       now rewrite firstn_app_l. }
  apply app_text in V as [V _]. rewrite s_str_app, s_str_text by trivial. reflexivity.
Qed.

Lemma fmt_balanced args : forall n t k o, (length t <= n)%nat -> fmt args t k = Ok o -> balanced t.
Proof.
  induction n as [|n IH]; intros t k o L H.
  - destruct t; [constructor|cbn in L; lia].
  - destruct (template_cases t) as [->|[(c & r & -> & Hl & Hr)|[(r & ->)|[(r & ->)|[(r & -> & D)|
      [(r & -> & D & I)|(spec & r & -> & D & I)]]]]]].
    + constructor.
    + rewrite fmt_plain in H by trivial. apply bind_ok in H as (o' & E & _).
      constructor; trivial. eapply IH; [|exact E]. cbn in L. lia.
    + rewrite fmt_ll in H. apply bind_ok in H as (o' & E & _).
      apply bal_open. eapply IH; [|exact E]. cbn in L. lia.
    + rewrite fmt_rr in H. apply bind_ok in H as (o' & E & _).
      apply bal_close. eapply IH; [|exact E]. cbn in L. lia.
    + rewrite fmt_lone_r in H by trivial. discriminate.
    + rewrite fmt_open in H by trivial. discriminate.
    + rewrite fmt_field in H by trivial. apply bind_ok in H as ([p k'] & _ & H). apply bind_ok in H as (o' & E & _).
      apply bal_field; trivial. eapply IH; [|exact E]. cbn in L. rewrite app_length in L. cbn in L. lia.
Qed.
Lemma format_balanced t args r : format t args = Ok r -> balanced t.
Proof.
  rewrite format_fmt. intros H. apply bind_ok in H as (o & E & _). eapply fmt_balanced; [apply le_n|exact E].
Qed.

Lemma format_spec_first s v rest u : sspec_ok s -> text v -> formatted s v u ->
  format (template [Spec s]) (v :: rest) = Ok u.
Proof.
  intros S V F. pose proof (formatted_text _ _ _ S V F) as U. rewrite format_fmt. unfold template. cbn [map concat item_text app].
  rewrite app_nil_r. rewrite fmt_spec by trivial. rewrite (field_spec (v :: rest) s 0%nat v u) by trivial.
  cbn [bind]. rewrite fmt_nil. cbn [bind]. rewrite app_nil_r, s_str_text by trivial. now apply string_of_std_text.
Qed.
Lemma format_pos_alone ds args : numeral ds -> args <> [] -> (Z.of_nat (length args) < 2 ^ 64)%Z -> Forall text args ->
  format (template [Pos ds]) args =
  match nth_error args (N.to_nat (numeral_value ds)) with Some a => Ok a | None => Throw EFormatError end.
Proof.
  intros D NE L T. rewrite format_fmt. unfold template. cbn [map concat item_text app]. rewrite app_nil_r.
  rewrite fmt_pos by trivial. rewrite field_pos by trivial.
  destruct (nth_error args _) as [a|] eqn:E; [|reflexivity].
  pose proof (nth_error_text _ _ _ T E). cbn [bind]. rewrite fmt_nil. cbn [bind].
  rewrite app_nil_r, s_str_text by trivial. now apply string_of_std_text.
Qed.
Lemma format_precision_zero s v ip ds rest : sspec_ok s -> s_type s = Some TF ->
  (s_prec s = None \/ exists p, s_prec s = Some p /\ numeral_value p = 0) ->
  v = ip ++ dot :: numeral_text ds -> ~ In dot ip -> text v ->
  format (template [Spec s]) (v :: rest) = Ok (pad (sp_align s) (sp_width s) (sp_fill s) (ip ++ [dot])).
Proof.
  intros S TF P E NI V. rewrite format_fmt. unfold template. cbn [map concat item_text app]. rewrite app_nil_r.
  rewrite fmt_spec by trivial. unfold format_field.
  rewrite digit_run_nd by (exists 0x3A; repeat split; lia). cbn [bind].
  change (is_ascii colon 58) with true. cbn iota.
  rewrite make_specifier_spec by trivial. cbn [bind vec_get nth_error].
  unfold process. cbn [to_fspec f_type f_prec]. rewrite TF. cbn [to_type].
  rewrite (precision_zero v _ ip ds); trivial.
  2: { destruct P as [->|(p & -> & ->)]; lia. }
  assert (I : text (ip ++ [dot])).
  { rewrite E in V. apply app_text in V as [V1 V2]. apply Forall_app; split; [trivial|]. constructor; [now inversion V2|constructor]. }
  cbn [bind]. replace (concat ip ++ [46]) with (concat (ip ++ [dot])) by (rewrite concat_app; reflexivity).
  rewrite string_of_std_text by trivial. cbn [bind].
  erewrite process_alignment_pad by reflexivity. cbn [bind]. rewrite fmt_nil. cbn [bind]. rewrite app_nil_r.
  replace (N.to_nat _) with (sp_width s) by (unfold sp_width; cbn; now destruct (s_width s)).
  cbn [f_fill to_fspec].
  assert (T : text (pad (sp_align s) (sp_width s) (sp_fill s) (ip ++ [dot]))) by (apply pad_text; [now apply sp_fill_text|trivial]).
  rewrite s_str_text by trivial. now apply string_of_std_text.
Qed.
