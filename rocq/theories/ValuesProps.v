(** Final theorems about the values given to String::Format: C108. *)
From Coq Require Import String List NArith ZArith Bool Lia.
From Verif Require Import Outcome CharModel StrModel SpecStr SpecInt SpecFormat Format FormatProofs FormatProps Dec DecProofs BigFloatProofs
  JsonData Values.
Import ListNotations.

(** What a value should look like: an integer as its shortest decimal numeral, a truth value as the
    word, a text as itself. *)
Inductive shows : value -> list (list N) -> Prop :=
| show_string s : text s -> shows (AString s) s
| show_integer z t : canonical_numeral t z -> shows (AInteger z) (ascii_chars t)
| show_true : shows (ABool true) (ascii_chars (lit "true"))
| show_false : shows (ABool false) (ascii_chars (lit "false"))
| show_bytes s : text s -> shows (ABytes (concat s)) s
| show_convertible s : text s -> shows (AConvertible s) s.

Lemma canonical_unique t u z : canonical_numeral t z -> canonical_numeral u z -> t = u.
Proof. apply canonical_numeral_inj. Qed.

Lemma dec_text z : text (ascii_chars (dec_of_Z z)).
Proof.
  unfold text, ascii_chars. apply Forall_map. eapply Forall_impl; [|apply dec_bytes].
  intros b H. cbv beta in H. apply ascii_text_char. clear z. lia.
Qed.
Lemma concat_ascii t : concat (ascii_chars t) = t.
Proof. unfold ascii_chars. induction t; cbn; congruence. Qed.

Lemma to_string_shows v s : shows v s -> to_string v = Ok s /\ text s.
Proof.
  intros [s' T|z t C| | |s' T|s' T]; cbn [to_string]; auto.
  - rewrite (canonical_unique _ _ _ C (dec_of_Z_canonical z)).
    rewrite <- (concat_ascii (dec_of_Z z)) at 1. split; [apply string_of_std_text|]; apply dec_text.
  - split; [reflexivity|]. now apply (ascii_is_text (lit _)).
  - split; [reflexivity|]. now apply (ascii_is_text (lit _)).
  - split; [|assumption]. now apply string_of_std_text.
Qed.
Lemma mapM_shows vs ss : Forall2 shows vs ss -> mapM to_string vs = Ok ss /\ Forall text ss.
Proof.
  induction 1 as [|v s vs ss H _ [E F]]; cbn; auto. destruct (to_string_shows v s H) as [-> T]. cbn. rewrite E. auto.
Qed.

(** ** C108 *)
(** Two values or more: automatic and positional placeholders show them. *)
Theorem C108_values_partial : forall vs ss is r, Forall2 shows vs ss -> (2 <= length vs)%nat -> (Z.of_nat (length vs) < 2 ^ 64)%Z ->
  expands ss 0 is r -> format_values (template is) vs = Ok r.
Proof.
  intros vs ss is r H L M X. destruct (mapM_shows vs ss H) as [E F]. unfold format_values. rewrite E. cbn [bind].
  assert (El : length vs = length ss) by (clear - H; induction H; cbn; congruence). apply format_expands; trivial; rewrite <- El; trivial.
Qed.
Print Assumptions C108_values_partial.
(** One value: every placeholder shows it, also with width, fill and alignment. *)
Theorem C108_one_value_partial : forall v s is r, shows v s -> expands_one s is r ->
  format_values (template is) [v] = Ok r.
Proof.
  intros v s is r H X. destruct (to_string_shows v s H) as [E F]. unfold format_values. cbn [mapM]. rewrite E. cbn [bind].
  now apply format_one.
Qed.
Print Assumptions C108_one_value_partial.
(** Every integer has a numeral to show, every truth value a word. *)
Theorem C108_shows_total : forall v, match v with AInteger _ | ABool _ => exists s, shows v s | _ => True end.
Proof.
  intros [s|z|z|[]|b|s]; trivial.
  - eexists. apply show_integer, dec_of_Z_canonical.
  - eexists. constructor.
  - eexists. constructor.
Qed.
Print Assumptions C108_shows_total.
Example C108_case : format_values (ascii (lit "{1} is {0}: {2}")) [AInteger (-9223372036854775808); AString (ascii (lit "min")); ABool true]
  = Ok (ascii (lit "min is -9223372036854775808: true")) /\
  Forall2 shows [AInteger (-9223372036854775808); AString (ascii (lit "min")); ABool true]
    [ascii (lit "-9223372036854775808"); ascii (lit "min"); ascii (lit "true")].
Proof.
  split; [vm_compute; reflexivity|].
  constructor; [apply (show_integer _ (lit "-9223372036854775808")); exact (dec_of_Z_canonical (-9223372036854775808))|].
  constructor; [apply show_string; now apply (ascii_is_text (lit "min"))|]. constructor; [apply show_true|constructor].
Qed.

(** String::ValueOf of a bool and of nullptr *)
Theorem C108_value_of : (forall b, string_of_cstr (value_of_bool b) = to_string (ABool b) /\ shows (ABool b) (ascii_chars (if b then lit "true" else lit "false"))) /\
  string_of_cstr value_of_null = Ok (ascii_chars (lit "null")).
Proof. split; [intros []; split; constructor|reflexivity]. Qed.
Print Assumptions C108_value_of.
(** A character is not shown as the character: 'a' gives 97. *)
Theorem C108_character_refuted :
  format_values (ascii (lit "{}")) [ACharacter 97] = Ok (ascii (lit "97")) /\
  (forall z, (0 < z < 128)%Z -> to_string (ACharacter z) <> Ok [[Z.to_N z]]).
Proof.
  split; [reflexivity|]. intros z H. cbn [to_string].
  rewrite <- (concat_ascii (dec_of_Z z)), (string_of_std_text _ (dec_text z)). intros [= E].
  destruct (dec_of_Z_canonical z) as [|ds d r -> Hd F|ds d r -> Hd F]; [lia| |discriminate E].
  cbn in E. destruct r; [|discriminate E]. injection E as E.
  unfold digits_value in E. cbn in E. inversion F as [|? ? D _]; subst. unfold ascii_digit in D. lia.
Qed.
Print Assumptions C108_character_refuted.
