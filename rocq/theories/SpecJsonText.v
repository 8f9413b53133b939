(** JSON texts, independent of the parser: a grammar of objects and arrays over given white space,
    keys and simple values; the standard's instance of it and the one the library follows. *)
From Coq Require Import List NArith ZArith Bool.
From Verif Require Import CharModel StrModel JsonData SpecUtf8 SpecStr SpecChar SpecInt SpecJson SpecStrUtil.
Import ListNotations.
Local Open Scope N_scope.
Local Open Scope list_scope.

(** The character of an ASCII code. *)
Notation ch b := ([b] : Chr).

(** Put a value under a key: in place when the key is there, else at the end. *)
Fixpoint put_member {F} (ms : list (Str * json F)) (k : Str) (v : json F) : list (Str * json F) :=
  match ms with
  | [] => [(k, v)]
  | (k', x) :: r => if key_dec k' k then (k, v) :: r else (k', x) :: put_member r k v
  end.
(** The members of an object written with these key-value pairs, in order. *)
Definition collect {F} (ps : list (Str * json F)) : list (Str * json F) :=
  fold_left (fun ms p => put_member ms (fst p) (snd p)) ps [].

Section Grammar.
Context {F : Type}.
Notation json := (json F).
Variable ws_char : Chr -> Prop.                    (* white space *)
Variable key_text : Str -> Str -> Prop.            (* text between the quotation marks, key *)
Variable simple : nat -> Str -> json -> Prop.      (* position, text and value of a string, number or literal *)

Definition ws (t : Str) : Prop := Forall ws_char t.

(** Texts of values, of members (with the white space after them), of the members of an object and of
    the elements of an array; the first argument is the position of the text. *)
Inductive value_text : nat -> Str -> json -> Prop :=
| vt_simple p t v : simple p t v -> value_text p t v
| vt_empty_object p w : ws w -> value_text p (ch 0x7B :: w ++ [ch 0x7D]) (JObj [])
| vt_object p w t ps : ws w -> members_text (p + 1 + length w) t ps ->
    value_text p (ch 0x7B :: w ++ t ++ [ch 0x7D]) (JObj (collect ps))
| vt_empty_array p w : ws w -> value_text p (ch 0x5B :: w ++ [ch 0x5D]) (JArr [])
| vt_array p w t vs : ws w -> elements_text (p + 1 + length w) t vs ->
    value_text p (ch 0x5B :: w ++ t ++ [ch 0x5D]) (JArr vs)
with member_text : nat -> Str -> Str * json -> Prop :=
| mt_member p kt k w1 w2 t v w3 : key_text kt k -> ws w1 -> ws w2 -> ws w3 ->
    value_text (p + (length kt + 3 + length w1 + length w2)) t v ->
    member_text p (ch 0x22 :: kt ++ ch 0x22 :: w1 ++ ch 0x3A :: w2 ++ t ++ w3) (k, v)
with members_text : nat -> Str -> list (Str * json) -> Prop :=
| ms_one p t m : member_text p t m -> members_text p t [m]
| ms_more p t m w r ms : member_text p t m -> ws w -> members_text (p + (length t + 1 + length w)) r ms ->
    members_text p (t ++ ch 0x2C :: w ++ r) (m :: ms)
with elements_text : nat -> Str -> list json -> Prop :=
| es_one p t v w : value_text p t v -> ws w -> elements_text p (t ++ w) [v]
| es_more p t v w0 w r vs : value_text p t v -> ws w0 -> ws w ->
    elements_text (p + (length t + length w0 + 1 + length w)) r vs ->
    elements_text p (t ++ w0 ++ ch 0x2C :: w ++ r) (v :: vs).

(** A text that is an object with white space around it. *)
Definition object_text (t : Str) (v : json) : Prop :=
  exists w o w', t = w ++ o ++ w' /\ ws w /\ ws w' /\ value_text (length w) o v /\ j_type v = CObject.
End Grammar.

(** ** The standard (RFC 8259) *)

(** Section 2 *)
Definition std_ws (c : Chr) : Prop := In c [ch 0x20; ch 0x09; ch 0x0A; ch 0x0D].

(** Section 7: an unescaped character, and the escapes (which give one character; the value of \u
    is left open). *)
Definition plain_char (c : Chr) : Prop := text_char c /\ 0x20 <= utf8_value c /\ c <> ch 0x22 /\ c <> ch 0x5C.
Inductive json_esc : N -> N -> Prop :=
| je_quote : json_esc 0x22 0x22
| je_backslash : json_esc 0x5C 0x5C
| je_b : json_esc 0x62 0x08
| je_f : json_esc 0x66 0x0C
| je_n : json_esc 0x6E 0x0A
| je_r : json_esc 0x72 0x0D
| je_t : json_esc 0x74 0x09.
Definition hex_char (c : Chr) : Prop :=
  exists b, c = ch b /\ (0x30 <= b <= 0x39 \/ 0x41 <= b <= 0x46 \/ 0x61 <= b <= 0x66).
Inductive std_string : Str -> Str -> Prop :=
| ss_nil : std_string [] []
| ss_plain c t u : plain_char c -> std_string t u -> std_string (c :: t) (c :: u)
| ss_escape e b t u : json_esc e b -> std_string t u -> std_string (ch 0x5C :: ch e :: t) (ch b :: u)
| ss_slash t u : std_string t u -> std_string (ch 0x5C :: ch 0x2F :: t) (ch 0x2F :: u)
| ss_unicode h1 h2 h3 h4 c t u : Forall hex_char [h1; h2; h3; h4] -> std_string t u ->
    std_string (ch 0x5C :: ch 0x75 :: h1 :: h2 :: h3 :: h4 :: t) (c :: u).

(** Section 6: minus sign, integer part without leading zeros, fraction, exponent.  (The value is left
    open when there is a fraction or exponent.) *)
Definition digit_char (c : Chr) : Prop := exists b, c = ch b /\ ascii_digit b.
Definition std_int (t : Str) : Prop :=
  exists m ds, t = m ++ ds /\ (m = [] \/ m = [ch 0x2D]) /\
  (ds = [ch 0x30] \/ exists d r, ds = d :: r /\ d <> ch 0x30 /\ Forall digit_char (d :: r)).
Definition std_frac (t : Str) : Prop := t = [] \/ exists d r, t = ch 0x2E :: d :: r /\ Forall digit_char (d :: r).
Definition std_exp (t : Str) : Prop := t = [] \/ exists e g d r, t = e :: g ++ d :: r /\
  (e = ch 0x65 \/ e = ch 0x45) /\ (g = [] \/ g = [ch 0x2D] \/ g = [ch 0x2B]) /\ Forall digit_char (d :: r).

Definition chars_of (b : list N) : Str := map (fun x => ch x) b.

Inductive std_simple {F} : nat -> Str -> json F -> Prop :=
| sd_string p t u : std_string t u -> std_simple p (ch 0x22 :: t ++ [ch 0x22]) (JStr u)
| sd_true p : std_simple p (chars_of true_bytes) (JBool true)
| sd_false p : std_simple p (chars_of false_bytes) (JBool false)
| sd_null p : std_simple p (chars_of null_bytes) JNull
| sd_int p t z : std_int t -> int_numeral (concat t) z -> std_simple p t (JInt z)
| sd_real p i f e x : std_int i -> std_frac f -> std_exp e -> f ++ e <> [] -> std_simple p (i ++ f ++ e) (JFloat x).

(** A JSON text whose value is an object. *)
Definition std_object_text {F} : Str -> json F -> Prop := object_text std_ws std_string std_simple.

(** ** The library *)

(** White space is Unicode white space. *)
Definition lib_ws (c : Chr) : Prop := white_space (utf8_value c).
(** A key is every text without a quotation mark, taken as it is. *)
Definition lib_key (t k : Str) : Prop := t = k /\ ~ In (ch 0x22) t.

(** What the four characters after the u of an escape denote: what the C library reads in them, modulo 2^64. *)
Definition hex_of (h : Str) (n : N) : Prop :=
  exists neg m, c_hex (concat h) neg m /\ m < 0x10000000000000000 /\ n < 0x10000000000000000 /\
    (Z.of_N n = signed neg m \/ Z.of_N n = signed neg m + 0x10000000000000000)%Z.
(** Contents of a string, and the bytes it stands for: an escape swallows the character after it; the escape with
    u gives the low byte [b] of what [hex] says its four characters denote. *)
Inductive lib_string (hex : Str -> N -> Prop) : Str -> list N -> Prop :=
| ls_nil : lib_string hex [] []
| ls_plain c t u : c <> ch 0x22 -> c <> ch 0x5C -> lib_string hex t u -> lib_string hex (c :: t) (c ++ u)
| ls_escape e b c t u : json_esc e b -> lib_string hex t u ->
    lib_string hex (ch 0x5C :: ch e :: c :: t) (b :: u)
| ls_unicode h1 h2 h3 h4 n c t u : hex [h1; h2; h3; h4] n -> lib_string hex t u ->
    lib_string hex (ch 0x5C :: ch 0x75 :: h1 :: h2 :: h3 :: h4 :: c :: t) (n mod 256 :: u).

(** Characters of a number: any Unicode digit, and . e E - + *)
Definition lib_num_char (c : Chr) : Prop :=
  (exists v, decimal_digit (utf8_value c) v) \/ In c [ch 0x2E; ch 0x65; ch 0x45; ch 0x2D; ch 0x2B].
Definition lib_num_start (c : Chr) : Prop :=
  (exists v, decimal_digit (utf8_value c) v) \/ c = ch 0x2D \/ c = ch 0x2B.
(** Value of a number without plus sign and exponent: that of its leading ASCII digits, if it fits 64 bits;
    what comes after them is ignored. *)
Inductive lib_integer : Str -> Z -> Prop :=
| li_pos ds r : ds <> [] -> Forall digit_char ds -> (forall d r', r = d :: r' -> ~ digit_char d) ->
    lib_integer (ds ++ r) (digits_value (concat ds))
| li_neg ds r : ds <> [] -> Forall digit_char ds -> (forall d r', r = d :: r' -> ~ digit_char d) ->
    lib_integer (ch 0x2D :: ds ++ r) (- digits_value (concat ds)).

Definition has_exponent (t : Str) : Prop := In (ch 0x2B) t \/ In (ch 0x65) t \/ In (ch 0x45) t.
Definition int64 (z : Z) : Prop := (-9223372036854775808 <= z <= 9223372036854775807)%Z.

(** [whole] is the bytes of the whole text: a literal is looked up at the byte offset that
    equals its character position. [real] is what a text with plus sign or exponent denotes. *)
Inductive lib_simple {F} (whole : list N) (hex : Str -> N -> Prop) (real : Str -> F -> Prop) : nat -> Str -> json F -> Prop :=
| lp_string p t b u : lib_string hex t b -> text u -> (b = concat u \/ exists r, b = concat u ++ 0 :: r) ->
    lib_simple whole hex real p (ch 0x22 :: t ++ [ch 0x22]) (JStr u)
| lp_true p c t : length (c :: t) = 4%nat -> c = ch 0x74 \/ c = ch 0x66 -> occurs_at true_bytes whole p ->
    lib_simple whole hex real p (c :: t) (JBool true)
| lp_false p c t : length (c :: t) = 5%nat -> c = ch 0x74 \/ c = ch 0x66 -> occurs_at false_bytes whole p ->
    lib_simple whole hex real p (c :: t) (JBool false)
| lp_null p t : length t = 3%nat -> occurs_at null_bytes whole p ->
    lib_simple whole hex real p (ch 0x6E :: t) JNull
| lp_int p c t z : lib_num_start c -> Forall lib_num_char (c :: t) -> ~ has_exponent (c :: t) ->
    lib_integer (c :: t) z -> int64 z -> lib_simple whole hex real p (c :: t) (JInt z)
| lp_real p c t x : lib_num_start c -> Forall lib_num_char (c :: t) -> has_exponent (c :: t) ->
    real (c :: t) x -> lib_simple whole hex real p (c :: t) (JFloat x).

(** ** What survives printing and parsing *)

(** What a value is made of, in the order it is written: keys and strings, and the literals. *)
Inductive part := PText (t : Str) | PLiteral.
Fixpoint parts {F} (v : json F) : list part :=
  match v with
  | JObj ms => (fix go (l : list (Str * json F)) := match l with [] => [] | (k, x) :: r => PText k :: parts x ++ go r end) ms
  | JArr l => (fix go (l : list (json F)) := match l with [] => [] | x :: r => parts x ++ go r end) l
  | JStr t => [PText t]
  | JBool _ | JNull => [PLiteral]
  | JFloat _ | JInt _ => []
  end.
Definition ascii_char (c : Chr) : Prop := exists b, c = ch b /\ b < 128.
Definition ascii_part (x : part) : Prop := match x with PText t => Forall ascii_char t | PLiteral => True end.
(** No key or string that is written before a literal has a character outside ASCII. *)
Definition literals_in_ascii (l : list part) : Prop := forall a b, l = a ++ PLiteral :: b -> Forall ascii_part a.

(** Keys without quotation marks, each used once in its object; strings without quotation marks and backslashes;
    64-bit integers; numbers whose print [shows] them: an ASCII number with a plus sign or an exponent. *)
Inductive printable {F} (shows : list N -> F -> Prop) (f_print : F -> list N) : json F -> Prop :=
| pr_null : printable shows f_print JNull
| pr_bool b : printable shows f_print (JBool b)
| pr_int z : int64 z -> printable shows f_print (JInt z)
| pr_float f c t : chars_of (f_print f) = c :: t -> lib_num_start c -> Forall lib_num_char (c :: t) -> has_exponent (c :: t) ->
    Forall (fun b => b < 128) (f_print f) -> shows (f_print f) f -> printable shows f_print (JFloat f)
| pr_str u : text u -> ~ In (ch 0x22) u -> ~ In (ch 0x5C) u -> printable shows f_print (JStr u)
| pr_arr l : Forall (printable shows f_print) l -> printable shows f_print (JArr l)
| pr_obj ms : NoDup (keys ms) -> Forall (fun m => text (fst m) /\ ~ In (ch 0x22) (fst m) /\ printable shows f_print (snd m)) ms ->
    printable shows f_print (JObj ms).

(** What saving and loading makes of a value: strings as above, the last of several members with one key, numbers
    without plus sign and exponent as integers, others as [real] says. *)
Inductive comes_back {F} (hex : Str -> N -> Prop) (real : Str -> F -> Prop) (f_print : F -> list N) : json F -> json F -> Prop :=
| cb_null : comes_back hex real f_print JNull JNull
| cb_bool b : comes_back hex real f_print (JBool b) (JBool b)
| cb_int z : int64 z -> comes_back hex real f_print (JInt z) (JInt z)
| cb_real f c t x : chars_of (f_print f) = c :: t -> lib_num_start c -> Forall lib_num_char (c :: t) -> has_exponent (c :: t) ->
    Forall (fun b => b < 128) (f_print f) -> real (c :: t) x -> comes_back hex real f_print (JFloat f) (JFloat x)
| cb_plain f c t z : chars_of (f_print f) = c :: t -> lib_num_start c -> Forall lib_num_char (c :: t) -> ~ has_exponent (c :: t) ->
    Forall (fun b => b < 128) (f_print f) -> lib_integer (c :: t) z -> int64 z -> comes_back hex real f_print (JFloat f) (JInt z)
| cb_str u b u' : text u -> lib_string hex u b -> text u' -> (b = concat u' \/ exists r, b = concat u' ++ 0 :: r) ->
    comes_back hex real f_print (JStr u) (JStr u')
| cb_arr l l' : Forall2 (comes_back hex real f_print) l l' -> comes_back hex real f_print (JArr l) (JArr l')
| cb_obj ms ms' : Forall2 (fun m m' => fst m' = fst m /\ text (fst m) /\ ~ In (ch 0x22) (fst m) /\ comes_back hex real f_print (snd m) (snd m')) ms ms' ->
    comes_back hex real f_print (JObj ms) (JObj (collect ms')).

(** The texts the library accepts: an object after white space; anything may follow as long as the last
    character that is not white space is a closing brace. *)
Definition lib_document {F} (hex : Str -> N -> Prop) (real : Str -> F -> Prop) (s : Str) (v : json F) : Prop :=
  exists w o r, s = w ++ o ++ r /\ ws lib_ws w /\ value_text lib_ws lib_key (lib_simple (concat s) hex real) (length w) o v /\
    j_type v = CObject /\ (ws lib_ws r \/ exists x w', r = x ++ ch 0x7D :: w' /\ ws lib_ws w').

(** ** Texts used in the properties *)

(** Object with one member, without white space. *)
Definition doc1 (k t : Str) : Str := ch 0x7B :: ch 0x22 :: k ++ ch 0x22 :: ch 0x3A :: t ++ [ch 0x7D].
(** Characters that are neither a quotation mark nor a backslash. *)
Definition plain (c : Chr) : Prop := c <> ch 0x22 /\ c <> ch 0x5C.
Definition quoted (u : Str) : Str := ch 0x22 :: u ++ [ch 0x22].
