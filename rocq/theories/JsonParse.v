(** Model of __Serializing/Json/Types/JsonParser.h and of Parse in Json.h.
    The parser's state is [position_] and [error_]; errorPosition_ cannot be observed and is left out.
    [json_[i]] is vector::operator[], undefined behaviour at and beyond the size. *)
From Coq Require Import List NArith ZArith Bool Arith.
From Verif Require Import Outcome CharModel CharUtil StrModel StrUtil Dec JsonData.
Import ListNotations.
Local Open Scope N_scope.
Local Open Scope list_scope.

(** Result of std::stoll, std::stoul, std::stod: a value, std::invalid_argument or std::out_of_range. *)
Inductive conversion (A : Type) := Converted (a : A) | ConvInvalid | ConvRange.
Arguments Converted {A} a.
Arguments ConvInvalid {A}.
Arguments ConvRange {A}.

(** strtoll base 10: the value of the leading digits *)
Fixpoint dec_run (acc : N) (s : list N) : N :=
  match s with
  | [] => acc
  | b :: r => if (48 <=? b) && (b <=? 57) then dec_run (acc * 10 + (b - 48)) r else acc
  end.

(** std::stoll(s) (used at JsonParser.h 386) *)
Definition stoll (s : list N) : conversion Z :=
  let s := skip_cspace s in
  let '(neg, s) := match s with
                   | 45 :: r => (true, r)
                   | 43 :: r => (false, r)
                   | _ => (false, s)
                   end in
  match s with
  | b :: _ =>
      if (48 <=? b) && (b <=? 57) then
        let z := if neg then (- Z.of_N (dec_run 0 s))%Z else Z.of_N (dec_run 0 s) in
        if ((-9223372036854775808 <=? z) && (z <=? 9223372036854775807))%Z then Converted z else ConvRange
      else ConvInvalid
  | [] => ConvInvalid
  end.

(** std::stoul(s, nullptr, 16) (used at JsonParser.h 312): a minus sign negates modulo 2^64. *)
Definition stoul16 (s : list N) : conversion N :=
  let s := skip_cspace s in
  let '(neg, s) := match s with
                   | 45 :: r => (true, r)
                   | 43 :: r => (false, r)
                   | _ => (false, s)
                   end in
  match hex_magnitude s with
  | None => ConvInvalid
  | Some m => if size_max <? m then ConvRange
              else Converted (if neg then wrap64 (- Z.of_N m) else m)
  end.

(** std::string::compare(pos, n, w) == 0 (JsonParser.h 247, 349, 354) *)
Definition compare_at (bytes : list N) (pos n : nat) (w : list N) : outcome bool :=
  if Nat.ltb (length bytes) pos then Throw EOutOfRange
  else Ok (bytes_eqb (firstn n (skipn pos bytes)) w).

(** JsonParser.h 369-371: a character of a number *)
Definition number_char (c : Chr) : outcome bool :=
  cp <- get_code_point c ;;
  Ok (is_digit cp || is_ascii c 0x2E || is_ascii c 0x65 || is_ascii c 0x45 || is_ascii c 0x2D || is_ascii c 0x2B).

(** JsonParser.h 367-374: the loop finding the end of a number *)
Fixpoint number_end (l : Str) (e : nat) : outcome nat :=
  match l with
  | [] => Ok e
  | c :: r => b <- number_char c ;; if b then number_end r (S e) else Ok e
  end.

(** JsonParser.h 273-300: what the escapes other than \u write *)
Definition json_escape (c : Chr) : option N :=
  if is_ascii c 0x22 then Some 0x22
  else if is_ascii c 0x5C then Some 0x5C
  else if is_ascii c 0x62 then Some 0x08
  else if is_ascii c 0x66 then Some 0x0C
  else if is_ascii c 0x6E then Some 0x0A
  else if is_ascii c 0x72 then Some 0x0D
  else if is_ascii c 0x74 then Some 0x09
  else None.

(** JsonParser.h 405-411: the loop of SkipSpace on the characters from position_ on *)
Fixpoint skip_from (l : Str) (pos : nat) : outcome nat :=
  match l with
  | [] => Ok pos
  | c :: r => cp <- get_code_point c ;; if is_space cp then skip_from r (S pos) else Ok pos
  end.

Section Parser.
Context {F : Type}.
Variable f_zero : F.
Variable stod : list N -> conversion F.   (* std::stod, narrowed to float *)
Variable s : Str.                         (* json_ *)

Notation json := (json F).
(** value, position_ and error_ after a call *)
Notation result := (json * nat * jerror)%type.

(** JsonParser.h 405-411 SkipSpace *)
Definition skip_space (pos : nat) : outcome nat := skip_from (skipn pos s) pos.

(** JsonParser.h 245-255 ParseNull *)
Definition parse_null (pos : nat) (err : jerror) : outcome result :=
  b <- compare_at (s_str s) pos 4 null_bytes ;;
  Ok (if b : bool then (make_null f_zero, (pos + 4)%nat, err) else (JNull, pos, InvalidValue)).

(** JsonParser.h 347-362 ParseBoolean *)
Definition parse_boolean (pos : nat) (err : jerror) : outcome result :=
  b <- compare_at (s_str s) pos 4 true_bytes ;;
  if b : bool then Ok (JBool true, (pos + 4)%nat, err)
  else
    b' <- compare_at (s_str s) pos 5 false_bytes ;;
    Ok (if b' : bool then (JBool false, (pos + 5)%nat, err) else (JNull, pos, InvalidValue)).

(** JsonParser.h 364-403 ParseNumber *)
Definition parse_number (pos : nat) (err : jerror) : outcome result :=
  e <- number_end (skipn pos s) pos ;;
  t <- s_substring s (N.of_nat pos) (N.of_nat (e - pos)) ;;
  f1 <- s_find t [[0x2B]] 0 ;;
  f2 <- s_find t [[0x65]] 0 ;;
  f3 <- s_find t [[0x45]] 0 ;;
  let conv := match f1, f2, f3 with
              | None, None, None =>
                  match stoll (s_str t) with
                  | Converted z => Converted (j_of_int z)
                  | ConvInvalid => ConvInvalid
                  | ConvRange => ConvRange
                  end
              | _, _, _ =>
                  match stod (s_str t) with
                  | Converted f => Converted (j_of_float f)
                  | ConvInvalid => ConvInvalid
                  | ConvRange => ConvRange
                  end
              end in
  Ok (match conv with
      | Converted v => (v, e, err)
      | ConvRange => (JNull, pos, OutOfRangeError)
      | ConvInvalid => (JNull, pos, InvalidNumber)
      end).

(** JsonParser.h 262-344: the loop of ParseString; [out] is what has been written to the stream. *)
Fixpoint string_loop (fuel : nat) (pos : nat) (err : jerror) (out : list N) : outcome result :=
  match fuel with
  | O => NoFuel
  | S f =>
      if Nat.ltb pos (length s) then
        c <- s_index s pos ;;
        if is_ascii c 0x22 then
          v <- j_of_std out ;; Ok (v, S pos, err)                          (* 337-341 *)
        else if is_ascii c 0x5C then
          let pos := S pos in                                              (* 266 *)
          if Nat.leb (length s) pos then Ok (JNull, pos, UnterminatedString)
          else
            c <- s_index s pos ;;
            match json_escape c with
            | Some b => string_loop f (pos + 2)%nat err (out ++ [b])         (* 329, 335 *)
            | None =>
                if is_ascii c 0x75 then
                  if Nat.leb (length s) (pos + 4) then Ok (JNull, pos, InvalidEscapeSequence)
                  else
                    h <- s_substring s (N.of_nat (pos + 1)) 4 ;;
                    match stoul16 (s_str h) with
                    | Converted cp => string_loop f (pos + 6)%nat err (out ++ [cp mod 256])   (* 321, 329, 335 *)
                    | _ => Ok (JNull, pos, InvalidEscapeSequence)
                    end
                else Ok (JNull, pos, InvalidEscapeSequence)
            end
        else string_loop f (S pos) err (out ++ cstr c)                     (* 333, 335 *)
      else
        _ <- s_index s pos ;; Ok (JNull, pos, UnterminatedString)          (* 337 *)
  end.
(** JsonParser.h 257-345 ParseString *)
Definition parse_string (pos : nat) (err : jerror) : outcome result :=
  string_loop (S (length s)) (S pos) err [].

(** JsonParser.h 126-194: the loop of ParseObject; [pv] is ParseValue. *)
Fixpoint object_loop (pv : nat -> jerror -> outcome result) (fuel : nat) (obj : json) (pos : nat) (err : jerror)
  : outcome result :=
  match fuel with
  | O => NoFuel
  | S f =>
      if Nat.ltb pos (length s) then
        pos <- skip_space pos ;;
        c <- s_index s pos ;;
        if is_ascii c 0x7D then Ok (obj, S pos, err)
        else if is_ascii c 0x22 then
          let pos := S pos in
          key_end <- s_find s [[0x22]] (N.of_nat pos) ;;
          match key_end with
          | None => Ok (JNull, pos, UnterminatedString)
          | Some e =>
              key <- s_substring s (N.of_nat pos) (N.of_nat (e - pos)) ;;
              pos <- skip_space (S e) ;;
              c <- s_index s pos ;;
              if is_ascii c 0x3A then
                pos <- skip_space (S pos) ;;
                '(v, pos, err) <- pv pos err ;;
                let obj := store_key f_zero obj key v in
                pos <- skip_space pos ;;
                c <- s_index s pos ;;
                if is_ascii c 0x2C then
                  pos <- skip_space (S pos) ;;
                  c <- s_index s pos ;;
                  if is_ascii c 0x7D then Ok (JNull, pos, TrailingComma)
                  else object_loop pv f obj pos err
                else if is_ascii c 0x7D then Ok (obj, S pos, err)
                else Ok (JNull, pos, UnexpectedCharacter)
              else Ok (JNull, pos, MissingColon)
          end
        else Ok (JNull, pos, UnexpectedCharacter)
      else Ok (JNull, pos, UnterminatedObject)
  end.
(** JsonParser.h 120-195 ParseObject *)
Definition parse_object (pv : nat -> jerror -> outcome result) (pos : nat) (err : jerror) : outcome result :=
  pos <- skip_space (S pos) ;; object_loop pv (S (length s)) (make_object f_zero) pos err.

(** JsonParser.h 203-242: the loop of ParseArray *)
Fixpoint array_loop (pv : nat -> jerror -> outcome result) (fuel : nat) (arr : json) (pos : nat) (err : jerror)
  : outcome result :=
  match fuel with
  | O => NoFuel
  | S f =>
      if Nat.ltb pos (length s) then
        pos <- skip_space pos ;;
        c <- s_index s pos ;;
        if is_ascii c 0x5D then Ok (arr, S pos, err)
        else
          '(v, pos, err) <- pv pos err ;;
          let arr := append1 f_zero arr v in
          pos <- skip_space pos ;;
          c <- s_index s pos ;;
          if is_ascii c 0x2C then
            pos <- skip_space (S pos) ;;
            c <- s_index s pos ;;
            if is_ascii c 0x5D then Ok (JNull, pos, TrailingComma)
            else array_loop pv f arr pos err
          else if is_ascii c 0x5D then Ok (arr, S pos, err)
          else Ok (JNull, pos, UnexpectedCharacter)
      else Ok (JNull, pos, UnterminatedArray)
  end.
(** JsonParser.h 197-243 ParseArray *)
Definition parse_array (pv : nat -> jerror -> outcome result) (pos : nat) (err : jerror) : outcome result :=
  pos <- skip_space (S pos) ;; array_loop pv (S (length s)) (make_array f_zero []) pos err.

(** JsonParser.h 81-118 ParseValue; [depth] is the number of calls of ParseObject and ParseArray that may
    still be nested inside each other. *)
Fixpoint parse_value (depth : nat) (pos : nat) (err : jerror) : outcome result :=
  pos <- skip_space pos ;;
  if Nat.leb (length s) pos then Ok (JNull, pos, err)
  else
    c <- s_index s pos ;;
    if is_ascii c 0x22 then parse_string pos err
    else if is_ascii c 0x7B then
      match depth with O => NoFuel | S d => parse_object (parse_value d) pos err end
    else if is_ascii c 0x5B then
      match depth with O => NoFuel | S d => parse_array (parse_value d) pos err end
    else if is_ascii c 0x74 || is_ascii c 0x66 then parse_boolean pos err
    else if is_ascii c 0x6E then parse_null pos err
    else
      cp <- get_code_point c ;;
      if is_digit cp || is_ascii c 0x2D || is_ascii c 0x2B then parse_number pos err
      else Ok (JNull, pos, UnexpectedCharacter).

(** JsonParser.h 32-59 Parse: data_ and error_, nesting at most [depth]. *)
Definition parser_parse (depth : nat) : outcome (json * jerror) :=
  if s_is_empty s then Ok (JNull, InvalidJson)
  else
    first <- find_first_non_space s ;;
    last <- find_last_non_space s ;;
    c <- s_index s first ;;
    if negb (is_ascii c 0x7B) then Ok (JNull, InvalidJson)
    else
      c <- s_index s last ;;
      if negb (is_ascii c 0x7D) then Ok (JNull, InvalidJson)
      else '(v, _, err) <- parse_value depth 0 NoError ;; Ok (v, err).

(** Json.h 107-120 Parse: the document afterwards.  The nesting never exceeds the length (C59). *)
Definition doc_parse : outcome (@document F) :=
  '(v, err) <- parser_parse (length s) ;;
  Ok (match err with
      | NoError => {| root := v; error := NoError |}
      | _ => {| root := make_null f_zero; error := err |}
      end).

End Parser.

(** Json.h 122-127 Parse(ifstream), 219-225 operator>>: the remaining bytes of the stream *)
Definition doc_parse_bytes {F} (f_zero : F) (stod : list N -> conversion F) (bytes : list N) : outcome (@document F) :=
  s <- string_of_std bytes ;; doc_parse f_zero stod s.
