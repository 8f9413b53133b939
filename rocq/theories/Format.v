(** Model of String::Format and its Formatter, __Core/String/String.h 561-974.
    The conversion of arguments to Strings (ToString, 711-757) is not modelled: [args] is the
    vector [arguments] of line 565.
    Positions: instead of an index [pos] into a String the functions work on the part of the
    String from [pos] on, so [config[pos]] is the head of the list and reading an empty list is the
    out-of-range access config[size()]. *)
From Coq Require Import List NArith ZArith Bool.
From Verif Require Import Outcome CharModel CharUtil StrModel StrUtil.
Import ListNotations.
Local Open Scope N_scope.

(** String.h 668-673 *)
Inductive alignment := ALeft | ARight | ACenter.
(** String.h 675-680 *)
Inductive value_type := VString | VIntegral | VFloating.

(** String.h 693-701 FormatSpecifier ([repr] is never read or written) *)
Record fspec := { f_align : alignment; f_width : N; f_fill : Chr; f_type : value_type; f_prec : Z }.
(** String.h 693-701: default member initialisers *)
Definition fspec0 : fspec :=
  {| f_align := ALeft; f_width := 0; f_fill := [0x20]; f_type := VString; f_prec := (-1)%Z |}.

(** ASCII decimal digit (strtoul base 10) *)
Definition dec_digit (b : N) : option N := if (48 <=? b) && (b <=? 57) then Some (b - 48) else None.

(** strtoul/strtol base 10: the value of the leading digits *)
Fixpoint dec_run (acc : N) (s : list N) : N :=
  match s with
  | [] => acc
  | b :: r => match dec_digit b with Some v => dec_run (acc * 10 + v) r | None => acc end
  end.

(** std::stoul (String.h 600, 810) and std::stoi (825): no digits is std::invalid_argument, a value above
    [limit] is std::out_of_range.  White space and signs are not modelled: at the three call sites the
    text starts with a character for which IsDigit holds. *)
Definition sto_decimal (limit : N) (s : list N) : outcome N :=
  match s with
  | [] => Throw EInvalidArgument
  | b :: _ =>
      match dec_digit b with
      | None => Throw EInvalidArgument
      | Some _ => let v := dec_run 0 s in if limit <? v then Throw EOutOfRange else Ok v
      end
  end.

(** String.h 591-597, 811-814, 826-829: split off the leading run of digits *)
Fixpoint digit_run (s : Str) : outcome (Str * Str) :=
  match s with
  | [] => Ok ([], [])
  | c :: r =>
      cp <- get_code_point c ;;
      if is_digit cp then '(d, r') <- digit_run r ;; Ok (c :: d, r') else Ok ([], s)
  end.

(** String.h 768-769, 773-787: alignment characters *)
Definition align_char (c : Chr) : option alignment :=
  if is_ascii c 0x3C then Some ALeft
  else if is_ascii c 0x3E then Some ARight
  else if is_ascii c 0x5E then Some ACenter
  else None.

(** String.h 775, 780, 785 *)
Definition set_align (spec : fspec) (a : alignment) : fspec :=
  {| f_align := a; f_width := f_width spec; f_fill := f_fill spec; f_type := f_type spec; f_prec := f_prec spec |}.
(** String.h 760-763 SetFill *)
Definition set_fill (spec : fspec) (c : Chr) : fspec :=
  {| f_align := f_align spec; f_width := f_width spec; f_fill := c; f_type := f_type spec; f_prec := f_prec spec |}.
(** String.h 810 *)
Definition set_width (spec : fspec) (w : N) : fspec :=
  {| f_align := f_align spec; f_width := w; f_fill := f_fill spec; f_type := f_type spec; f_prec := f_prec spec |}.
(** String.h 825 *)
Definition set_prec (spec : fspec) (p : Z) : fspec :=
  {| f_align := f_align spec; f_width := f_width spec; f_fill := f_fill spec; f_type := f_type spec; f_prec := p |}.
(** String.h 840, 845, 850 *)
Definition set_type (spec : fspec) (t : value_type) : fspec :=
  {| f_align := f_align spec; f_width := f_width spec; f_fill := f_fill spec; f_type := t; f_prec := f_prec spec |}.

(** String.h 765-804 ParseAlignment *)
Definition parse_alignment (config : Str) (spec : fspec) : outcome (fspec * Str) :=
  match config with
  | [] => UB                                                   (* config[pos] at 789 *)
  | c :: r =>
      match (match r with c1 :: r1 => option_map (fun a => (a, r1)) (align_char c1) | [] => None end) with
      | Some (a, r1) => Ok (set_align (set_fill spec c) a, r1)
      | None =>
          match align_char c with
          | Some a => Ok (set_align spec a, r)
          | None => Ok (spec, config)
          end
      end
  end.

(** String.h 806-816 ParseWidth *)
Definition parse_width (config : Str) (spec : fspec) : outcome (fspec * Str) :=
  '(d, r) <- digit_run config ;;
  match d with
  | [] => Ok (spec, config)
  | _ => w <- sto_decimal size_max (s_str config) ;; Ok (set_width spec w, r)
  end.

(** String.h 818-832 ParsePrecision *)
Definition parse_precision (config : Str) (spec : fspec) : outcome (fspec * Str) :=
  match config with
  | c :: config' =>
      if is_ascii c 0x2E then
        '(d, r) <- digit_run config' ;;
        match d with
        | [] => Ok (spec, config')
        | _ => p <- sto_decimal 2147483647 (s_str config') ;; Ok (set_prec spec (Z.of_N p), r)
        end
      else Ok (spec, config)
  | [] => Ok (spec, config)
  end.

(** String.h 834-854 ParseValueType *)
Definition parse_value_type (config : Str) (spec : fspec) : fspec :=
  match config with
  | c :: _ =>
      if is_ascii c 0x73 then set_type spec VString
      else if is_ascii c 0x64 then set_type spec VIntegral
      else if is_ascii c 0x66 then set_type spec VFloating
      else spec
  | [] => spec
  end.

(** String.h 856-871 MakeSpacifier *)
Definition make_specifier (config : Str) : outcome fspec :=
  match config with
  | [] => UB
  | c :: config =>
      if negb (is_ascii c 0x3A) then Throw EFormatError
      else
        '(spec, config) <- parse_alignment config fspec0 ;;
        '(spec, config) <- parse_width config spec ;;
        '(spec, config) <- parse_precision config spec ;;
        Ok (parse_value_type config spec)
  end.

(** String.h 874-896 ProcessAlignment *)
Definition process_alignment (value : Str) (spec : fspec) : outcome Str :=
  let size := N.of_nat (length value) in
  if f_width spec <=? size then Ok value
  else
    let padding := f_width spec - size in
    match f_align spec with
    | ALeft => Ok (s_append_n_char value (N.to_nat padding) (f_fill spec))
    | ARight => s_insert_n_char value 0 (N.to_nat padding) (f_fill spec)
    | ACenter =>
        value' <- s_insert_n_char value 0 (N.to_nat (padding / 2)) (f_fill spec) ;;
        Ok (s_append_n_char value' (N.to_nat (padding - padding / 2)) (f_fill spec))
    end.

(** String.h 924-928: copy at most [limit] digits; returns the bytes written and how many characters *)
Fixpoint copy_decimals (limit : nat) (s : Str) : outcome (list N * nat) :=
  match limit, s with
  | S l, c :: r =>
      cp <- get_code_point c ;;
      if is_digit cp then '(out, n) <- copy_decimals l r ;; Ok (cstr c ++ out, S n)
      else Ok ([], O)
  | _, _ => Ok ([], O)
  end.

(** String.h 912-947: the text written to [oss].  [limit - index] at 929 is the precision minus the
    characters copied; dot_index + 1 + precision does not overflow (a String is shorter than 2^63). *)
Definition floating_text (value : Str) (prec : Z) : outcome (list N) :=
  dot <- s_find value [[0x2E]] 0 ;;
  match dot with
  | Some i =>
      head <- s_substring value 0 (N.of_nat i + 1) ;;
      if (0 <? prec)%Z then
        '(out, n) <- copy_decimals (Z.to_nat prec) (skipn (S i) value) ;;
        Ok (s_str head ++ out ++ repeat 0x30 (Z.to_nat prec - n))
      else Ok (s_str head)
  | None =>
      Ok (s_str value ++ (if (0 <? prec)%Z then 0x2E :: repeat 0x30 (Z.to_nat prec) else []))
  end.

(** String.h 960-973 Process, with ProcessString 903-908, ProcessIntegral 953-958,
    ProcessFloating 910-951 *)
Definition process (value : Str) (spec : fspec) : outcome Str :=
  match f_type spec with
  | VString | VIntegral => process_alignment value spec
  | VFloating =>
      t <- floating_text value (f_prec spec) ;;
      result <- string_of_std t ;;
      process_alignment result spec
  end.

(** String.h 598-605: try { stoul } catch out_of_range -> FormatError *)
Definition stoul_or_format_error (s : list N) : outcome N :=
  match sto_decimal size_max s with
  | Throw EOutOfRange => Throw EFormatError
  | m => m
  end.

(** vector::operator[] with a size_t index *)
Definition vec_get_N {A} (l : list A) (i : N) : outcome A :=
  if N.of_nat (length l) <=? i then UB else vec_get l (N.to_nat i).

(** String.h 588-641: one replacement field; gives the bytes written and the new auto_index *)
Definition format_field (args : list Str) (spec : Str) (auto : nat) : outcome (list N * nat) :=
  '(index, format_spec) <- digit_run spec ;;
  match index, spec with
  | _ :: _, _ =>
      arg_index <- stoul_or_format_error (s_str index) ;;
      if wrap64 (Z.of_nat (length args) - 1) <? arg_index then Throw EFormatError
      else
        match format_spec with
        | [] => a <- vec_get_N args arg_index ;; Ok (s_str a, auto)
        | c :: _ =>
            if is_ascii c 0x3A then
              parsed <- make_specifier format_spec ;;
              a <- vec_get args auto ;;
              r <- process a parsed ;;
              Ok (s_str r, auto)
            else Ok ([], auto)
        end
  | [], c :: _ =>
      if is_ascii c 0x3A then
        parsed <- make_specifier spec ;;
        a <- vec_get args 0 ;;
        r <- process a parsed ;;
        Ok (s_str r, auto)
      else
        match length args with
        | 1%nat => a <- vec_get args 0 ;; Ok (s_str a, auto)
        | O => Throw EFormatError
        | _ => a <- vec_get args auto ;; Ok (s_str a, S auto)
        end
  | [], [] =>
      match length args with
      | 1%nat => a <- vec_get args 0 ;; Ok (s_str a, auto)
      | O => Throw EFormatError
      | _ => a <- vec_get args auto ;; Ok (s_str a, S auto)
      end
  end.

(** String.h 571-661: the main loop; gives the bytes written to [result]. *)
Fixpoint format_loop (fuel : nat) (args : list Str) (rest : Str) (auto : nat) : outcome (list N) :=
  match fuel with
  | O => NoFuel
  | S f =>
      match rest with
      | [] => Ok []
      | c :: r =>
          if is_ascii c 0x7B then
            if match r with c1 :: _ => is_ascii c1 0x7B | [] => false end then
              out <- format_loop f args (skipn 2 rest) auto ;; Ok (0x7B :: out)
            else
              e <- s_find rest [[0x7D]] 0 ;;
              match e with
              | None => Throw EFormatError
              | Some e =>
                  spec <- s_substring rest 1 (N.of_nat e - 1) ;;
                  '(piece, auto') <- format_field args spec auto ;;
                  out <- format_loop f args (skipn (S e) rest) auto' ;;
                  Ok (piece ++ out)
              end
          else if is_ascii c 0x7D then
            if match r with c1 :: _ => is_ascii c1 0x7D | [] => false end then
              out <- format_loop f args (skipn 2 rest) auto ;; Ok (0x7D :: out)
            else Throw EFormatError
          else
            out <- format_loop f args r auto ;; Ok (cstr c ++ out)
      end
  end.

(** String.h 562-663 Format *)
Definition format (template : Str) (args : list Str) : outcome Str :=
  out <- format_loop (S (length template)) args template 0 ;; string_of_std out.
