(** Model of __Core/String/Utility.h and __Core/String/StringBuilder.h. *)
From Coq Require Import List NArith ZArith Bool.
From Verif Require Import Outcome CharModel CharUtil StrModel.
Import ListNotations.
Local Open Scope N_scope.

(** std::getline(ss, item, delim) on the unread rest of a stringstream (used at Utility.h 36):
    [None] when it fails (nothing left), otherwise the item and the new rest.
    Whether the item was ended by the delimiter or by the end makes no difference for the
    next call when nothing is left: it fails in both cases. *)
Fixpoint take_until (d : N) (rest : list N) : list N * list N :=
  match rest with
  | [] => ([], [])
  | b :: r => if b =? d then ([], r) else let '(i, r') := take_until d r in (b :: i, r')
  end.
(** std::getline, see above *)
Definition getline (d : N) (rest : list N) : option (list N * list N) :=
  match rest with
  | [] => None
  | _ => Some (take_until d rest)
  end.

(** Utility.h 36-39: the loop *)
Fixpoint split_loop (fuel : nat) (d : N) (rest : list N) : outcome (list (list N)) :=
  match fuel with
  | O => NoFuel
  | S f =>
      match getline d rest with
      | None => Ok []
      | Some (item, rest') => items <- split_loop f d rest' ;; Ok (item :: items)
      end
  end.

(** Utility.h 30-41 Split *)
Definition split (text : list N) (d : N) : outcome (list (list N)) := split_loop (S (length text)) d text.

(** Utility.h 43-55 Repeat *)
Definition repeat_str (s : list N) (count : nat) : list N :=
  if Nat.ltb count 2 then s else concat (repeat s count).

(** isspace in the "C" locale, as strtol skips it (used by std::stoi at Utility.h 126). *)
Definition c_isspace (b : N) : bool := (b =? 32) || ((9 <=? b) && (b <=? 13)).

(** Value of a hexadecimal digit (strtol base 16). *)
Definition hex_digit (b : N) : option N :=
  if (48 <=? b) && (b <=? 57) then Some (b - 48)
  else if (65 <=? b) && (b <=? 70) then Some (b - 55)
  else if (97 <=? b) && (b <=? 102) then Some (b - 87)
  else None.

(** strtol base 16: digits, most significant first *)
Fixpoint hex_run (acc : N) (s : list N) : N :=
  match s with
  | [] => acc
  | b :: r => match hex_digit b with Some v => hex_run (acc * 16 + v) r | None => acc end
  end.

(** strtol base 16: optional 0x prefix (only when a hexadecimal digit follows), then digits;
    [None] when there is no digit. *)
Definition hex_magnitude (s : list N) : option N :=
  match s with
  | b :: r =>
      match b, r with
      | 48, x :: h :: r' =>
          if (x =? 120) || (x =? 88) then
            match hex_digit h with Some _ => Some (hex_run 0 (h :: r')) | None => Some 0 end
          else Some (hex_run 0 s)
      | _, _ => match hex_digit b with Some _ => Some (hex_run 0 s) | None => None end
      end
  | [] => None
  end.

(** strtol: skip white space *)
Fixpoint skip_cspace (s : list N) : list N :=
  match s with
  | b :: r => if c_isspace b then skip_cspace r else s
  | [] => []
  end.

(** std::stoi(s, nullptr, 16) (used at Utility.h 126): throws std::invalid_argument without digits
    and std::out_of_range when the value does not fit an int. *)
Definition stoi16 (s : list N) : outcome Z :=
  let s := skip_cspace s in
  let '(neg, s) := match s with
                   | 45 :: r => (true, r)
                   | 43 :: r => (false, r)
                   | _ => (false, s)
                   end in
  match hex_magnitude s with
  | None => Throw EInvalidArgument
  | Some m =>
      let z := if neg then (- Z.of_N m)%Z else Z.of_N m in
      if ((-2147483648 <=? z) && (z <=? 2147483647))%Z then Ok z else Throw EOutOfRange
  end.

(** static_cast<char>(int): the low byte *)
Definition low_byte (z : Z) : N := Z.to_N (z mod 256)%Z.

(** Defs.h constants (Char/Defs.h 31-150), each a one-byte C string; compared with a Char through
    Char(const char* ). *)
Definition is_ascii (c : Chr) (b : N) : bool := char_eqb c [b].

(** Utility.h 65-119: the one-character escapes. *)
Definition simple_escape (c : Chr) : option N :=
  if is_ascii c 0x22 then Some 0x22        (* quotation mark *)
  else if is_ascii c 0x3F then Some 0x3F   (* question mark *)
  else if is_ascii c 0x5C then Some 0x5C   (* reverse solidus *)
  else if is_ascii c 0x2F then Some 0x2F   (* solidus *)
  else if is_ascii c 0x61 then Some 0x07   (* a *)
  else if is_ascii c 0x62 then Some 0x08   (* b *)
  else if is_ascii c 0x66 then Some 0x0C   (* f *)
  else if is_ascii c 0x6E then Some 0x0A   (* n *)
  else if is_ascii c 0x72 then Some 0x0D   (* r *)
  else if is_ascii c 0x74 then Some 0x09   (* t *)
  else if is_ascii c 0x76 then Some 0x0B   (* v *)
  else None.

(** Utility.h 61-145: the loop, on the characters from index i on; gives the bytes written to [oss].
    [c :: rest] is str[i], str[i+1], ... *)
Fixpoint escape_loop (fuel : nat) (s : Str) : outcome (list N) :=
  match fuel with
  | O => NoFuel
  | S f =>
      match s with
      | [] => Ok []
      | c :: rest =>
          match is_ascii c 0x5C, rest with
          | true, c1 :: rest1 =>
              match simple_escape c1 with
              | Some b => out <- escape_loop f rest1 ;; Ok (b :: out)           (* ++i *)
              | None =>
                  if is_ascii c1 0x75 && Nat.ltb 5 (length s) then               (* i + 5 < size *)
                    v <- stoi16 (s_str (firstn 4 rest1)) ;;
                    out <- escape_loop f (skipn 4 rest1) ;;                      (* i += 5 *)
                    Ok (low_byte v :: out)
                  else
                    out <- escape_loop f rest ;;                                 (* i not advanced *)
                    Ok (0x5C :: cstr c1 ++ out)
              end
          | _, _ => out <- escape_loop f rest ;; Ok (cstr c ++ out)
          end
      end
  end.

(** Utility.h 57-147 EscapeString *)
Definition escape_string (s : Str) : outcome Str :=
  out <- escape_loop (S (length s)) s ;; string_of_std out.

(** Utility.h 152: std::all_of *)
Fixpoint all_digits (s : Str) : outcome bool :=
  match s with
  | [] => Ok true
  | c :: r => cp <- get_code_point c ;; if is_digit cp then all_digits r else Ok false
  end.
(** Utility.h 149-153 IsNumber *)
Definition is_number (s : Str) : outcome bool :=
  if s_not_empty s then all_digits s else Ok false.

(** Utility.h 155-165 FindFirstNonSpace *)
Fixpoint first_loop (s : Str) (i : nat) : outcome nat :=
  match s with
  | [] => Ok i
  | c :: r => cp <- get_code_point c ;; if is_space cp then first_loop r (S i) else Ok i
  end.
(** Utility.h 155-165 FindFirstNonSpace; on exhaustion i is size(). *)
Definition find_first_non_space (s : Str) : outcome nat := first_loop s 0.

(** Utility.h 169-175: the loop from i down to 1 *)
Fixpoint last_loop (s : Str) (i : nat) : outcome nat :=
  match i with
  | O => Ok (length s)
  | S i' =>
      c <- s_index s i ;;
      cp <- get_code_point c ;;
      if is_space cp then last_loop s i' else Ok i
  end.
(** Utility.h 167-177 FindLastNonSpace.  On an empty String size() - 1 is the largest size_t and
    str[i] is out of range. *)
Definition find_last_non_space (s : Str) : outcome nat :=
  match s with
  | [] => UB
  | _ => last_loop s (length s - 1)
  end.

(** StringBuilder.h 25-93: the member std::ostringstream is its buffer and write position. *)
Record sbuilder := { sb_buf : list N; sb_pos : nat }.

(** std::ostringstream: write bytes at the write position, overwriting what is there. *)
Definition oss_write (b : sbuilder) (t : list N) : sbuilder :=
  {| sb_buf := firstn (sb_pos b) (sb_buf b) ++ t ++ skipn (sb_pos b + length t) (sb_buf b);
     sb_pos := sb_pos b + length t |}.

(** StringBuilder.h 31 default constructor *)
Definition sb_new : sbuilder := {| sb_buf := []; sb_pos := 0 |}.
(** StringBuilder.h 33-36 StringBuilder(char) *)
Definition sb_of_byte (b : N) : sbuilder := oss_write sb_new [b].
(** StringBuilder.h 38-41 StringBuilder(const char* ), [p] up to its NUL *)
Definition sb_of_cstr (p : list N) : sbuilder := oss_write sb_new (cstr p).
(** StringBuilder.h 43-46 StringBuilder(const String&) *)
Definition sb_of_string (s : Str) : sbuilder := oss_write sb_new (s_str s).
(** StringBuilder.h 54-56 copy constructor: ostringstream{str} starts writing at the beginning. *)
Definition sb_copy (b : sbuilder) : sbuilder := {| sb_buf := sb_buf b; sb_pos := 0 |}.
(** StringBuilder.h 58-60 move constructor keeps the position. *)
Definition sb_move (b : sbuilder) : sbuilder := b.
(** StringBuilder.h 63-66 Append(const String&); 68-72 (with arguments) append the formatted String *)
Definition sb_append (b : sbuilder) (s : Str) : sbuilder := oss_write b (s_str s).
(** StringBuilder.h 74-83 AppendLine *)
Definition sb_append_line (b : sbuilder) (s : Str) : sbuilder := oss_write (oss_write b (s_str s)) [0x0A].
(** StringBuilder.h 86-89 str() *)
Definition sb_str (b : sbuilder) : outcome Str := string_of_std (sb_buf b).

(** A call of StringBuilder.h 63-83 in a history of calls. *)
Inductive sb_op := OpAppend (s : Str) | OpAppendLine (s : Str).
(** StringBuilder.h 63-83 *)
Definition sb_apply (b : sbuilder) (o : sb_op) : sbuilder :=
  match o with OpAppend s => sb_append b s | OpAppendLine s => sb_append_line b s end.
