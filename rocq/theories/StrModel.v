(** Model of __Core/String/String.h (except Format, see Format.v).
    A String is its [data_]: the list of its Chars (String.h 44, 1006). *)
From Coq Require Import List NArith ZArith Bool.
From Verif Require Import Outcome CharModel CharUtil.
Import ListNotations.
Local Open Scope N_scope.

(** String.h 40-50, 1006 *)
Notation Str := (list Chr).

(** String.h 559 NPosition is the largest SizeType; results of the find family are
    [None] for NPosition and [Some i] otherwise (a container never has that many elements). *)
Definition find_result := option nat.

(** String.h 977-1003 DecodeUtf8Char: number of bytes announced by the lead byte. *)
Definition lead_length (c : N) : outcome nat :=
  if N.land c 0x80 =? 0 then Ok 1%nat
  else if N.land c 0xE0 =? 0xC0 then Ok 2%nat
  else if N.land c 0xF0 =? 0xE0 then Ok 3%nat
  else if N.land c 0xF8 =? 0xF0 then Ok 4%nat
  else Throw ERuntimeError.

(** String.h 977-1003 DecodeUtf8Char.  [mem] is the readable memory from the pointer to the
    end of the buffer (terminator included); line 1002 copies [len] bytes of it without
    looking for the terminator. *)
Definition decode_utf8_char (mem : list N) : outcome Chr :=
  match mem with
  | [] => UB
  | c :: _ =>
      len <- lead_length c ;;
      if Nat.ltb (length mem) len then UB
      else char_of_bytes (firstn len mem)
  end.

(** String.h 57-62, 69-74, 272-277, 492-496: the decoding loop. *)
Fixpoint decode_loop (fuel : nat) (mem : list N) : outcome Str :=
  match fuel with
  | O => NoFuel
  | S f =>
      match mem with
      | [] => UB
      | b :: _ =>
          if b =? 0 then Ok []
          else
            c <- decode_utf8_char mem ;;
            cs <- decode_loop f (skipn (length c) mem) ;;
            Ok (c :: cs)
      end
  end.

(** String.h 55-63 String(const char* ): [mem] is the memory from the pointer on. *)
Definition string_of_cstr (mem : list N) : outcome Str := decode_loop (S (length mem)) mem.

(** String.h 66-75 String(const BasicString&): c_str() is the bytes and a terminator. *)
Definition string_of_std (s : list N) : outcome Str := string_of_cstr (s ++ [0]).

(** String.h 78-80 String(const std::vector<CharType>&) *)
Definition string_of_chars (cs : list Chr) : Str := cs.

(** String.h 83-89 String(SizeType, char): each element is validated. *)
Fixpoint string_fill_byte (count : nat) (b : N) : outcome Str :=
  match count with
  | O => Ok []
  | S n => c <- char_of_bytes [b] ;; cs <- string_fill_byte n b ;; Ok (c :: cs)
  end.

(** String.h 91-97 String(SizeType, const Char&) *)
Definition string_fill_char (count : nat) (c : Chr) : Str := repeat c count.

(** A String built from code points (elements made by Char.h 44-46, stored by String.h 78-80). *)
Definition string_of_code_points (cps : list N) : Str := map char_of_code_point cps.

(** String.h 142-150 size, Length *)
Definition s_size (s : Str) : nat := length s.

(** String.h 152-160 operator[] *)
Definition s_index (s : Str) (i : nat) : outcome Chr := vec_get s i.

(** String.h 162-178 At (both overloads) *)
Definition s_at (s : Str) (i : N) : outcome Chr :=
  if N.of_nat (s_size s) <=? i then Throw EOutOfRange else vec_get s (N.to_nat i).

(** The right operand of +=, Append and Insert: another String or the same object. *)
Inductive operand := Other (t : Str) | Self.

(** String.h 242-246 operator+=: vector::insert of a range; a range into the same vector
    breaks its precondition ([sequence.reqmts]). *)
Definition s_append_assign (s : Str) (o : operand) : outcome Str :=
  match o with
  | Other t => Ok (s ++ t)
  | Self => UB
  end.

(** vector::operator[] used as an assignment target (used at String.h 255, 259). *)
Fixpoint vec_set {A} (l : list A) (i : nat) (x : A) : outcome (list A) :=
  match l, i with
  | [], _ => UB
  | _ :: r, O => Ok (x :: r)
  | y :: r, S j => r' <- vec_set r j x ;; Ok (y :: r')
  end.

(** String.h 253-260: the two copy loops, writing [src] from position [pos] on. *)
Fixpoint copy_from (ret : Str) (pos : nat) (src : Str) : outcome Str :=
  match src with
  | [] => Ok ret
  | c :: r => ret' <- vec_set ret pos c ;; copy_from ret' (S pos) r
  end.

(** String.h 248-262 operator+ *)
Definition s_plus (s t : Str) : outcome Str :=
  let ret := repeat [] (length s + length t) in
  ret1 <- copy_from ret 0 s ;;
  ret2 <- copy_from ret1 (length s) t ;;
  Ok (string_of_chars ret2).

(** String.h 265-268 PushBack (push_back of an element of the same vector is allowed). *)
Definition s_push_back (s : Str) (c : Chr) : Str := s ++ [c].

(** String.h 270-278 Append(const char* ) *)
Definition s_append_cstr (s : Str) (mem : list N) : outcome Str :=
  t <- string_of_cstr mem ;; Ok (s ++ t).

(** String.h 280-288 Append(SizeType, const char* ): each element is one validated Char. *)
Fixpoint s_append_n_cstr (s : Str) (count : nat) (pattern : list N) : outcome Str :=
  match count with
  | O => Ok s
  | S n => c <- char_of_cstr pattern ;; s_append_n_cstr (s ++ [c]) n pattern
  end.

(** String.h 290-298 Append(SizeType, const CharType&), [pattern] not an element of the String. *)
Definition s_append_n_char (s : Str) (count : nat) (pattern : Chr) : Str := s ++ repeat pattern count.

(** String.h 290-298 Append(SizeType, const CharType&) with [pattern] a reference to element [i]
    of the String itself, [cap] being the capacity of the vector.  emplace_back of an own element is
    allowed, but the first reallocation (size = capacity) leaves [pattern] dangling. *)
Fixpoint s_append_n_self (cap : nat) (s : Str) (count : nat) (i : nat) : outcome Str :=
  match count with
  | O => Ok s
  | S n =>
      c <- vec_get s i ;;
      if Nat.ltb (length s) cap then s_append_n_self cap (s ++ [c]) n i
      else match n with
           | O => Ok (s ++ [c])
           | S _ => UB
           end
  end.

(** String.h 300-303 Clear *)
Definition s_clear (s : Str) : Str := [].

(** String.h 473-482 str(): each Char is printed as a C string. *)
Definition s_str (s : Str) : list N := concat (map cstr s).

(** String.h 305-333 comparisons with a C string [p] (given by its bytes before the NUL). *)
Definition s_lt_cstr (s : Str) (p : list N) : bool := bytes_ltb (s_str s) p.
(** String.h 305-308 *)
Definition s_gt_cstr (s : Str) (p : list N) : bool := bytes_ltb p (s_str s).
(** String.h 325-328 *)
Definition s_eq_cstr (s : Str) (p : list N) : bool := bytes_eqb (s_str s) p.
(** String.h 330-333 *)
Definition s_ne_cstr (s : Str) (p : list N) : bool := negb (bytes_eqb (s_str s) p).
(** String.h 320-323 *)
Definition s_le_cstr (s : Str) (p : list N) : bool := negb (bytes_ltb p (s_str s)).
(** String.h 315-318 *)
Definition s_ge_cstr (s : Str) (p : list N) : bool := negb (bytes_ltb (s_str s) p).

(** String.h 355-358 operator== of vectors: sizes and elements *)
Fixpoint s_eqb (s t : Str) : bool :=
  match s, t with
  | [], [] => true
  | a :: s', b :: t' => char_eqb a b && s_eqb s' t'
  | _, _ => false
  end.

(** String.h 340-343 operator< of vectors: std::lexicographical_compare *)
Fixpoint s_ltb (s t : Str) : bool :=
  match s, t with
  | _, [] => false
  | [], _ :: _ => true
  | a :: s', b :: t' => if char_ltb a b then true else if char_ltb b a then false else s_ltb s' t'
  end.

(** String.h 360-363 *)
Definition s_neb (s t : Str) : bool := negb (s_eqb s t).
(** String.h 335-338 *)
Definition s_gtb (s t : Str) : bool := s_ltb t s.
(** String.h 350-353 *)
Definition s_leb (s t : Str) : bool := negb (s_ltb t s).
(** String.h 345-348 *)
Definition s_geb (s t : Str) : bool := negb (s_ltb s t).

(** std::equal over [p] and the start of [s] (used at String.h 372, 382); running off [s] is
    undefined behaviour. *)
Fixpoint std_equal (p s : Str) : outcome bool :=
  match p, s with
  | [], _ => Ok true
  | _ :: _, [] => UB
  | a :: p', b :: s' => if char_eqb a b then std_equal p' s' else Ok false
  end.

(** String.h 366-373 StartsWith *)
Definition s_starts_with (s prefix : Str) : outcome bool :=
  if Nat.ltb (length s) (length prefix) then Ok false else std_equal prefix s.

(** String.h 376-383 EndsWith *)
Definition s_ends_with (s suffix : Str) : outcome bool :=
  if Nat.ltb (length s) (length suffix) then Ok false else std_equal (rev suffix) (rev s).

(** Does [needle] match at the start of [hay]? (element comparison of std::search) *)
Fixpoint match_at (needle hay : Str) : bool :=
  match needle, hay with
  | [], _ => true
  | _ :: _, [] => false
  | a :: n, b :: h => char_eqb b a && match_at n h
  end.

(** std::search (used at String.h 388, 395, 410): offset of the first match, or of the end. *)
Fixpoint std_search (hay needle : Str) : nat :=
  if match_at needle hay then O
  else match hay with
       | [] => O
       | _ :: h => S (std_search h needle)
       end.

(** String.h 386-389 Contains *)
Definition s_contains (s t : Str) : bool := negb (Nat.eqb (std_search s t) (length s)).

(** String.h 392-397 Find.  begin() + pos beyond the end is undefined behaviour. *)
Definition s_find (s t : Str) (pos : N) : outcome find_result :=
  if N.of_nat (length s) <? pos then UB
  else
    let p := N.to_nat pos in
    let it := (p + std_search (skipn p s) t)%nat in
    Ok (if Nat.eqb it (length s) then None else Some it).

(** String.h 400-416 ReverseFind; size() - 1 and size() - pos - 1 wrap around. *)
Definition s_reverse_find (s t : Str) (pos : N) : outcome find_result :=
  if Nat.ltb (length s) (length t) then Ok None
  else
    let size := Z.of_nat (length s) in
    let pos := if N.of_nat (length s) <=? pos then wrap64 (size - 1) else pos in
    let off := wrap64 (size - Z.of_N pos - 1) in
    if N.of_nat (length s) <? off then UB
    else
      let o := N.to_nat off in
      let it := (o + std_search (skipn o (rev s)) (rev t))%nat in
      Ok (if Nat.eqb it (length s) then None else Some (length s - 1 - it)%nat).

(** String.h 419-428 Substring *)
Definition s_substring (s : Str) (pos count : N) : outcome Str :=
  let size := N.of_nat (length s) in
  if size <? pos then Throw EOutOfRange
  else
    let n := N.min count (size - pos) in
    Ok (string_of_chars (firstn (N.to_nat n) (skipn (N.to_nat pos) s))).

(** String.h 431-439 ByteCount *)
Fixpoint s_byte_count (s : Str) : nat :=
  match s with
  | [] => O
  | c :: r => (length c + s_byte_count r)%nat
  end.

(** String.h 442-447 FindIf *)
Fixpoint find_if_from (pred : Chr -> bool) (s : Str) : nat :=
  match s with
  | [] => O
  | c :: r => if pred c then O else S (find_if_from pred r)
  end.
(** String.h 442-447 FindIf *)
Definition s_find_if (s : Str) (pred : Chr -> bool) (pos : N) : outcome find_result :=
  if N.of_nat (length s) <? pos then UB
  else
    let p := N.to_nat pos in
    let it := (p + find_if_from pred (skipn p s))%nat in
    Ok (if Nat.eqb it (length s) then None else Some it).
(** String.h 450-455 FindIfNot *)
Definition s_find_if_not (s : Str) (pred : Chr -> bool) (pos : N) : outcome find_result :=
  s_find_if s (fun c => negb (pred c)) pos.

(** String.h 458-466 IsEmpty, NotEmpty *)
Definition s_is_empty (s : Str) : bool := match s with [] => true | _ => false end.
(** String.h 463-466 *)
Definition s_not_empty (s : Str) : bool := negb (s_is_empty s).

(** vector::insert at a position (used at String.h 497, 506, 515) *)
Definition vec_insert {A} (l : list A) (pos : nat) (t : list A) : list A := firstn pos l ++ t ++ skipn pos l.

(** String.h 485-498 Insert(SizeType, const char* ) *)
Definition s_insert_cstr (s : Str) (pos : N) (mem : list N) : outcome Str :=
  if N.of_nat (length s) <? pos then Throw EOutOfRange
  else t <- string_of_cstr mem ;; Ok (vec_insert s (N.to_nat pos) t).

(** String.h 500-507 Insert(SizeType, const String&); a range into the same vector breaks the
    precondition of vector::insert. *)
Definition s_insert (s : Str) (pos : N) (o : operand) : outcome Str :=
  if N.of_nat (length s) <? pos then Throw EOutOfRange
  else match o with
       | Other t => Ok (vec_insert s (N.to_nat pos) t)
       | Self => UB
       end.

(** String.h 509-516 Insert(SizeType, SizeType, const CharType&), [ch] not an element of the String *)
Definition s_insert_n_char (s : Str) (pos : N) (count : nat) (ch : Chr) : outcome Str :=
  if N.of_nat (length s) <? pos then Throw EOutOfRange
  else Ok (vec_insert s (N.to_nat pos) (repeat ch count)).

(** String.h 519-527 ToUppercase *)
Definition s_to_uppercase (s : Str) : outcome Str :=
  mapM (fun c => cp <- get_code_point c ;; Ok (from_code_point (to_uppercase cp))) s.

(** String.h 529-537 ToLowercase *)
Definition s_to_lowercase (s : Str) : outcome Str :=
  mapM (fun c => cp <- get_code_point c ;; Ok (from_code_point (to_lowercase cp))) s.

(** String.h 540-543 Empty *)
Definition s_empty : outcome Str := string_of_cstr [0].

(** String.h 1022-1026 operator<<(ostream): the bytes written *)
Definition s_output (s : Str) : list N := s_str s.

(** String.h 1017 str = input in operator>>(istream): [line] is what std::getline delivered (see Stream.v). *)
Definition s_input (line : list N) : outcome Str := string_of_std line.
