(** Properties C13-C24: Strings. *)
From Coq Require Import List NArith ZArith Bool Lia.
From Verif Require Import Outcome CharModel CharUtil StrModel SpecUtf8 SpecChar SpecStr CharProofs StrProofs CharUtilProofs.
Import ListNotations.
Local Open Scope N_scope.

(** C13 *)
Theorem C13_bytes_in_bytes_out : forall s r t, Forall is_byte (s ++ 0 :: r) -> ~ In 0 s ->
  string_of_cstr (s ++ 0 :: r) = Ok t ->
  s_str t = s /\ Forall utf8_unit t /\ concat t = s.
Proof. exact bytes_in_bytes_out. Qed.
Print Assumptions C13_bytes_in_bytes_out.
Theorem C13_embedded_nul : forall s r t, Forall is_byte (s ++ 0 :: r) -> ~ In 0 s ->
  string_of_std s = Ok t -> string_of_std (s ++ 0 :: r) = Ok t.
Proof. exact embedded_nul. Qed.
Print Assumptions C13_embedded_nul.
Theorem C13_utf8_text : forall cps, Forall (fun c => 1 <= c <= 0x10FFFF) cps ->
  string_of_std (concat (map utf8_encode cps)) = Ok (string_of_code_points cps).
Proof. exact decode_code_points. Qed.
Print Assumptions C13_utf8_text.
Example C13_ex : string_of_std [0x61; 0xC3; 0xA9; 0xE2; 0x82; 0xAC] = Ok [[0x61]; [0xC3; 0xA9]; [0xE2; 0x82; 0xAC]].
Proof. reflexivity. Qed.

(** C14 *)
Theorem C14_construction_partial : forall s, Forall is_byte s -> ~ In 0 s ->
  ((exists t, string_of_std s = Ok t) <-> decodable s) /\
  (string_of_std s = UB <-> truncated s) /\
  (~ decodable s -> ~ truncated s ->
    string_of_std s = Throw EInvalidArgument \/ string_of_std s = Throw ERuntimeError).
Proof. exact C14_lemma. Qed.
Print Assumptions C14_construction_partial.
Theorem C14_no_overread_refuted : exists s, Forall is_byte s /\ ~ In 0 s /\ string_of_std s = UB.
Proof. exact C14_witness. Qed.
Print Assumptions C14_no_overread_refuted.
Example C14_ex1 : string_of_std [0xC3] = Throw EInvalidArgument /\ string_of_std [0x80] = Throw ERuntimeError.
Proof. split; reflexivity. Qed.
Example C14_ex2 : truncated [0x41; 0xE2].
Proof. exists [[0x41]], 0xE2, [], 3%nat. repeat split; try (repeat constructor); vm_compute; congruence. Qed.

(** C15 *)
Theorem C15_lengths : forall cps, Forall (fun c => 1 <= c <= 0x10FFFF) cps ->
  let s := string_of_code_points cps in
  s_size s = length cps /\ s_byte_count s = length (s_str s) /\
  s_byte_count s = length (concat (map utf8_encode cps)) /\
  (forall i c, nth_error cps i = Some c ->
     exists ch, s_index s i = Ok ch /\ s_at s (N.of_nat i) = Ok ch /\ get_code_point ch = Ok c).
Proof. exact C15_lemma. Qed.
Print Assumptions C15_lengths.
Example C15_ex : let s := string_of_code_points [0x41; 0xE9; 0x1F600] in s_size s = 3%nat /\ s_byte_count s = 7%nat.
Proof. split; reflexivity. Qed.

(** C16 *)
Theorem C16_concatenation : forall s t,
  s_plus s t = Ok (s ++ t) /\ s_append_assign s (Other t) = Ok (s ++ t) /\
  (forall c, s_push_back s c = s ++ [c]) /\
  (forall c n, s_append_n_char s n c = s ++ repeat c n) /\
  s_str (s ++ t) = s_str s ++ s_str t.
Proof. exact concatenation. Qed.
Print Assumptions C16_concatenation.
(** Appending a C string; appending a Char given as a C string some number of times. *)
Theorem C16_append_bytes : forall s t u, Forall is_byte t -> ~ In 0 t -> s_append_cstr s (t ++ [0]) = Ok u ->
  s_str u = s_str s ++ t /\ exists v, u = s ++ v.
Proof. exact append_bytes. Qed.
Print Assumptions C16_append_bytes.
Theorem C16_append_repeated : forall s n p c, char_of_cstr p = Ok c ->
  s_append_n_cstr s n p = Ok (s ++ repeat c n).
Proof. exact (fun s n p c H => append_n_cstr_ok c n s p H). Qed.
Print Assumptions C16_append_repeated.
(** The same text can be built piecewise. *)
Theorem C16_piecewise : forall s t u v r, Forall is_byte (s ++ t) -> ~ In 0 (s ++ t) ->
  string_of_cstr (s ++ 0 :: r) = Ok u -> string_of_cstr (t ++ 0 :: r) = Ok v -> Forall is_byte r ->
  string_of_cstr ((s ++ t) ++ 0 :: r) = Ok (u ++ v).
Proof. exact string_of_cstr_append. Qed.
Print Assumptions C16_piecewise.
Theorem C16_self_append_refuted : exists s, s_append_assign s Self = UB /\ s_insert s 0 Self = UB.
Proof. exact (ex_intro _ [[0x61]] (conj eq_refl eq_refl)). Qed.
Print Assumptions C16_self_append_refuted.
(** Repeating an own element: fine exactly as long as no reallocation precedes the last copy. *)
Theorem C16_repeat_own_element_partial : forall cap n s i c, nth_error s i = Some c -> (length s <= cap)%nat ->
  (s_append_n_self cap s n i = Ok (s ++ repeat c n) <-> (n <= cap - length s + 1)%nat) /\
  (s_append_n_self cap s n i = UB <-> (cap - length s + 1 < n)%nat).
Proof. exact append_n_self_iff. Qed.
Print Assumptions C16_repeat_own_element_partial.
Example C16_ex1 : s_plus [[0x61]] [[0xC3; 0xA9]; [0x62]] = Ok [[0x61]; [0xC3; 0xA9]; [0x62]].
Proof. reflexivity. Qed.
Example C16_ex2 : s_append_n_self 1 [[0x61]] 1 0 = Ok [[0x61]; [0x61]] /\ s_append_n_self 1 [[0x61]] 2 0 = UB.
Proof. split; reflexivity. Qed.
Example C16_ex3 : s_append_cstr [[0x61]] [0xC3; 0xA9; 0] = Ok [[0x61]; [0xC3; 0xA9]].
Proof. reflexivity. Qed.

(** C17 *)
Theorem C17_substring : forall s pos count,
  (N.of_nat (length s) < pos -> s_substring s pos count = Throw EOutOfRange) /\
  (pos <= N.of_nat (length s) ->
   exists a m b, s = a ++ m ++ b /\ N.of_nat (length a) = pos /\
    N.of_nat (length m) = N.min count (N.of_nat (length s) - pos) /\
    s_substring s pos count = Ok m).
Proof. exact (fun s pos count => conj (proj2 (s_substring_spec s pos count)) (s_substring_ok s pos count)). Qed.
Print Assumptions C17_substring.
Theorem C17_split_concat : forall s pos, pos <= N.of_nat (length s) ->
  exists a b, s_substring s 0 pos = Ok a /\ s_substring s pos size_max = Ok b /\
    (N.of_nat (length s) <= size_max -> a ++ b = s).
Proof. exact s_substring_split. Qed.
Print Assumptions C17_split_concat.
Theorem C17_insert : forall s pos t,
  (N.of_nat (length s) < pos -> s_insert s pos (Other t) = Throw EOutOfRange) /\
  (pos <= N.of_nat (length s) ->
   exists a b, s = a ++ b /\ N.of_nat (length a) = pos /\
     s_insert s pos (Other t) = Ok (a ++ t ++ b) /\
     s_substring (a ++ t ++ b) pos (N.of_nat (length t)) = Ok t).
Proof. exact insert_lemma. Qed.
Print Assumptions C17_insert.
Theorem C17_insert_variants : forall s pos, pos <= N.of_nat (length s) ->
  (forall n ch, s_insert_n_char s pos n ch = s_insert s pos (Other (repeat ch n))) /\
  (forall mem t, string_of_cstr mem = Ok t -> s_insert_cstr s pos mem = s_insert s pos (Other t)).
Proof. exact insert_variants. Qed.
Print Assumptions C17_insert_variants.
Example C17_ex1 : s_substring [[1]; [2]; [3]; [4]] 1 2 = Ok [[2]; [3]].
Proof. reflexivity. Qed.
Example C17_ex2 : s_insert [[1]; [2]] 1 (Other [[9]; [8]]) = Ok [[1]; [9]; [8]; [2]].
Proof. reflexivity. Qed.

(** C18 *)
Theorem C18_prefix_suffix : forall s p,
  (exists v, s_starts_with s p = Ok v /\ (v = true <-> exists r, s = p ++ r)) /\
  (exists v, s_ends_with s p = Ok v /\ (v = true <-> exists r, s = r ++ p)).
Proof. exact (fun s p => conj (starts_with_spec s p) (ends_with_spec s p)). Qed.
Print Assumptions C18_prefix_suffix.
Example C18_ex : s_starts_with [[1]; [2]; [3]] [[1]; [2]] = Ok true /\ s_ends_with [[1]; [2]; [3]] [[1]; [3]] = Ok false.
Proof. split; reflexivity. Qed.

(** C19 *)
Theorem C19_contains_partial : forall s t, t <> [] \/ s <> [] -> (s_contains s t = true <-> occurs t s).
Proof. exact contains_spec. Qed.
Print Assumptions C19_contains_partial.
Theorem C19_contains_refuted : exists s t, s_contains s t = false /\ occurs t s.
Proof. exact (ex_intro _ [] (ex_intro _ [] contains_empty)). Qed.
Print Assumptions C19_contains_refuted.
Example C19_ex : s_contains [[1]; [2]; [1]; [3]] [[1]; [3]] = true.
Proof. reflexivity. Qed.

(** C20 *)
Theorem C20_find_partial : forall s t pos, t <> [] -> pos <= N.of_nat (length s) ->
  exists r, s_find s t pos = Ok r /\
    match r with
    | Some i => pos <= N.of_nat i /\ occurs_at t s i /\
                forall j, pos <= N.of_nat j -> occurs_at t s j -> (i <= j)%nat
    | None => forall j, pos <= N.of_nat j -> ~ occurs_at t s j
    end.
Proof. exact find_spec. Qed.
Print Assumptions C20_find_partial.
Theorem C20_find_other_cases : forall s pos,
  (pos < N.of_nat (length s) -> s_find s [] pos = Ok (Some (N.to_nat pos))) /\
  (pos = N.of_nat (length s) -> s_find s [] pos = Ok None) /\
  (N.of_nat (length s) < pos -> forall t, s_find s t pos = UB).
Proof. exact find_empty. Qed.
Print Assumptions C20_find_other_cases.
Theorem C20_find_empty_needle_refuted : exists s pos, s_find s [] pos = Ok None /\ occurs_at [] s (N.to_nat pos).
Proof. exact find_empty_witness. Qed.
Print Assumptions C20_find_empty_needle_refuted.
Theorem C20_find_start_past_end_refuted : exists s t pos, s_find s t pos = UB.
Proof. exact (ex_intro _ [] (ex_intro _ [[0x61]] (ex_intro _ 1 eq_refl))). Qed.
Print Assumptions C20_find_start_past_end_refuted.
Example C20_ex : s_find [[1]; [2]; [1]; [2]] [[1]; [2]] 1 = Ok (Some 2%nat).
Proof. reflexivity. Qed.

(** C21: what ReverseFind returns is the index of the LAST character of the last occurrence. *)
Theorem C21_reverse_find_end_index_partial : forall s t pos, t <> [] -> N.of_nat (length s) <= size_max ->
  exists r, s_reverse_find s t pos = Ok r /\
    match r with
    | Some e => N.of_nat e <= pos /\ occurs_ending_at t s e /\
                forall j, N.of_nat j <= pos -> occurs_ending_at t s j -> (j <= e)%nat
    | None => forall j, N.of_nat j <= pos -> ~ occurs_ending_at t s j
    end.
Proof. exact reverse_find_spec. Qed.
Print Assumptions C21_reverse_find_end_index_partial.
Theorem C21_reverse_find_single_partial : forall s c pos, N.of_nat (length s) <= size_max ->
  exists r, s_reverse_find s [c] pos = Ok r /\
    match r with
    | Some i => N.of_nat i <= pos /\ occurs_at [c] s i /\
                forall j, N.of_nat j <= pos -> occurs_at [c] s j -> (j <= i)%nat
    | None => forall j, N.of_nat j <= pos -> ~ occurs_at [c] s j
    end.
Proof. exact reverse_find_single. Qed.
Print Assumptions C21_reverse_find_single_partial.
Theorem C21_reverse_find_refuted :
  exists s t i, s_reverse_find s t size_max = Ok (Some i) /\ ~ occurs_at t s i /\ occurs t s.
Proof. exact reverse_find_wrong. Qed.
Print Assumptions C21_reverse_find_refuted.
Example C21_ex : s_reverse_find [[1]; [2]; [1]; [3]] [[1]] size_max = Ok (Some 2%nat).
Proof. reflexivity. Qed.

(** C22 *)
Theorem C22_strict_total_order :
  (forall s, s_ltb s s = false) /\
  (forall s t u, s_ltb s t = true -> s_ltb t u = true -> s_ltb s u = true) /\
  (forall s t, s_ltb s t = true \/ s = t \/ s_ltb t s = true).
Proof. exact s_order_total. Qed.
Print Assumptions C22_strict_total_order.
Theorem C22_consistent : forall s t,
  (s_eqb s t = true <-> s = t) /\
  s_neb s t = negb (s_eqb s t) /\
  s_gtb s t = s_ltb t s /\
  s_leb s t = s_ltb s t || s_eqb s t /\
  s_geb s t = s_ltb t s || s_eqb s t.
Proof. exact s_order_consistent. Qed.
Print Assumptions C22_consistent.
Theorem C22_order_of_bytes : forall s t, text s -> text t ->
  (s_ltb s t = true <-> lex_lt (s_str s) (s_str t)) /\
  (s_eqb s t = true <-> s_str s = s_str t).
Proof. exact order_of_bytes. Qed.
Print Assumptions C22_order_of_bytes.
Theorem C22_order_of_code_points : forall a b,
  Forall (fun c => c <= 0x10FFFF) a -> Forall (fun c => c <= 0x10FFFF) b ->
  (s_ltb (string_of_code_points a) (string_of_code_points b) = true <-> lex_lt a b) /\
  (s_eqb (string_of_code_points a) (string_of_code_points b) = true <-> a = b).
Proof. exact s_ltb_code_points. Qed.
Print Assumptions C22_order_of_code_points.
Theorem C22_order_with_c_strings : forall s t, text s -> text t ->
  s_lt_cstr s (s_str t) = s_ltb s t /\ s_gt_cstr s (s_str t) = s_gtb s t /\
  s_le_cstr s (s_str t) = s_leb s t /\ s_ge_cstr s (s_str t) = s_geb s t /\
  s_eq_cstr s (s_str t) = s_eqb s t /\ s_ne_cstr s (s_str t) = s_neb s t.
Proof. exact order_with_c_strings. Qed.
Print Assumptions C22_order_with_c_strings.
Example C22_ex : s_ltb (string_of_code_points [0x61; 0x7FF]) (string_of_code_points [0x61; 0x800; 0x20]) = true.
Proof. reflexivity. Qed.

(** C23 *)
Theorem C23_case_conversion : forall cps, Forall (fun c => c < 0x200000) cps ->
  s_to_uppercase (string_of_code_points cps) = Ok (string_of_code_points (map to_uppercase cps)) /\
  s_to_lowercase (string_of_code_points cps) = Ok (string_of_code_points (map to_lowercase cps)).
Proof. exact case_code_points. Qed.
Print Assumptions C23_case_conversion.
Theorem C23_length_preserved : forall s u,
  s_to_uppercase s = Ok u \/ s_to_lowercase s = Ok u -> length u = length s.
Proof. exact case_length. Qed.
Print Assumptions C23_length_preserved.
(** On text built by the library the conversions never fail. *)
Theorem C23_case_total : forall s, text s ->
  (exists u, s_to_uppercase s = Ok u) /\ (exists l, s_to_lowercase s = Ok l).
Proof. exact case_text. Qed.
Print Assumptions C23_case_total.
Theorem C23_ascii : forall cps, Forall (fun c => c < 0x80) cps ->
  exists u l, s_to_uppercase (string_of_code_points cps) = Ok (string_of_code_points u) /\
    s_to_lowercase (string_of_code_points cps) = Ok (string_of_code_points l) /\
    Forall2 (fun c d => (ascii_lower c -> d = c - 32) /\ (~ ascii_lower c -> d = c)) cps u /\
    Forall2 (fun c d => (ascii_upper c -> d = c + 32) /\ (~ ascii_upper c -> d = c)) cps l.
Proof. exact case_ascii. Qed.
Print Assumptions C23_ascii.
(** ToUppercase and ToLowercase of one Char do the same with its code point. *)
Theorem C23_char : forall c, c < 0x200000 ->
  char_to_uppercase (char_of_code_point c) = Ok (char_of_code_point (to_uppercase c)) /\
  char_to_lowercase (char_of_code_point c) = Ok (char_of_code_point (to_lowercase c)).
Proof.
  intros c H. destruct (case_code_points [c]) as [U L]; [now repeat constructor|].
  unfold char_to_uppercase, char_to_lowercase. cbn [string_of_code_points map s_to_uppercase s_to_lowercase mapM] in U, L.
  unfold s_to_uppercase, s_to_lowercase in U, L. cbn [mapM] in U, L.
  destruct (get_code_point (char_of_code_point c)); cbn in *; try discriminate. split; congruence.
Qed.
Print Assumptions C23_char.
Theorem C10_string_lowercase_refuted : exists cps,
  Forall (fun c => c <= 0x10FFFF) cps /\ Forall (fun c => is_letter c = false) cps /\
  s_to_lowercase (string_of_code_points cps) <> Ok (string_of_code_points cps).
Proof. exact lowercase_changes_text. Qed.
Print Assumptions C10_string_lowercase_refuted.
Example C23_ex : s_to_uppercase (string_of_code_points [0x61; 0x20; 0x436]) = Ok (string_of_code_points [0x41; 0x20; 0x416]).
Proof. reflexivity. Qed.

(** C24 *)
Theorem C24_at : forall s i,
  (i < N.of_nat (s_size s) -> exists c, nth_error s (N.to_nat i) = Some c /\ s_at s i = Ok c) /\
  (N.of_nat (s_size s) <= i -> s_at s i = Throw EOutOfRange).
Proof. exact s_at_spec. Qed.
Print Assumptions C24_at.
Example C24_ex : s_at [[1]; [2]] 1 = Ok [2] /\ s_at [[1]; [2]] size_max = Throw EOutOfRange.
Proof. split; reflexivity. Qed.
