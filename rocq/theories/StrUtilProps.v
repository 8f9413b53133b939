(** Properties C25-C30 (KMP, String utilities) and C90, C91 (StringBuilder). *)
From Coq Require Import List NArith ZArith Bool Lia.
From Verif Require Import Outcome CharModel CharUtil StrModel Kmp StrUtil SpecUtf8 SpecChar SpecStr SpecStrUtil
  KmpProofs KmpCost StrUtilProofs HexProofs.
Import ListNotations.
Local Open Scope N_scope.

(** C25 *)
Theorem C25_kmp_is_substring_search : forall p text, p <> [] ->
  (kmp p text = Ok true <-> occurs p text) /\ (kmp p text = Ok false <-> ~ occurs p text).
Proof. exact kmp_decides. Qed.
Print Assumptions C25_kmp_is_substring_search.
Example C25_ex1 : kmp [1; 1; 2] [1; 1; 1; 2] = Ok true /\ kmp [1; 2; 1; 3] [1; 2; 1; 2; 1; 4] = Ok false.
Proof. split; reflexivity. Qed.

(** C26 *)
Theorem C26_kmp_safe_partial : forall p text, p <> [] -> exists v, kmp p text = Ok v.
Proof. exact kmp_safe. Qed.
Print Assumptions C26_kmp_safe_partial.
Theorem C26_failure_table_safe : forall p, exists failure,
  get_kmp_failure_vec p = Ok failure /\ length failure = S (length p).
Proof. exact failure_safe. Qed.
Print Assumptions C26_failure_table_safe.
(** The empty pattern, exactly. *)
Theorem C26_empty_pattern_partial : forall text,
  kmp [] text = match text with
                | [] => Ok false
                | c :: rest => if c =? 0 then match rest with [] => Ok false | _ => UB end else Ok true
                end.
Proof. exact kmp_empty_pattern. Qed.
Print Assumptions C26_empty_pattern_partial.
Theorem C26_kmp_safe_refuted : exists text, kmp [] text = UB.
Proof. exact (ex_intro _ [0; 1] eq_refl). Qed.
Print Assumptions C26_kmp_safe_refuted.
Example C26_ex : kmp [7; 7; 7] [7; 7; 8; 7; 7; 7] = Ok true.
Proof. reflexivity. Qed.

(** C138.  [counted_kmp] is [kmp] with the comparisons of its two inner loops counted: it gives the same result, and at
    most twice as many comparisons as there are characters in the pattern and the text. *)
Theorem C138_same_search : forall p text, forget (counted_kmp p text) = kmp p text.
Proof. exact counted_same. Qed.
Print Assumptions C138_same_search.
Theorem C138_linear : forall p text, p <> [] -> exists v n, counted_kmp p text = Ok (v, n) /\ (v = true <-> occurs p text) /\
  (n <= 2 * (length p + length text))%nat.
Proof.
  intros p text H. destruct (kmp_spec p text H) as (v & E & V). rewrite <- counted_same in E. unfold forget in E.
  destruct (counted_kmp p text) as [[w n]| | |] eqn:C; try discriminate. injection E as ->. exists v, n. split; [reflexivity|]. split; [exact V|]. exact (kmp_cost _ _ _ _ C).
Qed.
Print Assumptions C138_linear.
Theorem C138_table_linear : forall p, exists failure n, counted_failure_vec p = Ok (failure, n) /\ get_kmp_failure_vec p = Ok failure /\
  (n <= 2 * length p)%nat.
Proof.
  intros p. destruct (failure_safe p) as (failure & E & _). pose proof E as E'. unfold get_kmp_failure_vec in E'. unfold counted_failure_vec.
  destruct (vec_set (repeat (Some 0%nat) (length p + 1)) 0 None) as [f0| | |] eqn:V; try discriminate. cbn [bind] in *. rewrite <- failure_loop_same in E'.
  unfold forget in E'. destruct (counted_failure_loop (length p) p f0 0 None) as [[r n]| | |] eqn:L; try discriminate. injection E' as ->.
  exists failure, n. split; [reflexivity|]. split; [exact E|]. refine (proj2 (failure_vec_cost p failure n _)). unfold counted_failure_vec. rewrite V. exact L.
Qed.
Print Assumptions C138_table_linear.
(** The bound is right but for a factor: a search without success compares every character of the text, and building the table
    every character of the pattern but the first. *)
Theorem C138_at_least : forall p text n, counted_kmp p text = Ok (false, n) -> (length p + length text <= n + 1)%nat.
Proof. exact kmp_low. Qed.
Print Assumptions C138_at_least.
(** A text on which searching anew from every position makes a number of comparisons that is the product of the lengths. *)
Example C138_ex : counted_kmp (repeat 1 9 ++ [2]) (repeat 1 50) = Ok (false, 108%nat).
Proof. reflexivity. Qed.

(** C27 *)
Theorem C27_split_join : forall s d,
  exists ps, split s d = Ok ps /\ Forall (fun p => ~ In d p) ps /\
    (s = [] -> ps = []) /\
    ((exists s', s = s' ++ [d]) -> s = join d ps ++ [d]) /\
    (~ (exists s', s = s' ++ [d]) -> s = join d ps).
Proof. exact split_spec. Qed.
Print Assumptions C27_split_join.
(** Conversely, any pieces without the delimiter, joined, are found again (the last one must not
    be empty: it would be a trailing delimiter). *)
Theorem C27_join_split : forall d ps p, Forall (fun q => ~ In d q) (ps ++ [p]) -> p <> [] ->
  split (join d (ps ++ [p])) d = Ok (ps ++ [p]).
Proof. exact join_split. Qed.
Print Assumptions C27_join_split.
Example C27_ex : split [1; 44; 44; 2; 44] 44 = Ok [[1]; []; [2]].
Proof. reflexivity. Qed.

(** C28 *)
Theorem C28_repeat_partial : forall s n, (1 <= n)%nat -> repeat_str s n = concat (repeat s n).
Proof. exact repeat_spec. Qed.
Print Assumptions C28_repeat_partial.
Theorem C28_repeat_zero_refuted : exists s, repeat_str s 0 <> concat (repeat s 0).
Proof. exact repeat_zero_wrong. Qed.
Print Assumptions C28_repeat_zero_refuted.
Example C28_ex : repeat_str [1; 2] 3 = [1; 2; 1; 2; 1; 2].
Proof. reflexivity. Qed.

(** C29: [escaped P s u]: the text s consists of plain characters and escape sequences and
    denotes the characters u; P says which code points may be written with u-escapes. *)
Theorem C29_escape_partial : forall s u, escaped (fun v => 1 <= v < 0x80) s u -> escape_string s = Ok u.
Proof. exact escape_string_escaped. Qed.
Print Assumptions C29_escape_partial.
Theorem C29_plain_text : forall s, text s -> ~ In [0x5C] s -> escape_string s = Ok s.
Proof. exact escape_string_plain. Qed.
Print Assumptions C29_plain_text.
(** What becomes of every text, exactly; see [lib_escaped].  A text with an escape u followed by four characters that
    the C library does not read as a number is not taken. *)
Theorem C29_exactly_partial : forall s, text s ->
  (forall u, escape_string s = Ok u <-> exists b, lib_escaped s b /\ text u /\ (b = concat u \/ exists r, b = concat u ++ 0 :: r)) /\
  ((forall b, ~ lib_escaped s b) -> escape_string s = Throw EInvalidArgument).
Proof. exact escape_string_exact. Qed.
Print Assumptions C29_exactly_partial.
(** Four characters that are not four digits: minus, prefix, digits, then anything. *)
Example C29_loose_ex : escape_string [[0x5C]; [0x75]; [0x30]; [0x78]; [0x34]; [0x31]] = Ok [[0x41]] /\
  escape_string [[0x5C]; [0x75]; [0x20]; [0x2B]; [0x37]; [0x7A]] = Ok [[7]] /\
  lib_escaped [[0x5C]; [0x75]; [0x30]; [0x78]; [0x34]; [0x31]] [0x41].
Proof.
  split; [reflexivity|]. split; [reflexivity|].
  change 0x41 with (Z.to_N (signed false 65 mod 256)). apply (le_unicode [[0x30]; [0x78]; [0x34]; [0x31]] [] [] false 65); [reflexivity| |constructor].
  apply (c_hex_text [] [] [0x30; 0x78] ([0x34] ++ [0x31]) [] false (4 * 16 + 1)).
  - constructor.
  - constructor.
  - constructor.
  - constructor; [|exact hexdig_1]. constructor. exact hexdig_4.
  - intros (d & v & r & _ & E). discriminate.
  - discriminate.
Qed.
Theorem C29_unicode_escape_refuted :
  exists s u, escaped (fun v => scalar v /\ v <> 0) s u /\ escape_string s <> Ok u.
Proof. exact unicode_escape_wrong. Qed.
Print Assumptions C29_unicode_escape_refuted.
(** An escape that is not recognised is not copied unchanged: its second character is doubled. *)
Theorem C29_unknown_escape_refuted : exists s, text s /\ escape_string s = Ok (s ++ [[0x71]]).
Proof. exact unknown_escape_wrong. Qed.
Print Assumptions C29_unknown_escape_refuted.
Theorem C29_escape_memory_safe_refuted : exists s, text s /\ escape_string s = UB.
Proof. exact unicode_escape_unsafe. Qed.
Print Assumptions C29_escape_memory_safe_refuted.
Example C29_ex : escape_string [[0x61]; [0x5C]; [0x6E]; [0x5C]; [0x75]; [0x30]; [0x30]; [0x34]; [0x31]; [0x5C]] =
  Ok [[0x61]; [0x0A]; [0x41]; [0x5C]].
Proof. reflexivity. Qed.

(** C30 *)
Theorem C30_find_first_non_space : forall s, text s ->
  exists k, find_first_non_space s = Ok k /\ (k <= length s)%nat /\
    (forall j c, (j < k)%nat -> nth_error s j = Some c -> white_space (utf8_value c)) /\
    (forall c, nth_error s k = Some c -> ~ white_space (utf8_value c)).
Proof. exact find_first_spec. Qed.
Print Assumptions C30_find_first_non_space.
(** FindLastNonSpace never looks at index 0. *)
Theorem C30_find_last_non_space_partial : forall s, text s -> s <> [] ->
  exists k, find_last_non_space s = Ok k /\
    ((1 <= k < length s)%nat /\ (forall c, nth_error s k = Some c -> ~ white_space (utf8_value c)) /\
       (forall j c, (k < j)%nat -> nth_error s j = Some c -> white_space (utf8_value c)) \/
     k = length s /\ forall j c, (1 <= j)%nat -> nth_error s j = Some c -> white_space (utf8_value c)).
Proof. exact find_last_spec. Qed.
Print Assumptions C30_find_last_non_space_partial.
Theorem C30_find_last_first_char_refuted : exists s c, text s /\
  nth_error s 0 = Some c /\ ~ white_space (utf8_value c) /\ find_last_non_space s = Ok (length s).
Proof. exact find_last_wrong. Qed.
Print Assumptions C30_find_last_first_char_refuted.
Theorem C30_find_last_empty_refuted : exists s, text s /\ find_last_non_space s = UB.
Proof. exact find_last_empty. Qed.
Print Assumptions C30_find_last_empty_refuted.
Theorem C30_is_number : forall s, text s ->
  exists b, is_number s = Ok b /\
    (b = true <-> s <> [] /\ Forall (fun c => exists v, decimal_digit (utf8_value c) v) s).
Proof. exact is_number_spec. Qed.
Print Assumptions C30_is_number.
Example C30_ex : find_first_non_space [[0x20]; [0x61]; [0x62]; [0x20]] = Ok 1%nat /\
  find_last_non_space [[0x20]; [0x61]; [0x62]; [0x20]] = Ok 2%nat /\ is_number [[0x31]; [0x32]] = Ok true.
Proof. repeat split. Qed.

(** C90 *)
Theorem C90_builder_accumulates : forall init ops, text init ->
  Forall (fun o => match o with OpAppend s | OpAppendLine s => text s end) ops ->
  sb_str (fold_left sb_apply ops (sb_of_string init)) =
  Ok (init ++ concat (map (fun o => match o with OpAppend s => s | OpAppendLine s => s ++ [[0x0A]] end) ops)).
Proof. exact sb_accumulates. Qed.
Print Assumptions C90_builder_accumulates.
Theorem C90_empty_builder : forall ops,
  Forall (fun o => match o with OpAppend s | OpAppendLine s => text s end) ops ->
  sb_str (fold_left sb_apply ops sb_new) =
  Ok (concat (map (fun o => match o with OpAppend s => s | OpAppendLine s => s ++ [[0x0A]] end) ops)).
Proof. exact (fun ops H => sb_accumulates [] ops (Forall_nil _) H). Qed.
Print Assumptions C90_empty_builder.
(** A builder made from a char or a C string starts with that text. *)
Theorem C90_constructors : (forall b, 0 < b < 128 -> sb_of_byte b = sb_of_string [[b]]) /\
  (forall t r, text t -> sb_of_cstr (concat t ++ 0 :: r) = sb_of_string t) /\ sb_new = sb_of_string [].
Proof.
  split; [|split; [|reflexivity]].
  - intros b H. unfold sb_of_byte, sb_of_string, s_str. cbn. replace (b =? 0) with false by lia. reflexivity.
  - intros t r T. unfold sb_of_cstr, sb_of_string. rewrite StrProofs.s_str_text by assumption.
    pose proof (StrProofs.text_no_nul t T) as N. f_equal. induction (concat t) as [|b l IH]; [reflexivity|].
    cbn in *. destruct (N.eqb_spec b 0) as [E|E]; [destruct N; auto|]. rewrite IH; auto.
Qed.
Print Assumptions C90_constructors.
Example C90_ex : sb_str (fold_left sb_apply [OpAppend [[0x61]]; OpAppendLine [[0xC3; 0xA9]]; OpAppend [[0x62]]] sb_new)
  = Ok [[0x61]; [0xC3; 0xA9]; [0x0A]; [0x62]].
Proof. reflexivity. Qed.

(** C91 *)
Theorem C91_copy_same_text : forall b, sb_str (sb_copy b) = sb_str b /\ sb_str (sb_move b) = sb_str b.
Proof. exact (fun b => conj eq_refl eq_refl). Qed.
Print Assumptions C91_copy_same_text.
(** What appending to a copy really does: it overwrites from the start. *)
Theorem C91_append_to_copy_partial : forall b s,
  sb_buf (sb_append (sb_copy b) s) = s_str s ++ skipn (length (s_str s)) (sb_buf b).
Proof. exact append_to_copy. Qed.
Print Assumptions C91_append_to_copy_partial.
Theorem C91_append_to_copy_refuted : exists init s, text init /\ text s /\
  sb_str (sb_append (sb_copy (sb_of_string init)) s) <> Ok (init ++ s).
Proof. exact append_to_copy_wrong. Qed.
Print Assumptions C91_append_to_copy_refuted.
(** A moved builder keeps appending at the end. *)
Theorem C91_moved_builder : forall init s, text init -> text s ->
  sb_str (sb_append (sb_move (sb_of_string init)) s) = Ok (init ++ s).
Proof. exact append_to_moved. Qed.
Print Assumptions C91_moved_builder.
Example C91_ex : sb_str (sb_append (sb_copy (sb_of_string [[0x61]; [0x62]; [0x63]])) [[0x78]]) = Ok [[0x78]; [0x62]; [0x63]].
Proof. reflexivity. Qed.
