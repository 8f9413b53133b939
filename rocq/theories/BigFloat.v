(** Model of __Numeric/Types/BigFloat.h.  Line numbers below are of that file.
    BigFloat(double) (33-35), which goes through std::to_string(double), is in Double.v. *)
From Coq Require Import List NArith ZArith Bool Arith.
From Verif Require Import Outcome CharModel StrModel BigInt.
Import ListNotations.
Local Open Scope Z_scope.

(** 356-358: integerPart_, fractionalPart_, isNegative_ *)
Record bigfloat := mkBF { bf_int : bigint; bf_frac : bigint; bf_neg : bool }.

(** 31 default constructor *)
Definition bf_default : bigfloat := mkBF bi_default bi_default false.

(** Defs.h 72, 74: Def::FullStop, Def::DigitZero as Strings *)
Definition full_stop : Str := [char_of_byte 46].
(** Defs.h 74 *)
Definition digit_zero : Str := [char_of_byte 48].

(** 41-68 BigFloat(const String&); isNegative_ keeps its initial value.  The default count of Substring is
    NPosition, no less than the length of any String. *)
Definition bf_of_string (s : Str) : outcome bigfloat :=
  if s_is_empty s then Throw EInvalidArgument
  else
    p <- s_find s full_stop 0 ;;
    match p with
    | None => i <- bi_of_string s ;; Ok (mkBF i bi_default false)
    | Some pos =>
        is <- s_substring s 0 (N.of_nat pos) ;;
        fs <- s_substring s (N.of_nat pos + 1) (N.of_nat (length s)) ;;
        let is := if s_is_empty is then digit_zero else is in
        let fs := if s_is_empty fs then digit_zero else fs in
        i <- bi_of_string is ;;
        f <- bi_of_string fs ;;
        Ok (mkBF i f false)
    end.

(** 37-39 BigFloat(const char* ), also 419-422 the literal operator *)
Definition bf_of_cstr (mem : list N) : outcome bigfloat :=
  s <- string_of_cstr mem ;; bf_of_string s.

(** The literals BigInteger{"10"}, {"1"} and BigFloat{"0"}, {"1"}, {"2"} *)
Definition big_ten : bigint := mkBig [0; 1] false.
(** 132, 163 *)
Definition big_one : bigint := mkBig [1] false.
(** 201, 275 *)
Definition bf_zero : bigfloat := mkBF bi_default bi_default false.
(** 249, 275, 279, 293, 297 *)
Definition bf_one : bigfloat := mkBF big_one bi_default false.
(** 285 *)
Definition bf_two : bigfloat := mkBF (mkBig [2] false) bi_default false.

(** 111-114, 115-118, 143-146, 147-150: while (a.Size() < n) a = a.Multiply(10).  The code has no
    bound on the number of steps, [fuel] is one. *)
Fixpoint bf_align (fuel : nat) (a : bigint) (n : nat) : outcome bigint :=
  if Nat.ltb (bi_size a) n then
    match fuel with
    | O => NoFuel
    | S f => a' <- bi_mul a big_ten ;; bf_align f a' n
    end
  else Ok a.

(** The text i.f that Add and Subtract build at 134, 165. *)
Definition dotted (i f : bigint) : outcome Str :=
  is <- bi_to_string i ;;
  fs <- bi_to_string f ;;
  t <- s_plus is full_stop ;;
  s_plus t fs.

(** 105-135 Add; 127 multiplies ten by the number of digits, Size() becoming BigInteger(uint64_t). *)
Definition bf_add (fuel : nat) (a b : bigfloat) : outcome bigfloat :=
  tf <- bf_align fuel (bf_frac a) (bi_size (bf_frac b)) ;;
  of <- bf_align fuel (bf_frac b) (bi_size tf) ;;
  fr <- bi_add tf of ;;
  let carry := Nat.ltb (bi_size tf) (bi_size fr) in
  fr <- (if carry
         then n <- bi_of_int (Z.of_nat (bi_size tf)) ;; d <- bi_mul big_ten n ;; bi_sub fr d
         else Ok fr) ;;
  ir <- bi_add (bf_int a) (bf_int b) ;;
  ir <- (if carry then bi_add ir big_one else Ok ir) ;;
  s <- dotted ir fr ;;
  bf_of_string s.

(** 137-166 Subtract *)
Definition bf_sub (fuel : nat) (a b : bigfloat) : outcome bigfloat :=
  tf <- bf_align fuel (bf_frac a) (bi_size (bf_frac b)) ;;
  of <- bf_align fuel (bf_frac b) (bi_size tf) ;;
  let borrow := bi_lt tf of in
  tf <- (if borrow
         then n <- bi_of_int (Z.of_nat (bi_size tf)) ;; d <- bi_mul big_ten n ;; bi_add tf d
         else Ok tf) ;;
  fr <- bi_sub tf of ;;
  ir <- bi_sub (bf_int a) (bf_int b) ;;
  ir <- (if borrow then bi_sub ir big_one else Ok ir) ;;
  s <- dotted ir fr ;;
  bf_of_string s.

(** Largest number of elements of a vector of Char (PTRDIFF_MAX / sizeof(Char), 32 bytes).  Asking for
    more always fails; the model does not distinguish std::length_error from std::bad_alloc. *)
Definition max_chars : N := 288230376151711743.
(** String(count, '0') with a count computed in size_t *)
Definition zeros (count : N) : outcome Str :=
  if (max_chars <? count)%N then Throw ELengthError else string_fill_byte (N.to_nat count) 48.

(** Subtraction in size_t; a size fits, so only a negative difference wraps. *)
Definition size_sub (a b : N) : N := if (b <=? a)%N then (a - b)%N else wrap64 (Z.of_N a - Z.of_N b).

(** 188-193, 225-230: pad with zeros and insert the point before the last [total] characters. *)
Definition place_point (s : Str) (total : N) : outcome Str :=
  s <- (if (N.of_nat (length s) <=? total)%N
        then z <- zeros (size_sub total (N.of_nat (length s)) + 1) ;; s_insert s 0 (Other z)
        else Ok s) ;;
  s_insert_n_char s (size_sub (N.of_nat (length s)) total) 1 (char_of_byte 46).

(** 172-173, 207-209: integer digits followed by fraction digits *)
Definition full_text (a : bigfloat) : outcome Str :=
  is <- bi_to_string (bf_int a) ;;
  fs <- bi_to_string (bf_frac a) ;;
  s_plus is fs.

(** 168-197 Multiply; the sum of the two sizes fits in size_t. *)
Definition bf_mul (a b : bigfloat) : outcome bigfloat :=
  ta <- full_text a ;;
  tb <- full_text b ;;
  na <- bi_of_string ta ;;
  nb <- bi_of_string tb ;;
  r <- bi_mul na nb ;;
  let total := (N.of_nat (bi_size (bf_frac a)) + N.of_nat (bi_size (bf_frac b)))%N in
  s <- bi_to_string r ;;
  s <- place_point s total ;;
  bf_of_string s.

(** 309-313 Equal *)
Definition bf_equal (a b : bigfloat) : bool :=
  bi_equal (bf_int a) (bf_int b) && bi_equal (bf_frac a) (bf_frac b) && Bool.eqb (bf_neg a) (bf_neg b).

(** 315-330 LessThan *)
Definition bf_lt (a b : bigfloat) : bool :=
  if negb (Bool.eqb (bf_neg a) (bf_neg b)) then bf_neg a
  else if bi_lt (bf_int a) (bf_int b) then true
  else if bi_gt (bf_int a) (bf_int b) then false
  else bi_lt (bf_frac a) (bf_frac b).

(** 332-335 GreaterThan *)
Definition bf_gt (a b : bigfloat) : bool := negb (bf_lt a b) && negb (bf_equal a b).

(** 199-234 Divide *)
Definition bf_div (a b : bigfloat) : outcome bigfloat :=
  if bf_equal b bf_zero then Throw EInvalidArgument
  else
    ta <- full_text a ;;
    tb <- full_text b ;;
    na <- bi_of_string ta ;;
    nb <- bi_of_string tb ;;
    r <- bi_div na nb ;;
    let total := size_sub (N.of_nat (bi_size (bf_frac a))) (N.of_nat (bi_size (bf_frac b))) in
    s <- bi_to_string r ;;
    s <- place_point s total ;;
    bf_of_string s.

(** 236-241 Abs *)
Definition bf_abs (a : bigfloat) : bigfloat := mkBF (bf_int a) (bf_frac a) false.

(** 252-260: square and multiply *)
Fixpoint bf_pow_loop (fuel : nat) (e : Z) (result base : bigfloat) : outcome bigfloat :=
  if 0 <? e then
    match fuel with
    | O => NoFuel
    | S f =>
        result' <- (if Z.rem e 2 =? 1 then bf_mul result base else Ok result) ;;
        base' <- bf_mul base base ;;
        bf_pow_loop f (Z.quot e 2) result' base'
    end
  else Ok result.

(** 243-262 Pow; an int is halved at most 31 times. *)
Definition bf_pow (a : bigfloat) (e : Z) : outcome bigfloat :=
  if e <? 0 then Throw EInvalidArgument else bf_pow_loop 32 e bf_one a.

(** 264-267 Sqr *)
Definition bf_sqr (a : bigfloat) : outcome bigfloat := bf_mul a a.

(** 283-299: the bisection; the fuel also bounds the loops of Add and Subtract. *)
Fixpoint bf_sqrt_loop (fuel : nat) (a low high : bigfloat) : outcome bigfloat :=
  if bf_lt low high || bf_equal low high then
    match fuel with
    | O => NoFuel
    | S f =>
        s <- bf_add fuel low high ;;
        mid <- bf_div s bf_two ;;
        squared <- bf_sqr mid ;;
        if bf_equal squared a then Ok mid
        else if bf_lt squared a
        then low' <- bf_add fuel mid bf_one ;; bf_sqrt_loop f a low' high
        else high' <- bf_sub fuel mid bf_one ;; bf_sqrt_loop f a low high'
    end
  else Ok high.

(** 269-301 Sqrt *)
Definition bf_sqrt (fuel : nat) (a : bigfloat) : outcome bigfloat :=
  if bf_neg a then Throw EInvalidArgument
  else if bf_equal a bf_zero || bf_equal a bf_one then Ok a
  else bf_sqrt_loop fuel a bf_one a.

(** 304-307 Size *)
Definition bf_size (a : bigfloat) : nat := (bi_size (bf_int a) + bi_size (bf_frac a))%nat.

(** 337-346 ToString, also what operator<< (413-417) writes *)
Definition bf_to_string (a : bigfloat) : outcome Str :=
  is <- bi_to_string (bf_int a) ;;
  fs <- bi_to_string (bf_frac a) ;;
  Ok (if negb (s_is_empty fs) && s_ne_cstr fs [48%N] then s_push_back is (char_of_byte 46) ++ fs else is).
