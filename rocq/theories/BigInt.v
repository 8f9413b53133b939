(** Model of __Numeric/Types/BigInteger.h.  Line numbers below are of that file. *)
From Coq Require Import List NArith ZArith Bool Arith.
From Verif Require Import Outcome CharModel CharUtil StrModel StrUtil Dec.
Import ListNotations.
Local Open Scope Z_scope.

(** 405-406: digits_ (a vector of int, least significant first) and is_negative_. *)
Record bigint := mkBig { bi_digits : list Z; bi_neg : bool }.

(** Arithmetic on int: a result that does not fit is undefined behaviour. *)
Definition ck (z : Z) : outcome Z :=
  if (-2147483648 <=? z) && (z <=? 2147483647) then Ok z else UB.

(** 394-397: while the last digit is 0, pop it. *)
Fixpoint strip (l : list Z) : list Z :=
  match l with
  | [] => []
  | d :: r => match strip r with
              | [] => if d =? 0 then [] else [d]
              | r' => d :: r'
              end
  end.

(** 392-402 RemoveLeadingZeros *)
Definition bi_rlz (b : bigint) : bigint :=
  let ds := strip (bi_digits b) in
  mkBig ds (match ds with [] => false | _ => bi_neg b end).

(** 37, 405-406 default constructor *)
Definition bi_default : bigint := mkBig [] false.

(** 71-78: the digit loop, in reading order.  IsDigit accepts every decimal digit of Unicode and
    the stored int is the code point less 0x30. *)
Fixpoint parse_digits (s : Str) : outcome (list Z) :=
  match s with
  | [] => Ok []
  | c :: r =>
      cp <- get_code_point c ;;
      if is_digit cp then
        d <- ck (Z.of_N cp - 48) ;;
        ds <- parse_digits r ;; Ok (d :: ds)
      else Throw EInvalidArgument
  end.

(** 51-81 BigInteger(const String&).  number[0] == '-' compares with the one-byte Char. *)
Definition bi_of_string (s : Str) : outcome bigint :=
  match s with
  | [] => Throw EInvalidArgument
  | c :: r =>
      let '(neg, body) :=
        if char_eqb c (char_of_byte 45) then (true, r)
        else if char_eqb c (char_of_byte 43) then (false, r)
        else (false, s) in
      ds <- parse_digits body ;;
      Ok (bi_rlz (mkBig (rev ds) neg))
  end.

(** 47-49 BigInteger(const char* ), also 472-475 the literal operator; [mem] as in [string_of_cstr]. *)
Definition bi_of_cstr (mem : list N) : outcome bigint :=
  s <- string_of_cstr mem ;; bi_of_string s.

(** 39-45 BigInteger(int64_t), BigInteger(uint64_t): through std::to_string. *)
Definition bi_of_int (z : Z) : outcome bigint :=
  s <- string_of_std (dec_of_Z z) ;; bi_of_string s.

(** 343-346 Equal: vectors of int and flags *)
Fixpoint zlist_eqb (a b : list Z) : bool :=
  match a, b with
  | [], [] => true
  | x :: a', y :: b' => (x =? y) && zlist_eqb a' b'
  | _, _ => false
  end.
(** 343-346 Equal *)
Definition bi_equal (a b : bigint) : bool :=
  zlist_eqb (bi_digits a) (bi_digits b) && Bool.eqb (bi_neg a) (bi_neg b).

(** 358-365: comparison from the most significant digit; both lists have the same length. *)
Fixpoint lt_msd (a b : list Z) : bool :=
  match a, b with
  | x :: a', y :: b' => if negb (x =? y) then x <? y else lt_msd a' b'
  | _, _ => false
  end.
(** 348-366 LessThan *)
Definition bi_lt (a b : bigint) : bool :=
  if negb (Bool.eqb (bi_neg a) (bi_neg b)) then bi_neg a
  else if negb (Nat.eqb (length (bi_digits a)) (length (bi_digits b)))
  then Nat.ltb (length (bi_digits a)) (length (bi_digits b))
  else lt_msd (rev (bi_digits a)) (rev (bi_digits b)).

(** 368-371 GreaterThan *)
Definition bi_gt (a b : bigint) : bool := negb (bi_lt a b) && negb (bi_equal a b).

(** 421-439 operator<=, operator>=, operator!= *)
Definition bi_le (a b : bigint) : bool := bi_lt a b || bi_equal a b.
(** 426-429 *)
Definition bi_ge (a b : bigint) : bool := bi_gt a b || bi_equal a b.
(** 436-439 *)
Definition bi_ne (a b : bigint) : bool := negb (bi_equal a b).

(** abs_this, abs_other of 138-141; dividend, divisor of 222-225; 270-275 Abs *)
Definition bi_abs (a : bigint) : bigint := mkBig (bi_digits a) false.

(** 120-134: the addition loop over the [n] digits of the result; the last carry is dropped. *)
Fixpoint add_loop (n : nat) (a b : list Z) (carry : Z) : outcome (list Z) :=
  match n with
  | O => Ok []
  | S n' =>
      s1 <- match a with [] => Ok carry | x :: _ => ck (carry + x) end ;;
      s2 <- match b with [] => Ok s1 | y :: _ => ck (s1 + y) end ;;
      rest <- add_loop n' (tl a) (tl b) (Z.quot s2 10) ;;
      Ok (Z.rem s2 10 :: rest)
  end.

(** 172-190: the subtraction loop over the digits of [larger]. *)
Fixpoint sub_loop (larger smaller : list Z) (borrow : Z) : outcome (list Z) :=
  match larger with
  | [] => Ok []
  | x :: r =>
      d1 <- ck (x - borrow) ;;
      d2 <- match smaller with [] => Ok d1 | y :: _ => ck (d1 - y) end ;;
      if d2 <? 0
      then rest <- sub_loop r (tl smaller) 1 ;; Ok (d2 + 10 :: rest)
      else rest <- sub_loop r (tl smaller) 0 ;; Ok (d2 :: rest)
  end.

(** 160-192: Subtract after the test of line 154 has found equal signs. *)
Definition bi_sub_same (a b : bigint) : outcome bigint :=
  if bi_equal a b then Ok bi_default        (* BigInteger{"0"}: no digits, not negative *)
  else
    let neg := bi_lt a b in
    let larger := if neg then b else a in
    let smaller := if neg then a else b in
    ds <- sub_loop (bi_digits larger) (bi_digits smaller) 0 ;;
    Ok (bi_rlz (mkBig ds neg)).

(** 113-150 Add.  The calls of Subtract at 145 and 147 have equal (positive) signs, so they take
    the branch [bi_sub_same]. *)
Definition bi_add (a b : bigint) : outcome bigint :=
  if Bool.eqb (bi_neg a) (bi_neg b) then
    ds <- add_loop (S (Nat.max (length (bi_digits a)) (length (bi_digits b)))) (bi_digits a) (bi_digits b) 0 ;;
    Ok (bi_rlz (mkBig ds (bi_neg a)))
  else if bi_gt (bi_abs a) (bi_abs b) then bi_sub_same (bi_abs a) (bi_abs b)
  else
    r <- bi_sub_same (bi_abs b) (bi_abs a) ;;
    Ok (mkBig (bi_digits r) (bi_neg b)).

(** 152-193 Subtract *)
Definition bi_sub (a b : bigint) : outcome bigint :=
  if negb (Bool.eqb (bi_neg a) (bi_neg b)) then
    r <- bi_add a b ;; Ok (mkBig (bi_digits r) (bi_neg a))
  else bi_sub_same a b.

(** 203-209: the inner loop of Multiply; [res] is result.digits_, [d] is digits_[i].
    Reading or writing outside [res] is undefined behaviour. *)
Fixpoint mul_inner (fuel : nat) (res : list Z) (i j : nat) (d : Z) (b : list Z) (carry : Z) : outcome (list Z) :=
  if Nat.ltb j (length b) || negb (carry =? 0) then
    match fuel with
    | O => NoFuel
    | S f =>
        r <- vec_get res (i + j) ;;
        p <- ck (d * (if Nat.ltb j (length b) then nth j b 0 else 0)) ;;
        s <- ck (r + p) ;;
        sum <- ck (s + carry) ;;
        res' <- vec_set res (i + j) (Z.rem sum 10) ;;
        mul_inner f res' i (S j) d b (Z.quot sum 10)
    end
  else Ok res.

(** 200-210: the outer loop; every index is below the size of the result, so that many steps of
    the inner loop suffice. *)
Fixpoint mul_outer (a : list Z) (res : list Z) (i : nat) (b : list Z) : outcome (list Z) :=
  match a with
  | [] => Ok res
  | d :: r =>
      res' <- mul_inner (S (length res)) res i 0 d b 0 ;;
      mul_outer r res' (S i) b
  end.

(** 195-214 Multiply *)
Definition bi_mul (a b : bigint) : outcome bigint :=
  let n := (length (bi_digits a) + length (bi_digits b))%nat in
  ds <- mul_outer (bi_digits a) (repeat 0 n) 0 (bi_digits b) ;;
  Ok (bi_rlz (mkBig ds (negb (Bool.eqb (bi_neg a) (bi_neg b))))).

(** 236-249: binary search for the next digit of the quotient. *)
Fixpoint div_search (fuel : nat) (divisor current : bigint) (left right x : Z) : outcome Z :=
  if left <=? right then
    match fuel with
    | O => NoFuel
    | S f =>
        let mid := Z.quot (left + right) 2 in
        m <- bi_of_int mid ;;
        tmp <- bi_mul divisor m ;;
        if bi_lt tmp current || bi_equal tmp current
        then div_search f divisor current (mid + 1) right mid
        else div_search f divisor current left (mid - 1) x
    end
  else Ok x.

(** 229-252: the loop over the digits, most significant first; [q] is quotient.digits_. *)
Fixpoint div_loop (msd : list Z) (divisor current : bigint) (q : list Z) : outcome (list Z) :=
  match msd with
  | [] => Ok q
  | d :: r =>
      let current := bi_rlz (mkBig (d :: bi_digits current) (bi_neg current)) in
      x <- div_search 12 divisor current 0 10 0 ;;
      m <- bi_of_int x ;;
      p <- bi_mul divisor m ;;
      current' <- bi_sub current p ;;
      div_loop r divisor current' (x :: q)
  end.

(** 216-257 Divide.  For an empty dividend the index starts at -1 and the loop is not entered. *)
Definition bi_div (a b : bigint) : outcome bigint :=
  if bi_equal b bi_default then Throw EInvalidArgument
  else
    q <- div_loop (rev (bi_digits a)) (bi_abs b) bi_default [] ;;
    Ok (bi_rlz (mkBig q (negb (Bool.eqb (bi_neg a) (bi_neg b))))).

(** 259-267 Modulo *)
Definition bi_mod (a b : bigint) : outcome bigint :=
  q <- bi_div a b ;;
  p <- bi_mul q b ;;
  r <- bi_sub a p ;;
  Ok (mkBig (bi_digits r) (bi_neg a)).

(** 286-294: square and multiply; [fuel] bounds the halvings of the exponent. *)
Fixpoint pow_loop (fuel : nat) (e : Z) (result base : bigint) : outcome bigint :=
  if 0 <? e then
    match fuel with
    | O => NoFuel
    | S f =>
        result' <- (if Z.rem e 2 =? 1 then bi_mul result base else Ok result) ;;
        base' <- bi_mul base base ;;
        pow_loop f (Z.quot e 2) result' base'
    end
  else Ok result.

(** 277-296 Pow; an int is halved at most 31 times. *)
Definition bi_pow (a : bigint) (e : Z) : outcome bigint :=
  if e <? 0 then Throw EInvalidArgument
  else pow_loop 32 e (mkBig [1] false) a.

(** 298-301 Sqr *)
Definition bi_sqr (a : bigint) : outcome bigint := bi_mul a a.

(** 317-334: the bisection *)
Fixpoint sqrt_loop (fuel : nat) (a low high : bigint) : outcome bigint :=
  if bi_lt low high || bi_equal low high then
    match fuel with
    | O => NoFuel
    | S f =>
        s <- bi_add low high ;;
        mid <- bi_div s (mkBig [2] false) ;;
        squared <- bi_sqr mid ;;
        if bi_equal squared a then Ok mid
        else if bi_lt squared a
        then low' <- bi_add mid (mkBig [1] false) ;; sqrt_loop f a low' high
        else high' <- bi_sub mid (mkBig [1] false) ;; sqrt_loop f a low high'
    end
  else Ok high.

(** 303-335 Sqrt; the number of steps is not bounded by the code, here by [fuel]. *)
Definition bi_sqrt (fuel : nat) (a : bigint) : outcome bigint :=
  if bi_neg a then Throw EInvalidArgument
  else if bi_equal a bi_default || bi_equal a (mkBig [1] false) then Ok a
  else sqrt_loop fuel a (mkBig [1] false) a.

(** 338-341 Size *)
Definition bi_size (a : bigint) : nat := length (bi_digits a).

(** 384-387: digits printed from the most significant one; static_cast<char> keeps the low byte. *)
Fixpoint print_digits (msd : list Z) : outcome Str :=
  match msd with
  | [] => Ok []
  | d :: r =>
      v <- ck (d + 48) ;;
      s <- print_digits r ;; Ok (char_of_byte (low_byte v) :: s)
  end.

(** 373-389 ToString; also what operator<< (466-470) writes. *)
Definition bi_to_string (a : bigint) : outcome Str :=
  match bi_digits a with
  | [] => Ok [char_of_byte 48]
  | ds =>
      s <- print_digits (rev ds) ;;
      Ok (if bi_neg a then char_of_byte 45 :: s else s)
  end.
