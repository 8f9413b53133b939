(** Model of __Core/Utility/Random.h: Random<T>(min, max) for the integer types (33-74) and RandomBoolean (97-105), with the
    parts of libstdc++ they call: std::mt19937_64, uniform_int_distribution, bernoulli_distribution.
    Simplifications: the readings of the steady clock are given; the three floating types (75-94) are in RandomReal.v;
    in RandomBoolean a double is as in Double.v. *)
From Coq Require Import List NArith ZArith Bool.
From Verif Require Import Outcome Double.
Import ListNotations.
Local Open Scope N_scope.

Definition two64 : N := 2 ^ 64.

(** ** std::mt19937_64, the 64-bit Mersenne Twister: w = 64, n = 312, m = 156, r = 31 *)
Definition low31 : N := 2 ^ 31 - 1.
(** x_i = f * (x_(i-1) xor (x_(i-1) >> 62)) + i *)
Fixpoint seed_words (n : nat) (i x : N) : list N :=
  match n with
  | O => []
  | S n => x :: seed_words n (i + 1) ((6364136223846793005 * N.lxor x (N.shiftr x 62) + (i + 1)) mod two64)
  end.
Definition seeded (seed : N) : list N := seed_words 312 0 (seed mod two64).
(** y = upper bits of x_k, lower 31 bits of x_(k+1); x_(k+m) xor (y >> 1) xor (y odd ? a : 0) *)
Definition twist (x next far : N) : N :=
  let y := N.lxor (N.shiftl (N.shiftr x 31) 31) (N.land next low31) in
  N.lxor far (N.lxor (N.shiftr y 1) (if N.odd y then 0xb5026f5aa96619e9 else 0)).
Fixpoint twist3 (xs nexts fars : list N) : list N :=
  match xs, nexts, fars with
  | x :: xs, y :: ys, f :: fs => twist x y f :: twist3 xs ys fs
  | _, _, _ => []
  end.
(** The next 312 words *)
Definition refill (x : list N) : list N :=
  let low := twist3 (firstn 156 x) (tl x) (skipn 156 x) in
  let high := twist3 (skipn 156 x) (skipn 157 x ++ firstn 1 low) low in
  low ++ high.
Definition temper (z : N) : N :=
  let z := N.lxor z (N.land (N.shiftr z 29) 0x5555555555555555) in
  let z := N.lxor z (N.land (N.shiftl z 17 mod two64) 0x71d67fffeda60000) in
  let z := N.lxor z (N.land (N.shiftl z 37 mod two64) 0xfff7eee000000000) in
  N.lxor z (N.shiftr z 43).
(** Block [b] of 312 outputs of an engine with this seed; output number [i] *)
Fixpoint block (b : nat) (x : list N) : list N := match b with O => refill x | S b => block b (refill x) end.
Definition output (seed : N) (i : nat) : N := temper (nth (i mod 312) (block (i / 312) (seeded seed)) 0).

(** ** uniform_int_distribution *)
(** _S_nd<unsigned __int128>: Lemire's method on the words g i, g (i+1), ...; [fuel] bounds the loop *)
Fixpoint reject (fuel : nat) (g : nat -> N) (i : nat) (range : N) : outcome N :=
  match fuel with
  | O => NoFuel
  | S f =>
      let product := g i * range in
      let low := product mod two64 in
      let threshold := ((two64 - range) mod two64) mod range in       (* -range % range *)
      if (low <? range) && (low <? threshold) then reject f g (S i) range else Ok (product / two64)
  end.

(** The integer types with a specialisation: 33-73 *)
Inductive rtype := RI16 | RU16 | RI32 | RU32 | RI64 | RU64.
Local Open Scope Z_scope.
Definition rmin (t : rtype) : Z := match t with RI16 => - 2 ^ 15 | RI32 => - 2 ^ 31 | RI64 => - 2 ^ 63 | _ => 0 end.
Definition rmax (t : rtype) : Z :=
  match t with RI16 => 2 ^ 15 - 1 | RU16 => 2 ^ 16 - 1 | RI32 => 2 ^ 31 - 1 | RU32 => 2 ^ 32 - 1 | RI64 => 2 ^ 63 - 1 | RU64 => 2 ^ 64 - 1 end.
(** Conversion to the type *)
Definition rconv (t : rtype) (z : Z) : Z := (z - rmin t) mod (rmax t - rmin t + 1) + rmin t.
Definition u64 (z : Z) : N := Z.to_N (z mod 2 ^ 64).

(** uniform_int_distribution<T>{min, max}(engine); min <= max is a precondition of the constructor *)
Definition uniform_int (fuel : nat) (t : rtype) (g : nat -> N) (min max : Z) : outcome Z :=
  if max <? min then UB else
  let urange := u64 (Z.of_N (u64 max) - Z.of_N (u64 min)) in
  ret <- (if (urange <? two64 - 1)%N then reject fuel g 0 (urange + 1)%N else Ok (g O)) ;;
  Ok (rconv t (Z.of_N (u64 (Z.of_N ret + min)))).

(** Random<T>(min, max): [now] is the reading of the clock, converted to the result type of the engine *)
Definition random_int (fuel : nat) (t : rtype) (now : Z) (min max : Z) : outcome Z :=
  uniform_int fuel t (output (u64 now)) min max.

(** ** RandomBoolean, 97-105 *)
(** A word converted to double: 53 significant bits, to nearest, ties to even *)
Definition word_to_double (w : N) : Z :=
  let z := Z.of_N w in
  let s := Z.max 0 (Z.log2 z - 52) in
  nearest_even z (2 ^ s) * 2 ^ s.
(** generate_canonical<double, 53>: word / 2^64, at most the largest double below 1; in units of 2^-64 *)
Definition canonical (w : N) : Z := if 2 ^ 64 <=? word_to_double w then 2 ^ 64 - 2 ^ 11 else word_to_double w.
(** c / 2^64 < m * 2^e *)
Definition below (c : Z) (m : N) (e : Z) : bool :=
  if -64 <=? e then c <? Z.of_N m * 2 ^ (e + 64) else c * 2 ^ (- (e + 64)) <? Z.of_N m.
(** m * 2^e > 1 *)
Definition above_one (m : N) (e : Z) : bool := if 0 <=? e then 1 <? Z.of_N m * 2 ^ e else 2 ^ (- e) <? Z.of_N m.
(** 99: p < 0.0 || p > 1.0 *)
Definition outside (p : dbl) : bool :=
  match p with
  | Finite true m _ => negb (m =? 0)%N
  | Finite false m e => above_one m e
  | Infinite _ => true
  | NotANumber _ => false
  end.
Definition bernoulli (p : dbl) (w : N) : outcome bool :=
  match p with
  | Finite true m e => Ok false                               (* only -0.0 is allowed *)
  | Finite false m e => Ok (below (canonical w) m e)
  | _ => UB                                                   (* precondition 0 <= p <= 1 *)
  end.
Definition random_boolean (now : Z) (p : dbl) : outcome bool :=
  if outside p then Throw EInvalidArgument else bernoulli p (output (u64 now) 0).
