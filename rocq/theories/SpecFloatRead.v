(** What the C library reads as a decimal number and what float becomes of it; independent of the model. *)
From Coq Require Import List NArith ZArith QArith Qabs.
From Verif Require Import SpecInt SpecStrUtil Double.
Import ListNotations.
Local Open Scope Q_scope.

Definition no_digit (r : list N) : Prop := forall d r', r = d :: r' -> ~ ascii_digit d.
(** An exponent: e or E, a sign, digits, as many as there are; anything else is no exponent and counts as 0. *)
Inductive c_exponent : list N -> Z -> Prop :=
| ce_some c sg ds r neg : c = 101%N \/ c = 69%N -> c_sign sg neg -> ds <> [] -> Forall ascii_digit ds -> no_digit r ->
    c_exponent (c :: sg ++ ds ++ r) (if neg then - digits_value ds else digits_value ds)
| ce_none s : (forall c sg neg d r, c = 101%N \/ c = 69%N -> c_sign sg neg -> ascii_digit d -> s <> c :: sg ++ d :: r) -> c_exponent s 0.
(** White space, a sign, digits [i], a point and digits [f] (at least one digit in all), an exponent, then anything *)
Inductive c_decimal : list N -> bool -> Q -> Prop :=
| c_decimal_text ws sg i p f r neg x v : Forall c_space ws -> c_sign sg neg -> Forall ascii_digit i -> no_digit (p ++ r) ->
    (p = [] /\ f = [] /\ (forall r', r <> 46%N :: r') \/ p = 46%N :: f /\ Forall ascii_digit f /\ no_digit r) ->
    i ++ f <> [] -> c_exponent r x -> v == inject_Z (digits_value (i ++ f)) * 10 ^ (x - Z.of_nat (length f)) ->
    c_decimal (ws ++ sg ++ i ++ p ++ r) neg v.

(** The binary numbers with significands of [p] digits and exponents from [emin], in their normal form *)
Definition normal (p emin m e : Z) : Prop := (0 <= m < 2 ^ p /\ emin <= e /\ (e = emin \/ 2 ^ (p - 1) <= m))%Z.
Definition scaled2 (m e : Z) : Q := inject_Z m * 2 ^ e.
(** The nearest one; of two the one with an even significand *)
Definition rounded (p emin : Z) (v : Q) (m e : Z) : Prop :=
  normal p emin m e /\
  forall m' e', normal p emin m' e' -> (m', e') <> (m, e) ->
    Qabs (v - scaled2 m e) < Qabs (v - scaled2 m' e') \/ Qabs (v - scaled2 m e) == Qabs (v - scaled2 m' e') /\ Z.even m = true.

(** A number is taken as a double, unless that is too large or (below the normal doubles) not exact; then as a float. *)
Definition in_range (v : Q) (m e : Z) : Prop := scaled2 m e < 2 ^ 1024 /\ (2 ^ (-1022) <= v \/ scaled2 m e == v).
Inductive float_value (neg : bool) (v : Q) : dbl -> Prop :=
| fv_zero : v == 0 -> float_value neg v (Finite neg 0 0)
| fv_finite m1 e1 m e : 0 < v -> rounded 53 (-1074) v m1 e1 -> in_range v m1 e1 ->
    rounded 24 (-149) (scaled2 m1 e1) m e -> scaled2 m e < 2 ^ 128 -> float_value neg v (Finite neg (Z.to_N m) e)
| fv_infinite m1 e1 m e : 0 < v -> rounded 53 (-1074) v m1 e1 -> in_range v m1 e1 ->
    rounded 24 (-149) (scaled2 m1 e1) m e -> 2 ^ 128 <= scaled2 m e -> float_value neg v (Infinite neg).
Definition lib_real (t : list (list N)) (x : dbl) : Prop := exists neg v, c_decimal (concat t) neg v /\ float_value neg v x.
