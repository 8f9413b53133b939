(** What a JSON document with floating-point numbers is after it was saved and loaded. *)
From Coq Require Import List NArith ZArith QArith Qabs.
From Verif Require Import Outcome CharModel StrModel SpecStr SpecJson SpecJsonText Double JsonData SpecFloatText.
Import ListNotations.
Local Open Scope Q_scope.

(** A float that is neither infinite nor a NaN *)
Definition finite_float (f : dbl) : Prop := exists neg m e, f = Finite neg m e /\ float32 m e.

(** What comes back for a float: if it is written without exponent, the integer part of its six digits; otherwise the
    float [m' * 2^e'] with a relative error of at most 0.000006, and in the subnormal range half a unit more. *)
Definition float_back (f : dbl) (w : json dbl) : Prop :=
  exists neg m e, f = Finite neg m e /\
  (m = 0%N /\ w = JInt 0 \/
   (exists d x z, m <> 0%N /\ ~ with_exponent (binary m e) /\ best_six (binary m e) d x /\ inject_Z z <= six d x < inject_Z (z + 1) /\
    w = JInt (if neg then - z else z)%Z) \/
   exists m' e', m <> 0%N /\ with_exponent (binary m e) /\ float32 m' e' /\
    (Qabs (binary m' e' - binary m e) <= binary m e * (6 # 1000000) \/
     binary m e < 2 ^ (-126) /\ Qabs (binary m' e' - binary m e) <= binary m e * (6 # 1000000) + 2 ^ (-150)) /\
    w = JFloat (Finite neg m' e')).

(** Documents whose other parts come back as they are: no quotation marks in keys, each key once in its object, no
    quotation marks and backslashes in strings *)
Inductive savable {F} (good : F -> Prop) : json F -> Prop :=
| sv_null : savable good JNull
| sv_bool b : savable good (JBool b)
| sv_int z : int64 z -> savable good (JInt z)
| sv_float f : good f -> savable good (JFloat f)
| sv_str u : text u -> ~ In (ch 0x22%N) u -> ~ In (ch 0x5C%N) u -> savable good (JStr u)
| sv_arr l : Forall (savable good) l -> savable good (JArr l)
| sv_obj ms : NoDup (keys ms) -> Forall (fun m => text (fst m) /\ ~ In (ch 0x22%N) (fst m) /\ savable good (snd m)) ms -> savable good (JObj ms).

(** The same document, floats replaced *)
Inductive replaced {F} (back : F -> json F -> Prop) : json F -> json F -> Prop :=
| rp_null : replaced back JNull JNull
| rp_bool b : replaced back (JBool b) (JBool b)
| rp_int z : replaced back (JInt z) (JInt z)
| rp_float f w : back f w -> replaced back (JFloat f) w
| rp_str u : replaced back (JStr u) (JStr u)
| rp_arr l l' : Forall2 (replaced back) l l' -> replaced back (JArr l) (JArr l')
| rp_obj ms ms' : Forall2 (fun m m' => fst m' = fst m /\ replaced back (snd m) (snd m')) ms ms' -> replaced back (JObj ms) (JObj ms').
