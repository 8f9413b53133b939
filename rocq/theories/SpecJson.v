(** Specifications for JSON values, independent of the model (only the type of trees is shared). *)
From Coq Require Import List NArith ZArith Bool.
From Verif Require Import CharModel StrModel JsonData.
Import ListNotations.

Definition key_dec : forall a b : Str, {a = b} + {a <> b} := list_eq_dec (list_eq_dec N.eq_dec).

Section Spec.
Context {F : Type}.
Notation json := (json F).

(** The keys of an object, in order. *)
Definition keys (ms : list (Str * json)) : list Str := map fst ms.

(** What a key is mapped to after one operation, given what keys were mapped to before. *)
Definition value_step (m : Str -> option json) (o : @doc_op F) : Str -> option json :=
  fun q =>
    match o with
    | OpAdd k x => if key_dec q k then Some x else m q
    | OpTouch k => if key_dec q k then Some (match m k with Some v => v | None => JNull end) else m q
    | OpUpdate k f => if key_dec q k then Some (f (match m k with Some v => v | None => JNull end)) else m q
    | OpRemove k => if key_dec q k then None else m q
    end.
Definition value_after (os : list doc_op) (m : Str -> option json) : Str -> option json :=
  fold_left value_step os m.

(** The keys, in order, after one operation: a new key goes last, a removed key disappears. *)
Definition keys_step (l : list Str) (o : @doc_op F) : list Str :=
  match o with
  | OpAdd k _ | OpTouch k | OpUpdate k _ => if in_dec key_dec k l then l else l ++ [k]
  | OpRemove k => remove key_dec k l
  end.
Definition keys_after (os : list doc_op) (l : list Str) : list Str := fold_left keys_step os l.

(** What an object maps a key to: the value beside its first occurrence. *)
Inductive maps_to : list (Str * json) -> Str -> json -> Prop :=
| maps_here k x r : maps_to ((k, x) :: r) k x
| maps_later k' x' r k x : k' <> k -> maps_to r k x -> maps_to ((k', x') :: r) k x.

(** Keys are unique at every level of a tree. *)
Inductive unique_keys : json -> Prop :=
| uk_null : unique_keys JNull
| uk_obj ms : NoDup (keys ms) -> Forall (fun p => unique_keys (snd p)) ms -> unique_keys (JObj ms)
| uk_arr l : Forall unique_keys l -> unique_keys (JArr l)
| uk_str s : unique_keys (JStr s)
| uk_float f : unique_keys (JFloat f)
| uk_int z : unique_keys (JInt z)
| uk_bool b : unique_keys (JBool b).

(** Neither of two nodes lies inside the other (and they are different). *)
Definition apart (t s : list nat) : Prop :=
  exists c i j t' s', i <> j /\ t = c ++ i :: t' /\ s = c ++ j :: s'.
(** Node [a] lies strictly inside node [b]. *)
Definition inside (a b : list nat) : Prop := exists i r, a = b ++ i :: r.

(** An object or array with only its first [n] members or elements. *)
Definition take (n : nat) (v : json) : json :=
  match v with JObj ms => JObj (firstn n ms) | JArr l => JArr (firstn n l) | _ => v end.

End Spec.
