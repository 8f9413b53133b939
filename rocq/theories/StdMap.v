(** std::map as used by __Testing/Types/TestRegistry.h 35 and as argument of
    __Core/Collections/Utility/MapUtility.h: the sequence of its entries in iteration order,
    which the C++ library keeps sorted by the comparison [ltb] with one entry per key. *)
From Coq Require Import List Bool.
Import ListNotations.

Section StdMap.
  Context {K V : Type} (ltb : K -> K -> bool).
  Definition std_map := list (K * V).

  (** m[k], then [f] applied to the reference: a missing entry is created with [d] first. *)
  Fixpoint map_update (k : K) (d : V) (f : V -> V) (m : std_map) : std_map :=
    match m with
    | [] => [(k, f d)]
    | (k', v) :: r =>
        if ltb k k' then (k, f d) :: m
        else if ltb k' k then (k', v) :: map_update k d f r
        else (k', f v) :: r
    end.

  (** erase(k) *)
  Fixpoint map_erase (k : K) (m : std_map) : std_map :=
    match m with
    | [] => []
    | (k', v) :: r =>
        if ltb k k' then m
        else if ltb k' k then (k', v) :: map_erase k r
        else r
    end.

  (** find(k) *)
  Fixpoint map_find (k : K) (m : std_map) : option V :=
    match m with
    | [] => None
    | (k', v) :: r => if ltb k k' then None else if ltb k' k then map_find k r else Some v
    end.
End StdMap.
Arguments std_map K V : clear implicits.

(** GetMapKeys, MapUtility.h 28-38: loop over the elements with emplace_back. *)
Definition get_map_keys {K V} (m : list (K * V)) : list K := fold_left (fun keys e => keys ++ [fst e]) m [].
(** GetMapValues, MapUtility.h 40-50 *)
Definition get_map_values {K V} (m : list (K * V)) : list V := fold_left (fun vals e => vals ++ [snd e]) m [].
