(** Model of __Core/String/Algorithms/Kmp.h. *)
From Coq Require Import List NArith Bool.
From Verif Require Import Outcome StrModel.
Import ListNotations.
Local Open Scope N_scope.

(** Kmp.h 33, 35, 37: an index of type size_t where -1 (npos) is a legal value:
    [None] is npos, [Some j] any other value. *)
Definition kidx := option nat.

(** Kmp.h 41, 61: [++j] (npos wraps to 0). *)
Definition kincr (j : kidx) : nat :=
  match j with None => O | Some j => S j end.

(** Kmp.h 37-40 and 57-60: the inner while loop; [c] is the character compared with. *)
Fixpoint kmp_while (fuel : nat) (pattern : list N) (failure : list kidx) (c : N) (j : kidx) : outcome kidx :=
  match j with
  | None => Ok None
  | Some j' =>
      x <- str_get pattern j' ;;
      if x =? c then Ok j
      else match fuel with
           | O => NoFuel
           | S f => j'' <- vec_get failure j' ;; kmp_while f pattern failure c j''
           end
  end.

(** Kmp.h 35-42: the for loop of get_kmp_failure_vec, [n] iterations left. *)
Fixpoint kmp_failure_loop (n : nat) (pattern : list N) (failure : list kidx) (i : nat) (j : kidx) : outcome (list kidx) :=
  match n with
  | O => Ok failure
  | S n' =>
      c <- str_get pattern i ;;
      j' <- kmp_while (S (length pattern)) pattern failure c j ;;
      failure' <- vec_set failure (S i) (Some (kincr j')) ;;
      kmp_failure_loop n' pattern failure' (S i) (Some (kincr j'))
  end.

(** Kmp.h 29-44 get_kmp_failure_vec *)
Definition get_kmp_failure_vec (pattern : list N) : outcome (list kidx) :=
  let failure := repeat (Some O) (length pattern + 1) in
  failure <- vec_set failure 0 None ;;
  kmp_failure_loop (length pattern) pattern failure 0 None.

(** Kmp.h 54-65: the search loop over the rest of the text. *)
Fixpoint kmp_loop (pattern : list N) (failure : list kidx) (text : list N) (j : nat) : outcome bool :=
  match text with
  | [] => Ok false
  | c :: text' =>
      j' <- kmp_while (S (length pattern)) pattern failure c (Some j) ;;
      if Nat.eqb (kincr j') (length pattern) then Ok true
      else kmp_loop pattern failure text' (kincr j')
  end.

(** Kmp.h 48-66 kmp *)
Definition kmp (pattern text : list N) : outcome bool :=
  failure <- get_kmp_failure_vec pattern ;;
  kmp_loop pattern failure text 0.
