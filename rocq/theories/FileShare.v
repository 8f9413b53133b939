(** Several File objects over one file system (__Core/File/File.h 29-54 and, through File.v, the other functions).
    Every function works on the content that the file has at that moment: reading seeks first, which drops the buffer of
    the stream, and writing flushes.
    Simplifications: a missing file is an empty one; different names are different files; whether the system lets the
    program open a file depends on the name only. *)
From Coq Require Import List NArith ZArith Bool.
From Verif Require Import Outcome CharModel StrModel File.
Import ListNotations.
Local Open Scope N_scope.

(** The members of a File and the state of its stream *)
Record fobj := FObj { o_name : Str; o_open : bool; o_eof : bool; o_fail : bool; o_pos : Z }.
(** Contents of the files by name, the File objects in existence by number, the number of the next one *)
Record fworld := FWorld { content : list N -> list N; objs : nat -> option fobj; next : nat }.

Section World.
Variable allowed : list N -> bool.

Definition path (o : fobj) : list N := s_str (o_name o).
Definition load (c : list N -> list N) (o : fobj) : file :=
  File (o_name o) (allowed (path o)) (c (path o)) (o_open o) (o_eof o) (o_fail o) (o_pos o).
Definition unload (f : file) : fobj := FObj (filename f) (is_open f) (eofbit f) (failbit f) (position f).
Definition set_content (c : list N -> list N) (p : list N) (d : list N) : list N -> list N :=
  fun q => if bytes_eqb q p then d else c q.
Definition set_obj (m : nat -> option fobj) (i : nat) (o : option fobj) : nat -> option fobj :=
  fun j => if Nat.eqb j i then o else m j.

(** FNew: File(name), 34-37; FCopy: File(other), 46-49; FEnd: ~File, 51-54; FDo: any other function *)
Inductive wop := FNew (name : Str) | FCopy (i : nat) | FEnd (i : nat) | FDo (i : nat) (o : fop).

(** A constructor that throws leaves no object. *)
Definition construct (w : fworld) (name : Str) : fworld * outcome (option Str) :=
  match f_open (load (content w) (FObj name false false false 0)) with
  | (f, Ok _) => (FWorld (content w) (set_obj (objs w) (next w) (Some (unload f))) (S (next w)), Ok None)
  | (_, Throw e) => (w, Throw e)
  | (_, UB) => (w, UB)
  | (_, NoFuel) => (w, NoFuel)
  end.
Definition wstep (w : fworld) (op : wop) : fworld * outcome (option Str) :=
  match op with
  | FNew name => construct w name
  | FCopy i => match objs w i with Some o => construct w (o_name o) | None => (w, UB) end
  | FEnd i => match objs w i with Some _ => (FWorld (content w) (set_obj (objs w) i None) (next w), Ok None) | None => (w, UB) end
  | FDo i op =>
      match objs w i with
      | Some o =>
          let (f, r) := f_step (load (content w) o) op in
          (FWorld (set_content (content w) (path o) (disk f)) (set_obj (objs w) i (Some (unload f))) (next w), r)
      | None => (w, UB)
      end
  end.
Fixpoint wrun (w : fworld) (h : list wop) : fworld * list (outcome (option Str)) :=
  match h with
  | [] => (w, [])
  | op :: r => let (w1, x) := wstep w op in let (w2, xs) := wrun w1 r in (w2, x :: xs)
  end.
End World.
