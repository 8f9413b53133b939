(** Model of __Core/File/File.h: a File over a std::fstream.
    Assumptions about the C++ library (libstdc++, POSIX): open mode in|out|app|binary creates a
    missing file and every write goes to the end (O_APPEND); open() fails with failbit when the
    stream is already open and clears the state bits when it succeeds; seekg clears eofbit, does
    nothing when failbit is set and fails for negative offsets; tellg returns -1 when failbit is
    set; get() at the end sets eofbit and failbit; operator<< writes nothing unless the state is
    good; switching from reading to writing needs no explicit seek.
    The stream's own read position is not part of the state: every reading function seeks
    before it reads.  Simplifications: one File per file on disk (several: FileShare.v), no failing writes, badbit never
    set, data pointers are not null. *)
From Coq Require Import List NArith ZArith Bool.
From Verif Require Import Outcome CharModel StrModel.
Import ListNotations.
Local Open Scope N_scope.

(** Lines 451-453 and the stream state.  [disk]: content of the file; [access]: whether the
    operating system lets the program open it. *)
Record file := File {
  filename : Str; access : bool; disk : list N;
  is_open : bool; eofbit : bool; failbit : bool; position : Z }.

Definition set_state (f : file) (o e b : bool) : file :=
  File (filename f) (access f) (disk f) o e b (position f).
Definition set_pos (f : file) (p : Z) : file :=
  File (filename f) (access f) (disk f) (is_open f) (eofbit f) (failbit f) p.
Definition set_disk (f : file) (d : list N) : file :=
  File (filename f) (access f) d (is_open f) (eofbit f) (failbit f) (position f).

(** A function on a File: the File afterwards and what it returned or threw. *)
Definition fresult (A : Type) : Type := (file * outcome A)%type.

(** Open, lines 57-68 *)
Definition f_open (f : file) : fresult unit :=
  match s_str (filename f) with
  | [] => (f, Throw EIosFailure)
  | _ =>
      if is_open f then (set_state f true (eofbit f) true, Ok tt)        (* open on an open stream *)
      else if access f then (set_state f true false false, Ok tt)
      else (set_state f false (eofbit f) true, Throw EIosFailure)
  end.

(** Close, lines 70-76: the state bits stay. *)
Definition f_close (f : file) : file := set_state f false (eofbit f) (failbit f).

(** Erase, lines 78-88 *)
Definition f_erase (f : file) : fresult unit :=
  let f := f_close f in
  match s_str (filename f) with
  | [] => (f, Throw EIosFailure)                       (* the ofstream cannot open "" *)
  | _ => if access f then f_open (set_disk f []) else (f, Throw EIosFailure)
  end.

(** IsEof, lines 90-93 (operator bool, 95-98, is its negation) *)
Definition f_is_eof (f : file) : bool := eofbit f.

(** GetPosition, lines 111-114 *)
Definition f_get_position (f : file) : Z := position f.

(** SetPosition, lines 100-109: position, clear, seekg; seekg fails for a closed stream or a
    negative offset. *)
Definition f_set_position (f : file) (p : Z) : fresult unit :=
  let f := set_state (set_pos f p) (is_open f) false false in
  if is_open f && (0 <=? p)%Z then (f, Ok tt)
  else (set_state f (is_open f) false true, Throw EIosFailure).

(** Lines 120-123 and the like: open a closed stream first. *)
Definition ensure_open {A} (f : file) (k : file -> fresult A) : fresult A :=
  if is_open f then k f
  else match f_open f with
       | (f', Ok _) => k f'
       | (f', Throw e) => (f', Throw e)
       | (f', UB) => (f', UB)
       | (f', NoFuel) => (f', NoFuel)
       end.

(** Read, lines 118-134.  With failbit set: the seeks only clear eofbit, tellg gives -1 and the
    vector of size_t(-1) bytes throws length_error.  Otherwise the buffer holds the whole content
    and nothing else, and a String is built from its data() as from a C string. *)
Definition f_read (f : file) : fresult Str :=
  ensure_open f (fun f =>
    let f := set_state f (is_open f) false (failbit f) in
    if failbit f then (f, Throw ELengthError) else (f, string_of_cstr (disk f))).

(** Lines 155-163: the bytes up to the delimiter, and whether it was found. *)
Fixpoint scan (d : N) (l : list N) : list N * bool :=
  match l with
  | [] => ([], false)
  | b :: r => if b =? d then ([], true) else let (p, found) := scan d r in (b :: p, found)
  end.

(** ReadLine, lines 136-174 *)
Definition f_read_line (f : file) (delim : N) : fresult Str :=
  ensure_open f (fun f =>
    if eofbit f then (f, Ok [])
    else if failbit f then (f, Throw EIosFailure)
    else if (position f <? 0)%Z then (set_state f (is_open f) false true, Throw EIosFailure)
    else
      let (p, found) := scan delim (skipn (Z.to_nat (position f)) (disk f)) in
      if found then (set_pos f (position f + Z.of_nat (length p) + 1)%Z, string_of_std p)
      else (set_pos (set_state f (is_open f) true true) (-1)%Z, string_of_std p)).

(** file_ << bytes; flush *)
Definition put (f : file) (b : list N) : fresult unit :=
  if eofbit f || failbit f then (set_state f (is_open f) (eofbit f) true, Ok tt)
  else (set_disk f (disk f ++ b), Ok tt).

(** Write, lines 176-238 (all overloads write the bytes of one text) *)
Definition f_write (f : file) (b : list N) : fresult unit := ensure_open f (fun f => put f b).
(** WriteLine, lines 240-302 *)
Definition f_write_line (f : file) (b : list N) : fresult unit := ensure_open f (fun f => put f (b ++ [10])).
(** Append, lines 304-372: seekp(0, end) has no effect in append mode. *)
Definition f_append (f : file) (b : list N) : fresult unit := ensure_open f (fun f => put f b).
(** AppendLine, lines 374-442 *)
Definition f_append_line (f : file) (b : list N) : fresult unit := ensure_open f (fun f => put f (b ++ [10])).

(** File(filename), lines 34-37, on a file with this content. *)
Definition make_file (name : Str) (acc : bool) (content : list N) : fresult unit :=
  f_open (File name acc content false false false 0).

(** Operations of a history. *)
Inductive fop :=
| OOpen | OClose | OErase | OSetPosition (p : Z) | ORead | OReadLine (d : N)
| OWrite (b : list N) | OWriteLine (b : list N) | OAppend (b : list N) | OAppendLine (b : list N).
Definition f_step (f : file) (o : fop) : fresult (option Str) :=
  let lift {A} (g : A -> option Str) (r : fresult A) : fresult (option Str) := (fst r, omap g (snd r)) in
  match o with
  | OOpen => lift (fun _ => None) (f_open f)
  | OClose => (f_close f, Ok None)
  | OErase => lift (fun _ => None) (f_erase f)
  | OSetPosition p => lift (fun _ => None) (f_set_position f p)
  | ORead => lift Some (f_read f)
  | OReadLine d => lift Some (f_read_line f d)
  | OWrite b => lift (fun _ => None) (f_write f b)
  | OWriteLine b => lift (fun _ => None) (f_write_line f b)
  | OAppend b => lift (fun _ => None) (f_append f b)
  | OAppendLine b => lift (fun _ => None) (f_append_line f b)
  end.
