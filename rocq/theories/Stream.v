(** Model of __Core/IO/Stream.h.
    Simplifications: the console is the bytes still to be read from std::cin (end of input after them),
    the state bits of std::cin, and the bytes written so far to std::cout, std::cerr and std::clog;
    writing never fails and badbit is never set. *)
From Coq Require Import List NArith ZArith Bool.
From Verif Require Import Outcome CharModel StrModel File Values.
Import ListNotations.
Local Open Scope N_scope.

Inductive sink := SOut | SErr | SLog.
Record console := Console {
  pending : list N; cin_eof : bool; cin_fail : bool; written : sink -> list N }.

(** operator<< of these bytes on one of the streams, flush *)
Definition sink_eqb (a b : sink) : bool :=
  match a, b with SOut, SOut | SErr, SErr | SLog, SLog => true | _, _ => false end.
Definition put_bytes (c : console) (k : sink) (b : list N) : console :=
  Console (pending c) (cin_eof c) (cin_fail c)
          (fun k' => if sink_eqb k' k then written c k' ++ b else written c k').

(** std::getline(std::cin, input) (line 37) into an empty string: the new state and the string.
    A stream that is not good only gets failbit; the end of input sets eofbit, and failbit when
    nothing was read. *)
Definition getline (c : console) : console * list N :=
  if cin_eof c || cin_fail c then (Console (pending c) (cin_eof c) true (written c), [])
  else
    let (p, found) := scan 10 (pending c) in
    if found then (Console (skipn (S (length p)) (pending c)) false false (written c), p)
    else (Console [] true (match p with [] => true | _ => false end) (written c), p).

(** InputStream::ReadLine, lines 29-40 *)
Definition read_line (c : console) (message : Str) : console * outcome Str :=
  let c := if s_not_empty message then put_bytes c SOut (s_str message) else c in
  let (c, input) := getline c in
  (c, string_of_std input).

(** String.h 1011-1020 operator>>(istream&, String&) on std::cin: the state afterwards, the String and how the call
    ends.  A stream that is not good leaves the String alone; so does a line that is not converted (line 1017). *)
Definition read_into (c : console) (old : Str) : console * Str * outcome unit :=
  if cin_eof c || cin_fail c then (c, old, Ok tt)
  else
    let (c, input) := getline c in
    match s_input input with
    | Ok s => (c, s, Ok tt)
    | Throw e => (c, old, Throw e)
    | UB => (c, old, UB)
    | NoFuel => (c, old, NoFuel)
    end.

(** The caller's loop  String s; while (std::cin >> s) use(s);  - the Strings used.  The stream converts to false
    when failbit is set (std::basic_ios::operator bool); [fuel] bounds the number of turns, the code does not. *)
Fixpoint read_while (fuel : nat) (c : console) (old : Str) : outcome (list Str) :=
  match fuel with
  | O => NoFuel
  | S f =>
      match read_into c old with
      | (c', s, Ok tt) => if cin_fail c' then Ok [] else r <- read_while f c' s ;; Ok (s :: r)
      | (_, _, Throw e) => Throw e
      | (_, _, UB) => UB
      | (_, _, NoFuel) => NoFuel
      end
  end.

(** A call whose argument String::Format(...) is evaluated first: nothing happens when it throws. *)
Definition with_format {A} (c : console) (m : outcome Str) (k : Str -> console * outcome A) : console * outcome A :=
  match m with
  | Ok s => k s
  | Throw e => (c, Throw e)
  | UB => (c, UB)
  | NoFuel => (c, NoFuel)
  end.

(** InputStream::ReadLine(str, args...), lines 42-46 *)
Definition read_line_format (c : console) (t : Str) (args : list value) : console * outcome Str :=
  with_format c (format_values t args) (read_line c).

(** InputStream::ReadChar, lines 48-51: operator[](0) of the line *)
Definition read_char (c : console) (message : Str) : console * outcome Chr :=
  let (c, r) := read_line c message in
  (c, s <- r ;; s_index s 0).
(** InputStream::ReadChar(str, args...), lines 53-57 *)
Definition read_char_format (c : console) (t : Str) (args : list value) : console * outcome Chr :=
  with_format c (format_values t args) (read_char c).

(** OutputStream, ErrorStream and LogStream: lines 60-121, 123-184 (the same with cerr), 186-247 (clog). *)
Inductive wop :=
| Write (k : sink) (s : Str)                               (* 63-66, 126-129, 189-192 *)
| WriteText (k : sink) (b : list N)                        (* 68-84 ...: what to_string(), str() or ToString() gave *)
| WriteFormat (k : sink) (t : Str) (args : list value)     (* 86-90 ... *)
| WriteLine0 (k : sink)                                    (* 92-95 ... *)
| WriteLine (k : sink) (s : Str)                           (* 97-100 ... *)
| WriteLineText (k : sink) (b : list N)                    (* 102-118 ... *)
| WriteLineFormat (k : sink) (t : Str) (args : list value). (* 120-124 ... *)
Definition wstep (c : console) (o : wop) : console * outcome unit :=
  match o with
  | Write k s => (put_bytes c k (s_str s), Ok tt)
  | WriteText k b => (put_bytes c k b, Ok tt)
  | WriteFormat k t args => with_format c (format_values t args) (fun s => (put_bytes c k (s_str s), Ok tt))
  | WriteLine0 k => (put_bytes c k [10], Ok tt)
  | WriteLine k s => (put_bytes (put_bytes c k (s_str s)) k [10], Ok tt)
  | WriteLineText k b => (put_bytes (put_bytes c k b) k [10], Ok tt)
  | WriteLineFormat k t args =>
      with_format c (format_values t args) (fun s => (put_bytes (put_bytes c k (s_str s)) k [10], Ok tt))
  end.
(** A program that writes: exceptions are caught by the caller, which goes on; undefined behaviour ends it. *)
Fixpoint wexec (c : console) (l : list wop) : console * outcome unit :=
  match l with
  | [] => (c, Ok tt)
  | o :: r =>
      match wstep c o with
      | (c', UB) => (c', UB)
      | (c', NoFuel) => (c', NoFuel)
      | (c', _) => wexec c' r
      end
  end.
