(** Model of __Serializing/Json/Types/JsonData.h, Json.h (without Parse, see JsonParse.v),
    JsonError.h and Utility.h.
    Simplifications: a JsonData is its tree of values; the union and its tag are one value, and
    reading a union member that is not the active one is undefined behaviour; element pointers are
    never null (the one place that stores nullptr, JsonData.h 179, is followed by undefined
    behaviour); memory is unbounded.  FloatingType is an arbitrary type [F]. *)
From Coq Require Import String Ascii List NArith ZArith Bool.
From Verif Require Import Outcome CharModel CharUtil StrModel StrUtil Dec.
Import ListNotations.
Local Open Scope N_scope.
Local Open Scope list_scope.

(** JsonClass.h 26-35 *)
Inductive jclass := CNull | CObject | CArray | CString | CFloating | CIntegral | CBoolean.

(** JsonError.h 26-42 *)
Inductive jerror :=
| NoError | UnexpectedCharacter | UnterminatedString | UnterminatedObject | UnterminatedArray
| ExpectedStringKey | MissingColon | InvalidJson | InvalidValue | InvalidNumber
| InvalidEscapeSequence | NumberConversionError | OutOfRangeError | TrailingComma.

(** Bytes of a C string literal. *)
Definition lit (s : string) : list N := map N_of_ascii (list_ascii_of_string s).

(** Utility.h 28-59 GetErrorString *)
Definition get_error_string (e : jerror) : list N :=
  match e with
  | NoError => lit "No error."
  | UnterminatedString => lit "Unterminated string."
  | ExpectedStringKey => lit "Expected string key."
  | MissingColon => lit "Missing colon."
  | UnterminatedObject => lit "Unterminated object."
  | UnterminatedArray => lit "Unterminated array."
  | InvalidNumber => lit "Invalid number."
  | NumberConversionError => lit "Number conversion error."
  | InvalidValue => lit "Invalid value."
  | UnexpectedCharacter => lit "Unexpected character."
  | TrailingComma => lit "Trailing comma."
  | InvalidJson => lit "Invalid JSON."
  | _ => lit "Unknown error."
  end.

(** JsonData.h 40-46, 597-617: the union and its tag. *)
Inductive json (F : Type) : Type :=
| JNull
| JObj (ms : list (Str * json F))
| JArr (l : list (json F))
| JStr (s : Str)
| JFloat (f : F)
| JInt (z : Z)
| JBool (b : bool).
Arguments JNull {F}.
Arguments JObj {F} ms.
Arguments JArr {F} l.
Arguments JStr {F} s.
Arguments JFloat {F} f.
Arguments JInt {F} z.
Arguments JBool {F} b.

(** Conversion of an integer to Int64 (JsonData.h 77, 135). *)
Definition to_int64 (z : Z) : Z := ((z + 9223372036854775808) mod 18446744073709551616 - 9223372036854775808)%Z.

Section Data.
Context {F : Type}.
Variable f_zero : F.                    (* FloatingType{} *)
Variable f_print : F -> list N.         (* operator<< of a float, default format *)
Variable f_to_string : F -> list N.     (* std::to_string of a float *)

Notation json := (json F).
Notation members := (list (Str * json)).

(** JsonData.h 316-319 GetType *)
Definition j_type (v : json) : jclass :=
  match v with
  | JNull => CNull
  | JObj _ => CObject
  | JArr _ => CArray
  | JStr _ => CString
  | JFloat _ => CFloating
  | JInt _ => CIntegral
  | JBool _ => CBoolean
  end.

(** JsonData.h 568-593: the value placed in the union by SetType. *)
Definition j_initial (c : jclass) : json :=
  match c with
  | CNull => JNull
  | CObject => JObj []
  | CArray => JArr []
  | CString => JStr []
  | CFloating => JFloat f_zero
  | CIntegral => JInt 0
  | CBoolean => JBool false
  end.

(** type_ != type (JsonData.h 564) *)
Definition jclass_eqb (a b : jclass) : bool :=
  match a, b with
  | CNull, CNull | CObject, CObject | CArray, CArray | CString, CString
  | CFloating, CFloating | CIntegral, CIntegral | CBoolean, CBoolean => true
  | _, _ => false
  end.

(** JsonData.h 562-595 SetType *)
Definition set_type (v : json) (c : jclass) : json :=
  if jclass_eqb (j_type v) c then v else j_initial c.

(** JsonData.h 49-52 JsonData() *)
Definition j_default : json := JNull.
(** JsonData.h 64-69 *)
Definition j_of_bool (b : bool) : json := JBool b.
(** JsonData.h 71-78 *)
Definition j_of_int (z : Z) : json := JInt (to_int64 z).
(** JsonData.h 80-85 *)
Definition j_of_float (f : F) : json := JFloat f.
(** JsonData.h 87-92: from a std::string (or what converts to it) *)
Definition j_of_std (b : list N) : outcome json := s <- string_of_std b ;; Ok (JStr s).

(** JsonData.h 122-128 operator=(bool): SetType, then the member is assigned. *)
Definition assign_bool (v : json) (b : bool) : json :=
  match set_type v CBoolean with JBool _ => JBool b | v' => v' end.
(** JsonData.h 130-137 operator=(integral) *)
Definition assign_int (v : json) (z : Z) : json :=
  match set_type v CIntegral with JInt _ => JInt (to_int64 z) | v' => v' end.
(** JsonData.h 139-145 operator=(floating) *)
Definition assign_float (v : json) (f : F) : json :=
  match set_type v CFloating with JFloat _ => JFloat f | v' => v' end.
(** JsonData.h 147-153 operator=(string): the value after the call, and how the call ends; when the
    conversion throws, the type has already been changed. *)
Definition assign_std (v : json) (b : list N) : json * outcome unit :=
  let v' := set_type v CString in
  match string_of_std b with
  | Ok s => (JStr s, Ok tt)
  | Throw e => (v', Throw e)
  | UB => (v', UB)
  | NoFuel => (v', NoFuel)
  end.

(** std::find_if by key (JsonData.h 160-163, 197-200, 262-266): index of the first member with it *)
Fixpoint find_key (ms : members) (k : Str) : option nat :=
  match ms with
  | [] => None
  | (k', _) :: r => if s_eqb k' k then Some 0%nat else option_map S (find_key r k)
  end.

(** data_.object_value after SetType(Object) *)
Definition object_of (v : json) : members := match set_type v CObject with JObj ms => ms | _ => [] end.
(** data_.array_value after SetType(Array) *)
Definition array_of (v : json) : list json := match set_type v CArray with JArr l => l | _ => [] end.

(** JsonData.h 156-171 operator[](key), JsonData.h 189-192 At(key) (non-const): the value it is called on,
    afterwards, and the index of the member the reference denotes. *)
Definition index_key (v : json) (k : Str) : json * nat :=
  let ms := object_of v in
  match find_key ms k with
  | None => (JObj (ms ++ [(k, j_default)]), length ms)
  | Some i => (JObj ms, i)
  end.

(** Replace the [i]-th element *)
Fixpoint set_nth {A} (l : list A) (i : nat) (x : A) : list A :=
  match l, i with
  | [], _ => []
  | _ :: r, O => x :: r
  | y :: r, S j => y :: set_nth r j x
  end.

(** A use of the reference given by operator[](key): the member becomes [f] of its value. *)
Definition update_key (v : json) (k : Str) (f : json -> json) : json :=
  match index_key v k with
  | (JObj ms, i) =>
      match nth_error ms i with
      | Some (k', x) => JObj (set_nth ms i (k', f x))
      | None => JObj ms
      end
  | (v', _) => v'
  end.

(** v[k] = x, x not part of v (JsonData.h 100-120, 156-171). *)
Definition store_key (v : json) (k : Str) (x : json) : json := update_key v k (fun _ => x).

(** JsonData.h 173-186 operator[](index), 209-212 At(index) (non-const).  Beyond the end the array is
    filled with nullptr (line 179) and line 183 constructs an object at a null pointer. *)
Definition index_pos (v : json) (i : nat) : outcome (json * nat) :=
  let l := array_of v in
  if Nat.leb (length l) i then UB else Ok (JArr l, i).

(** A use of the reference given by operator[](index) *)
Definition update_pos (v : json) (i : nat) (f : json -> json) : outcome json :=
  '(v', i) <- index_pos v i ;;
  match v' with
  | JArr l => x <- vec_get l i ;; Ok (JArr (set_nth l i (f x)))
  | _ => UB
  end.

(** JsonData.h 194-207 At(key) const: reads object_value whatever the type is. *)
Definition at_key_const (v : json) (k : Str) : outcome json :=
  match v with
  | JObj ms =>
      match find_key ms k with
      | None => Throw EOutOfRange
      | Some i => p <- vec_get ms i ;; Ok (snd p)
      end
  | _ => UB
  end.
(** JsonData.h 214-217 At(index) const: reads array_value whatever the type is; deque::at. *)
Definition at_pos_const (v : json) (i : nat) : outcome json :=
  match v with
  | JArr l => if Nat.leb (length l) i then Throw EOutOfRange else vec_get l i
  | _ => UB
  end.

(** JsonData.h 220-228 Append(arg), the argument being passed by value *)
Definition append1 (v : json) (x : json) : json :=
  let v' := if jclass_eqb (j_type v) CArray then v else set_type v CArray in
  match v' with JArr l => JArr (l ++ [x]) | _ => v' end.
(** JsonData.h 230-235 Append(arg, args...) *)
Definition append (v : json) (xs : list json) : json := fold_left append1 xs v.

(** JsonData.h 238-254 Size, Length *)
Definition j_size (v : json) : N :=
  match v with
  | JArr l => N.of_nat (length l)
  | JObj ms => N.of_nat (length ms)
  | _ => size_max
  end.

(** JsonData.h 257-269 HasMember *)
Definition has_member (v : json) (k : Str) : bool :=
  match v with
  | JObj ms => match find_key ms k with Some _ => true | None => false end
  | _ => false
  end.

(** JsonData.h 271-304 IsNull ... IsBoolean *)
Definition is_class (v : json) (c : jclass) : bool := jclass_eqb (j_type v) c.

(** JsonData.h 307-314 GetData *)
Definition get_data (v : json) : outcome members :=
  match v with JObj ms => Ok ms | _ => Throw ELogicError end.
(** JsonData.h 321-324 GetString *)
Definition get_string (v : json) : Str := match v with JStr s => s | _ => [] end.
(** JsonData.h 326-329 GetFloating *)
Definition get_floating (v : json) : F := match v with JFloat f => f | _ => f_zero end.
(** JsonData.h 331-334 GetIntegral *)
Definition get_integral (v : json) : Z := match v with JInt z => z | _ => 0%Z end.
(** JsonData.h 336-339 GetBoolean *)
Definition get_boolean (v : json) : bool := match v with JBool b => b | _ => false end.

(** JsonData.h 349-354, 622-625 Make *)
Definition make (c : jclass) : json := set_type j_default c.
(** JsonData.h 627-630 *)
Definition make_object : json := make CObject.
(** JsonData.h 632-635, 637-643 *)
Definition make_array (xs : list json) : json := append (make CArray) xs.
(** JsonData.h 645-648 *)
Definition make_null : json := make CNull.
(** JsonData.h 650-653 *)
Definition make_string (b : list N) : outcome json := j_of_std b.
(** JsonData.h 655-658: a string *)
Definition make_floating (f : F) : outcome json := j_of_std (f_to_string f).
(** JsonData.h 660-663: a string *)
Definition make_integral (z : Z) : outcome json := j_of_std (dec_of_Z z).
(** JsonData.h 665-668: a string; std::to_string(bool) prints the promoted int *)
Definition make_boolean (b : bool) : outcome json := j_of_std (dec_of_Z (if b then 1 else 0)%Z).

(** String.h 545-556 ValueOf(bool), ValueOf(nullptr) *)
Definition true_bytes : list N := lit "true".
Definition false_bytes : list N := lit "false".
Definition null_bytes : list N := lit "null".

Definition spaces (n : nat) : list N := repeat 32 n.

(** JsonData.h 357-467 MakeOutput: the bytes written.  [pretty] is the argument called mangling. *)
Fixpoint make_output (pretty : bool) (base indent : nat) (v : json) : list N :=
  match v with
  | JObj ms =>
      [123] ++
      (match ms with
       | [] => []
       | _ =>
           (if pretty then [10] else []) ++
           (fix loop (first : bool) (ms : members) : list N :=
              match ms with
              | [] => []
              | (k, x) :: r =>
                  (if first then [] else [44] ++ (if pretty then [10] else [])) ++
                  (if pretty then spaces indent else []) ++
                  [34] ++ s_str k ++ [34] ++ [58] ++
                  (if pretty then [32] else []) ++
                  make_output pretty base (indent + base) x ++
                  loop false r
              end) true ms ++
           (if pretty then [10] else [])
       end) ++
      (if pretty then spaces (indent - base) else []) ++
      [125]
  | JArr l =>
      [91] ++
      (match l with
       | [] => []
       | _ =>
           (if pretty then [10] else []) ++
           (fix loop (first : bool) (l : list json) : list N :=
              match l with
              | [] => []
              | x :: r =>
                  (if first then [] else [44] ++ (if pretty then [10] else [])) ++
                  (if pretty then spaces indent else []) ++
                  make_output pretty base (indent + base) x ++
                  loop false r
              end) true l ++
           (if pretty then [10] else [])
       end) ++
      (if pretty then spaces (indent - base) else []) ++
      [93]
  | JStr s => [34] ++ s_str s ++ [34]
  | JFloat f => f_print f
  | JInt z => dec_of_Z z
  | JBool b => if b then true_bytes else false_bytes
  | JNull => null_bytes
  end.

(** JsonData.h 342-347 ToString *)
Definition to_string (pretty : bool) (indent : nat) (v : json) : outcome Str :=
  string_of_std (make_output pretty indent indent v).

(** ** Copy assignment between two nodes of one tree (JsonData.h 100-109, 469-505, 539-560)

    A node is given by the positions of the members or elements on the way to it. *)
Notation address := (list nat).

(** the [i]-th member or element *)
Definition child (v : json) (i : nat) : option json :=
  match v with
  | JObj ms => option_map snd (nth_error ms i)
  | JArr l => nth_error l i
  | _ => None
  end.
Definition set_child (v : json) (i : nat) (x : json) : json :=
  match v with
  | JObj ms => match nth_error ms i with Some (k, _) => JObj (set_nth ms i (k, x)) | None => v end
  | JArr l => JArr (set_nth l i x)
  | _ => v
  end.
(** the value at a node *)
Fixpoint get_at (v : json) (a : address) : option json :=
  match a with
  | [] => Some v
  | i :: r => match child v i with Some x => get_at x r | None => None end
  end.
(** the tree after the value of a node was changed *)
Fixpoint put_at (v : json) (a : address) (x : json) : json :=
  match a with
  | [] => x
  | i :: r => match child v i with Some y => set_child v i (put_at y r x) | None => v end
  end.

Fixpoint address_eqb (a b : address) : bool :=
  match a, b with
  | [], [] => true
  | i :: a', j :: b' => Nat.eqb i j && address_eqb a' b'
  | _, _ => false
  end.
Fixpoint prefix_of (a b : address) : bool :=
  match a, b with
  | [], _ => true
  | i :: a', j :: b' => Nat.eqb i j && prefix_of a' b'
  | _, [] => false
  end.

(** number of members or elements *)
Definition j_count (v : json) : nat :=
  match v with JObj ms => length ms | JArr l => length l | _ => O end.
(** JsonData.h 488-501: emplace_back of one item; [i] gives the key in the source *)
Definition push_copy (target source : json) (i : nat) (x : json) : json :=
  match target, source with
  | JObj ms, JObj src => match nth_error src i with Some (k, _) => JObj (ms ++ [(k, x)]) | None => target end
  | JArr l, _ => JArr (l ++ [x])
  | _, _ => target
  end.
(** JsonData.h 490-493, 497-500: the loop of CopyUnion over items i, i+1, ..., each copied from the tree as
    it is at that moment; [n] items are left. *)
Fixpoint copy_items (root : json) (t s : address) (i n : nat) : outcome json :=
  match n with
  | O => Ok root
  | S n' =>
      match get_at root t, get_at root s with
      | Some target, Some source =>
          match child source i with
          | Some x => copy_items (put_at root t (push_copy target source i x)) t s (S i) n'
          | None => UB
          end
      | _, _ => UB
      end
  end.
(** What the union holds when the copy loop starts: a copy of a simple value or an empty container. *)
Definition emptied (v : json) : json :=
  match v with JObj _ => JObj [] | JArr _ => JArr [] | _ => v end.

(** JsonData.h 100-109: node [t] = node [s].  When [s] lies below [t], DestroyUnion deletes it before
    other.type_ is read. *)
Definition copy_assign (root : json) (t s : address) : outcome json :=
  match get_at root t, get_at root s with
  | Some _, Some source =>
      if address_eqb t s then Ok root
      else if prefix_of t s then UB
      else copy_items (put_at root t (emptied source)) t s 0 (j_count source)
  | _, _ => UB
  end.

(** JsonData.h 59-62, 507-537 move construction: the new value and what is left behind *)
Definition j_move (v : json) : json * json := (v, JNull).

(** JsonData.h 111-120, 507-537: node [t] = std::move(node [s]).  When [s] lies below [t] it has been
    deleted before it is read.  When [t] lies below [s], [t] takes over the members it is itself
    one of, and [s] becomes null: nothing below [s] can be reached any more. *)
Definition move_assign (root : json) (t s : address) : outcome json :=
  match get_at root t, get_at root s with
  | Some _, Some source =>
      if address_eqb t s then Ok root
      else if prefix_of t s then UB
      else if prefix_of s t then Ok (put_at root s JNull)
      else Ok (put_at (put_at root t (fst (j_move source))) s (snd (j_move source)))
  | _, _ => UB
  end.

(** ** Json.h: JsonDocument *)

(** Json.h 184-186 *)
Record document := { root : json; error : jerror }.

(** Json.h 36, 185-186 *)
Definition doc_default : document := {| root := make_object; error := NoError |}.
(** Json.h 48-50, 73-81 copy *)
Definition doc_copy (d : document) : document := {| root := root d; error := error d |}.
(** Json.h 52-56, 83-93 move: the new document and what the old one becomes *)
Definition doc_move (d : document) : document * document :=
  (doc_copy d, {| root := make_null; error := NoError |}).

(** Json.h 129-132 AddMember *)
Definition doc_add (d : document) (k : Str) (x : json) : document :=
  {| root := store_key (root d) k x; error := error d |}.

(** std::remove_if and erase (Json.h 139-145) *)
Definition remove_key (ms : members) (k : Str) : members :=
  filter (fun p => negb (s_eqb (fst p) k)) ms.
(** Json.h 134-147 RemoveMember *)
Definition doc_remove (d : document) (k : Str) : outcome document :=
  if has_member (root d) k then
    ms <- get_data (root d) ;; Ok {| root := JObj (remove_key ms k); error := error d |}
  else Ok d.

(** Json.h 96-99 operator[](key) and a use of the reference *)
Definition doc_update (d : document) (k : Str) (f : json -> json) : document :=
  {| root := update_key (root d) k f; error := error d |}.
(** Json.h 101-104 operator[](key) const *)
Definition doc_at (d : document) (k : Str) : outcome json := at_key_const (root d) k.
(** Json.h 149-152 *)
Definition doc_has_member (d : document) (k : Str) : bool := has_member (root d) k.
(** Json.h 154-157 *)
Definition doc_size (d : document) : N := j_size (root d).
(** Json.h 159-162 *)
Definition doc_has_error (d : document) : bool := match error d with NoError => false | _ => true end.
(** Json.h 169-172 *)
Definition doc_error_string (d : document) : outcome Str := string_of_std (get_error_string (error d)).
(** Json.h 174-177 *)
Definition doc_type (d : document) : jclass := j_type (root d).
(** Json.h 179-182 *)
Definition doc_to_string (d : document) (pretty : bool) (indent : nat) : outcome Str :=
  to_string pretty indent (root d).

(** The operations on the members of a document. *)
Inductive doc_op :=
| OpAdd (k : Str) (x : json)            (* AddMember, or doc[k] = x with a whole value *)
| OpTouch (k : Str)                     (* doc[k] *)
| OpUpdate (k : Str) (f : json -> json) (* any change through the reference doc[k] *)
| OpRemove (k : Str).                   (* RemoveMember *)

Definition doc_step (d : document) (o : doc_op) : outcome document :=
  match o with
  | OpAdd k x => Ok (doc_add d k x)
  | OpTouch k => Ok (doc_update d k (fun v => v))
  | OpUpdate k f => Ok (doc_update d k f)
  | OpRemove k => doc_remove d k
  end.

Fixpoint doc_run (d : document) (os : list doc_op) : outcome document :=
  match os with
  | [] => Ok d
  | o :: r => d' <- doc_step d o ;; doc_run d' r
  end.

End Data.
