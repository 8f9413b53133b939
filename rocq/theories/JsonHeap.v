(** Model of how JsonData owns memory: __Serializing/Json/Types/JsonData.h and Json.h 134-147 once more, this time with
    every JsonData object at an address of its own and elements held by pointers.
    The value model JsonData.v is what this model refines (JsonHeapProofs.v).
    Simplifications: the pairs of an object (ObjectType) are two lists of equal length, the keys in the head and
    the pointers; deque and vector release their own storage; the automatic variables in scope are the
    elements of a frame, the object at address 0, which is not a JsonData; a reference used by the program is given by the
    positions on the way to the object it denotes, [x :: a] starting at the x-th variable in scope, and
    a reference to no object is dangling (undefined).  The conversion of text to String is left to the caller. *)
From Coq Require Import List Arith NArith ZArith Bool.
From Verif Require Import Outcome CharModel StrModel JsonData.
Import ListNotations.

Section Heap.
Context {F : Type}.
Variable f_zero : F.
Notation json := (json F).

(** type_ and the active member of data_, without the pointers *)
Inductive head :=
| HNull
| HObj (ks : list Str)
| HArr
| HStr (s : Str)
| HFloat (f : F)
| HInt (z : Z)
| HBool (b : bool).
Definition cell : Type := (head * list nat)%type.

(** [mem]: the objects that exist; [next]: addresses below were handed out; [deleted]: addresses destroyed
    so far; [lost]: strings in a union that was left or destroyed without the destructor of the string. *)
Record hstate := HState { mem : nat -> option cell; next : nat; deleted : list nat; lost : list Str }.

Definition upd (m : nat -> option cell) (n : nat) (c : option cell) : nat -> option cell :=
  fun i => if Nat.eqb i n then c else m i.
(** Reading an object; undefined after its destruction. *)
Definition hget (s : hstate) (n : nat) : outcome cell := match mem s n with Some c => Ok c | None => UB end.
Definition hset (s : hstate) (n : nat) (c : cell) : outcome hstate :=
  match mem s n with Some _ => Ok (HState (upd (mem s) n (Some c)) (next s) (deleted s) (lost s)) | None => UB end.
(** A new object *)
Definition halloc (s : hstate) (c : cell) : hstate :=
  HState (upd (mem s) (next s) (Some c)) (S (next s)) (deleted s) (lost s).
Definition hfree (s : hstate) (n : nat) : outcome hstate :=
  match mem s n with Some _ => Ok (HState (upd (mem s) n None) (next s) (deleted s ++ [n]) (lost s)) | None => UB end.

Fixpoint hfold {A} (f : hstate -> A -> outcome hstate) (s : hstate) (l : list A) : outcome hstate :=
  match l with [] => Ok s | x :: r => s1 <- f s x ;; hfold f s1 r end.

(** JsonData.h 539-560: no case for String, the string is not destroyed. *)
Definition note (h : head) (s : hstate) : hstate :=
  match h with HStr x => HState (mem s) (next s) (deleted s) (lost s ++ [x]) | _ => s end.

(** [delete item] (JsonData.h 546, 553): the destructor (94-97, 539-560), then the memory. *)
Fixpoint hdelete (fuel : nat) (s : hstate) (n : nat) : outcome hstate :=
  match fuel with
  | O => NoFuel
  | S f => '(h, ks) <- hget s n ;; s1 <- hfold (hdelete f) (note h s) ks ;; hfree s1 n
  end.
(** JsonData.h 539-560 DestroyUnion *)
Definition destroy_union (s : hstate) (n : nat) : outcome hstate :=
  '(h, ks) <- hget s n ;; hfold (hdelete (next s)) (note h s) ks.

(** The union as CopyUnion sets it up before the loops (JsonData.h 473-489, 496) *)
Definition hempty (h : head) : head := match h with HObj _ => HObj [] | _ => h end.
(** The items the loops of CopyUnion visit, with their keys (JsonData.h 490, 497) *)
Definition items (h : head) (ks : list nat) : list (option Str * nat) :=
  match h with HObj names => combine (map Some names) ks | _ => map (fun k => (None, k)) ks end.
(** emplace_back (JsonData.h 167, 227, 492, 499) *)
Definition hpush (s : hstate) (n : nat) (key : option Str) (c : nat) : outcome hstate :=
  '(h, ks) <- hget s n ;;
  hset s n (match h, key with HObj names, Some k => HObj (names ++ [k]) | _, _ => h end, ks ++ [c]).

(** [new JsonData{*item}] (JsonData.h 54-57, 469-505): the new object's address is [next] of the state before. *)
Fixpoint hcopy (fuel : nat) (s : hstate) (src : nat) : outcome hstate :=
  match fuel with
  | O => NoFuel
  | S f =>
      '(h, ks) <- hget s src ;;
      hfold (fun s1 p => s2 <- hcopy f s1 (snd p) ;; hpush s2 (next s) (fst p) (next s1))
            (halloc s (hempty h, [])) (items h ks)
  end.
(** JsonData.h 469-505 CopyUnion on an existing object *)
Definition copy_union (s : hstate) (n src : nat) : outcome hstate :=
  '(h, ks) <- hget s src ;;
  s0 <- hset s n (hempty h, []) ;;
  hfold (fun s1 p => s2 <- hcopy (next s1) s1 (snd p) ;; hpush s2 n (fst p) (next s1)) s0 (items h ks).
(** JsonData.h 100-109 *)
Definition copy_assign_at (s : hstate) (n src : nat) : outcome hstate :=
  if Nat.eqb n src then Ok s else s1 <- destroy_union s n ;; copy_union s1 n src.
(** JsonData.h 507-537 MoveUnion; a moved-from container or string holds nothing *)
Definition move_union (s : hstate) (n src : nat) : outcome hstate :=
  c <- hget s src ;; s1 <- hset s n c ;; hset s1 src (HNull, []).
(** JsonData.h 111-120 *)
Definition move_assign_at (s : hstate) (n src : nat) : outcome hstate :=
  if Nat.eqb n src then Ok s else s1 <- destroy_union s n ;; move_union s1 n src.

Definition head_class (h : head) : jclass :=
  match h with
  | HNull => CNull | HObj _ => CObject | HArr => CArray | HStr _ => CString
  | HFloat _ => CFloating | HInt _ => CIntegral | HBool _ => CBoolean
  end.
Definition initial_head (c : jclass) : head :=
  match c with
  | CNull => HNull | CObject => HObj [] | CArray => HArr | CString => HStr []
  | CFloating => HFloat f_zero | CIntegral => HInt 0 | CBoolean => HBool false
  end.
(** JsonData.h 562-595 *)
Definition set_type_at (s : hstate) (n : nat) (c : jclass) : outcome hstate :=
  '(h, _) <- hget s n ;;
  if jclass_eqb (head_class h) c then Ok s
  else s1 <- destroy_union s n ;; hset s1 n (initial_head c, []).

(** The values of the constructors and assignments from C++ values (JsonData.h 64-92, 122-153) *)
Inductive scalar := SBool (b : bool) | SInt (z : Z) | SFloat (f : F) | SStr (s : Str).
Definition scalar_head (v : scalar) : head :=
  match v with SBool b => HBool b | SInt z => HInt (to_int64 z) | SFloat f => HFloat f | SStr s => HStr s end.
(** JsonData.h 122-153 *)
Definition assign_at (s : hstate) (n : nat) (v : scalar) : outcome hstate :=
  s1 <- set_type_at s n (head_class (scalar_head v)) ;; hset s1 n (scalar_head v, []).

(** JsonData.h 156-171: find_if; nothing, or a new member *)
Definition index_key_at (s : hstate) (n : nat) (k : Str) : outcome hstate :=
  s1 <- set_type_at s n CObject ;;
  '(h, _) <- hget s1 n ;;
  match h with
  | HObj names =>
      if existsb (fun k' => s_eqb k' k) names then Ok s1
      else hpush (halloc s1 (HNull, [])) n (Some k) (next s1)
  | _ => UB
  end.
(** JsonData.h 173-186; beyond the end line 183 constructs at a null pointer *)
Definition index_pos_at (s : hstate) (n : nat) (i : nat) : outcome hstate :=
  s1 <- set_type_at s n CArray ;; '(_, ks) <- hget s1 n ;; if Nat.leb (length ks) i then UB else Ok s1.
(** JsonData.h 220-228 with a C++ value *)
Definition append_at (s : hstate) (n : nat) (v : scalar) : outcome hstate :=
  s1 <- set_type_at s n CArray ;; hpush (halloc s1 (scalar_head v, [])) n None (next s1).
(** JsonData.h 220-228 with a JsonData: the parameter is a copy of the argument, the element a copy of the
    parameter; the parameter is destroyed at the end. *)
Definition append_copy_at (s : hstate) (n src : nat) : outcome hstate :=
  s1 <- hcopy (next s) s src ;;
  s2 <- set_type_at s1 n CArray ;;
  s3 <- hcopy (next s2) s2 (next s) ;;
  s4 <- hpush s3 n None (next s2) ;;
  hdelete (next s4) s4 (next s).

(** std::remove_if by key over both lists (Json.h 139-145): what stays *)
Definition remaining (names : list Str) (ks : list nat) (k : Str) : list (Str * nat) :=
  filter (fun p => negb (s_eqb (fst p) k)) (combine names ks).
(** Json.h 134-147 RemoveMember: the pointers are erased, nothing is deleted. *)
Definition remove_at (s : hstate) (n : nat) (k : Str) : outcome hstate :=
  '(h, ks) <- hget s n ;;
  match h with
  | HObj names =>
      if existsb (fun k' => s_eqb k' k) names
      then hset s n (HObj (map fst (remaining names ks k)), map snd (remaining names ks k))
      else Ok s
  | _ => Ok s
  end.

(** ** Programs *)
Notation address := (list nat).
Inductive hop :=
| ONew (v : option scalar)           (* JsonData x;  JsonData x{v}; *)
| OMake (c : jclass)                 (* JsonData x = Make(c); *)
| OCopyNew (a : address)             (* JsonData x{*a}; *)
| OMoveNew (a : address)             (* JsonData x{std::move( *a)}; *)
| OEnd (x : nat)                     (* the x-th variable leaves its scope *)
| OAssign (t : address) (v : scalar) (* *t = v; *)
| OKey (t : address) (k : Str)       (* ( *t)[k] *)
| OPos (t : address) (i : nat)       (* ( *t)[i] *)
| OAppend (t : address) (v : scalar)
| OAppendCopy (t a : address)
| OCopy (t a : address)              (* *t = *a; *)
| OMove (t a : address)              (* *t = std::move( *a); *)
| ORemove (t : address) (k : Str).

Fixpoint resolve (m : nat -> option cell) (n : nat) (a : address) : option nat :=
  match a with
  | [] => Some n
  | i :: r =>
      match m n with
      | Some (_, ks) => match nth_error ks i with Some c => resolve m c r | None => None end
      | None => None
      end
  end.
(** The object a reference denotes *)
Definition hat (s : hstate) (a : address) : outcome nat :=
  match a with [] => UB | _ => match resolve (mem s) 0 a with Some n => Ok n | None => UB end end.

Fixpoint drop_nth {A} (i : nat) (l : list A) : list A :=
  match l, i with [], _ => [] | _ :: r, O => r | x :: r, S j => x :: drop_nth j r end.

Definition hstep (s : hstate) (o : hop) : outcome hstate :=
  match o with
  | ONew v => hpush (halloc s (match v with None => HNull | Some v => scalar_head v end, [])) 0 None (next s)
  | OMake c => s1 <- set_type_at (halloc s (HNull, [])) (next s) c ;; hpush s1 0 None (next s)
  | OCopyNew a => n <- hat s a ;; s1 <- hcopy (next s) s n ;; hpush s1 0 None (next s)
  | OMoveNew a => n <- hat s a ;; s1 <- move_union (halloc s (HNull, [])) (next s) n ;; hpush s1 0 None (next s)
  | OEnd x =>
      '(h, ks) <- hget s 0 ;;
      match nth_error ks x with
      | None => UB
      | Some n => s1 <- hset s 0 (h, drop_nth x ks) ;; hdelete (next s) s1 n
      end
  | OAssign t v => n <- hat s t ;; assign_at s n v
  | OKey t k => n <- hat s t ;; index_key_at s n k
  | OPos t i => n <- hat s t ;; index_pos_at s n i
  | OAppend t v => n <- hat s t ;; append_at s n v
  | OAppendCopy t a => n <- hat s t ;; m <- hat s a ;; append_copy_at s n m
  | OCopy t a => n <- hat s t ;; m <- hat s a ;; copy_assign_at s n m
  | OMove t a => n <- hat s t ;; m <- hat s a ;; move_assign_at s n m
  | ORemove t k => n <- hat s t ;; remove_at s n k
  end.
Fixpoint hrun (s : hstate) (os : list hop) : outcome hstate :=
  match os with [] => Ok s | o :: r => s1 <- hstep s o ;; hrun s1 r end.
(** No variable in scope *)
Definition hstart : hstate := HState (upd (fun _ => None) 0 (Some (HArr, []))) 1 [] [].

(** ** The same programs on values, with the functions of JsonData.v; the variables in scope are the elements of an array *)
Definition scalar_value (v : scalar) : json :=
  match v with SBool b => j_of_bool b | SInt z => j_of_int z | SFloat f => j_of_float f | SStr s => JStr s end.
Definition assign_value (v : json) (x : scalar) : json :=
  match x with
  | SBool b => assign_bool f_zero v b
  | SInt z => assign_int f_zero v z
  | SFloat f => assign_float f_zero v f
  | SStr s => JStr s                  (* JsonData.h 147-153, text already converted *)
  end.
Definition vat (w : json) (a : address) : outcome json :=
  match a with [] => UB | _ => match get_at w a with Some v => Ok v | None => UB end end.
Definition vpush (w v : json) : outcome json := match w with JArr l => Ok (JArr (l ++ [v])) | _ => UB end.
Definition remove_value (v : json) (k : Str) : json :=
  match v with JObj ms => if has_member v k then JObj (remove_key ms k) else v | _ => v end.

Definition vstep (w : json) (o : hop) : outcome json :=
  match o with
  | ONew v => vpush w (match v with None => j_default | Some v => scalar_value v end)
  | OMake c => vpush w (make f_zero c)
  | OCopyNew a => v <- vat w a ;; vpush w v
  | OMoveNew a => v <- vat w a ;; vpush (put_at w a (snd (j_move v))) (fst (j_move v))
  | OEnd x => match w with JArr l => if Nat.ltb x (length l) then Ok (JArr (drop_nth x l)) else UB | _ => UB end
  | OAssign t x => v <- vat w t ;; Ok (put_at w t (assign_value v x))
  | OKey t k => v <- vat w t ;; Ok (put_at w t (fst (index_key f_zero v k)))
  | OPos t i => v <- vat w t ;; p <- index_pos f_zero v i ;; Ok (put_at w t (fst p))
  | OAppend t x => v <- vat w t ;; Ok (put_at w t (append1 f_zero v (scalar_value x)))
  | OAppendCopy t a => v <- vat w t ;; x <- vat w a ;; Ok (put_at w t (append1 f_zero v x))
  | OCopy t a => _ <- vat w t ;; _ <- vat w a ;; copy_assign w t a
  | OMove t a => _ <- vat w t ;; _ <- vat w a ;; move_assign w t a
  | ORemove t k => v <- vat w t ;; Ok (put_at w t (remove_value v k))
  end.
Fixpoint vrun (w : json) (os : list hop) : outcome json :=
  match os with [] => Ok w | o :: r => w1 <- vstep w o ;; vrun w1 r end.

End Heap.
Arguments head F : clear implicits.
Arguments cell F : clear implicits.
Arguments hstate F : clear implicits.
Arguments scalar F : clear implicits.
Arguments hop F : clear implicits.
