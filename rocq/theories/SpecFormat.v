(** Specification of format templates, independent of the model.  Texts are lists of
    characters, a character is the list of its bytes. *)
From Coq Require Import List NArith Arith.
From Verif Require Import SpecUtf8 SpecStr.
Import ListNotations.
Local Open Scope N_scope.

Notation chars := (list (list N)).

Definition lbrace : list N := [0x7B].
Definition rbrace : list N := [0x7D].
Definition colon : list N := [0x3A].
Definition dot : list N := [0x2E].
Definition zero : list N := [0x30].

(** A text with every brace doubled. *)
Fixpoint double_braces (t : chars) : chars :=
  match t with
  | [] => []
  | c :: r =>
      if list_eq_dec N.eq_dec c lbrace then lbrace :: lbrace :: double_braces r
      else if list_eq_dec N.eq_dec c rbrace then rbrace :: rbrace :: double_braces r
      else c :: double_braces r
  end.

(** Numerals: a list of digits 0..9, most significant first. *)
Definition numeral (ds : list N) : Prop := ds <> [] /\ Forall (fun d => d <= 9) ds.
Definition numeral_text (ds : list N) : chars := map (fun d => [0x30 + d]) ds.
Definition numeral_value (ds : list N) : N := fold_left (fun a d => a * 10 + d) ds 0.

(** A formatting specification (what follows the colon). *)
Inductive salign := SLeft | SRight | SCenter.
Inductive stype := TS | TD | TF.
Definition align_text (a : salign) : list N :=
  match a with SLeft => [0x3C] | SRight => [0x3E] | SCenter => [0x5E] end.
Definition type_text (t : stype) : list N :=
  match t with TS => [0x73] | TD => [0x64] | TF => [0x66] end.
Record sspec := {
  s_align : option (option (list N) * salign);   (* alignment, with or without fill character *)
  s_width : option (list N);                     (* a numeral *)
  s_prec : option (list N);                      (* a numeral *)
  s_type : option stype }.
Definition opt {A} (f : A -> chars) (o : option A) : chars := match o with Some a => f a | None => [] end.
Definition sspec_text (s : sspec) : chars :=
  opt (fun '(fill, a) => opt (fun f => [f]) fill ++ [align_text a]) (s_align s) ++
  opt numeral_text (s_width s) ++
  opt (fun p => dot :: numeral_text p) (s_prec s) ++
  opt (fun t => [type_text t]) (s_type s).
(** Well-formed: the fill is a character other than a closing brace, numerals are numerals that
    fit the library's integer types, and the specification is not empty. *)
Definition sspec_ok (s : sspec) : Prop :=
  (forall f a, s_align s = Some (Some f, a) -> text_char f /\ f <> rbrace) /\
  (forall w, s_width s = Some w -> numeral w /\ numeral_value w <= 18446744073709551615) /\
  (forall p, s_prec s = Some p -> numeral p /\ numeral_value p <= 2147483647) /\
  sspec_text s <> [].

(** Padding to a width. *)
Definition pad (a : salign) (w : nat) (fill : list N) (v : chars) : chars :=
  let n := (w - length v)%nat in
  match a with
  | SLeft => v ++ repeat fill n
  | SRight => repeat fill n ++ v
  | SCenter => repeat fill (n / 2) ++ v ++ repeat fill (n - n / 2)
  end.

(** Cutting or extending the decimals of a number text to exactly [p]. *)
Inductive with_decimals (p : nat) : chars -> chars -> Prop :=
| wd_dot ip ds : ~ In dot ip -> Forall (fun d => d <= 9) ds ->
    with_decimals p (ip ++ dot :: numeral_text ds)
                    (ip ++ dot :: firstn p (numeral_text ds) ++ repeat zero (p - length ds))
| wd_whole v : ~ In dot v -> with_decimals p v (v ++ dot :: repeat zero p).

(** What a specification makes of a value.  For type f only the case of a precision of at least 1
    is described here. *)
Definition sp_fill (s : sspec) : list N :=
  match s_align s with Some (Some f, _) => f | _ => [0x20] end.
Definition sp_align (s : sspec) : salign :=
  match s_align s with Some (_, a) => a | None => SLeft end.
Definition sp_width (s : sspec) : nat :=
  match s_width s with Some w => N.to_nat (numeral_value w) | None => 0 end.
Definition formatted (s : sspec) (v r : chars) : Prop :=
  match s_type s with
  | Some TF => exists p u, s_prec s = Some p /\ 1 <= numeral_value p /\
                 with_decimals (N.to_nat (numeral_value p)) v u /\
                 r = pad (sp_align s) (sp_width s) (sp_fill s) u
  | _ => r = pad (sp_align s) (sp_width s) (sp_fill s) v
  end.

(** Templates. *)
Inductive item :=
| Lit (t : chars)          (* literal text *)
| Auto                     (* {} *)
| Pos (ds : list N)        (* {12} *)
| Spec (s : sspec)         (* {:>5} *)
| PosSpec (ds : list N) (s : sspec).  (* {12:>5} *)
Definition item_text (i : item) : chars :=
  match i with
  | Lit t => double_braces t
  | Auto => [lbrace; rbrace]
  | Pos ds => lbrace :: numeral_text ds ++ [rbrace]
  | Spec s => lbrace :: colon :: sspec_text s ++ [rbrace]
  | PosSpec ds s => lbrace :: numeral_text ds ++ colon :: sspec_text s ++ [rbrace]
  end.
Definition template (is : list item) : chars := concat (map item_text is).

(** Simple templates (no specifications): what they expand to.  [k] counts the automatic
    placeholders so far. *)
Inductive expands (args : list chars) : nat -> list item -> chars -> Prop :=
| ex_nil k : expands args k [] []
| ex_lit k t is r : text t -> expands args k is r -> expands args k (Lit t :: is) (t ++ r)
| ex_auto k a is r : nth_error args k = Some a -> expands args (S k) is r ->
    expands args k (Auto :: is) (a ++ r)
| ex_pos k ds a is r : numeral ds -> nth_error args (N.to_nat (numeral_value ds)) = Some a ->
    expands args k is r -> expands args k (Pos ds :: is) (a ++ r).

(** What Format actually expands templates to when specifications are involved.
    With a single argument every placeholder stands for it. *)
Inductive expands_one (a : chars) : list item -> chars -> Prop :=
| one_nil : expands_one a [] []
| one_lit t is r : text t -> expands_one a is r -> expands_one a (Lit t :: is) (t ++ r)
| one_auto is r : expands_one a is r -> expands_one a (Auto :: is) (a ++ r)
| one_pos ds is r : numeral ds -> numeral_value ds = 0 -> expands_one a is r ->
    expands_one a (Pos ds :: is) (a ++ r)
| one_spec s u is r : sspec_ok s -> formatted s a u -> expands_one a is r ->
    expands_one a (Spec s :: is) (u ++ r)
| one_pos_spec ds s u is r : numeral ds -> numeral_value ds = 0 -> sspec_ok s -> formatted s a u ->
    expands_one a is r -> expands_one a (PosSpec ds s :: is) (u ++ r).

(** With two arguments or more: {:spec} always formats argument 0, and {i:spec} formats the argument
    that the next {} would take (i only has to be in range). *)
Inductive expands_many (args : list chars) : nat -> list item -> chars -> Prop :=
| many_nil k : expands_many args k [] []
| many_lit k t is r : text t -> expands_many args k is r -> expands_many args k (Lit t :: is) (t ++ r)
| many_auto k a is r : nth_error args k = Some a -> expands_many args (S k) is r ->
    expands_many args k (Auto :: is) (a ++ r)
| many_pos k ds a is r : numeral ds -> nth_error args (N.to_nat (numeral_value ds)) = Some a ->
    expands_many args k is r -> expands_many args k (Pos ds :: is) (a ++ r)
| many_spec k s a u is r : sspec_ok s -> nth_error args 0 = Some a -> formatted s a u ->
    expands_many args k is r -> expands_many args k (Spec s :: is) (u ++ r)
| many_pos_spec k ds s a u is r : numeral ds -> (N.to_nat (numeral_value ds) < length args)%nat ->
    sspec_ok s -> nth_error args k = Some a -> formatted s a u ->
    expands_many args k is r -> expands_many args k (PosSpec ds s :: is) (u ++ r).

(** Balanced templates: text, doubled braces, and fields { ... } without a closing brace inside. *)
Inductive balanced : chars -> Prop :=
| bal_nil : balanced []
| bal_char c r : c <> lbrace -> c <> rbrace -> balanced r -> balanced (c :: r)
| bal_open r : balanced r -> balanced (lbrace :: lbrace :: r)
| bal_close r : balanced r -> balanced (rbrace :: rbrace :: r)
| bal_field f r : (forall f', f <> lbrace :: f') -> ~ In rbrace f -> balanced r ->
    balanced (lbrace :: f ++ rbrace :: r).
