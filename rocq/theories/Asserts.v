(** Model of __Testing/Macro/Assert.h and __Testing/Types/TestFailMessage.h.
    An operand of a macro is an expression: its evaluation may change the state of the world [W] and
    yields a value or throws.  Simplifications: the texts printed for values are given by functions;
    a macro ends like a test function: it returns or throws ([behaviour], TestRegistry.v). *)
From Coq Require Import String List NArith ZArith Bool.
From Verif Require Import Outcome CharModel StrModel TestRegistry Dec JsonData.
Import ListNotations.
Local Open Scope list_scope.

Section Macros.
  Context {W : Type}.

  (** What an expression throws: a std::exception or something else *)
  Inductive thrown := ThrownStd (what : list N) | ThrownOther.
  Definition as_behaviour (x : thrown) : behaviour :=
    match x with ThrownStd what => ThrowsStd what | ThrownOther => ThrowsOther end.
  Inductive eval (A : Type) := Value (a : A) | Raises (x : thrown).
  Global Arguments Value {A} a.
  Global Arguments Raises {A} x.
  Definition expr (A : Type) : Type := W -> eval A * W.
  Definition constant {A} (a : A) : expr A := fun w => (Value a, w).
  Definition statement : Type := W -> behaviour * W.

  (** what() of std::runtime_error(text): the text and its terminator *)
  Definition runtime_error (t : list N) : behaviour := ThrowsStd (t ++ [0%N]).

  (** Both operands of an operator; C++ does not fix the order ([left_first]). *)
  Definition both {A B} (left_first : bool) (e1 : expr A) (e2 : expr B) : expr (A * B) := fun w =>
    if left_first then
      match e1 w with
      | (Raises x, w1) => (Raises x, w1)
      | (Value a, w1) => match e2 w1 with (Raises x, w2) => (Raises x, w2) | (Value b, w2) => (Value (a, b), w2) end
      end
    else
      match e2 w with
      | (Raises x, w1) => (Raises x, w1)
      | (Value b, w1) => match e1 w1 with (Raises x, w2) => (Raises x, w2) | (Value a, w2) => (Value (a, b), w2) end
      end.

  (** Lines 24-30: ASSERT_TRUE and ASSERT_FALSE; [src] is the source text of the condition. *)
  Definition assert_true (src : list N) (e : expr bool) : statement := fun w =>
    match e w with
    | (Raises x, w1) => (as_behaviour x, w1)
    | (Value c, w1) => if negb c then (runtime_error (lit "Assertion failed: " ++ src), w1) else (Returns, w1)
    end.
  Definition assert_false (src : list N) (e : expr bool) : statement := fun w =>
    match e w with
    | (Raises x, w1) => (as_behaviour x, w1)
    | (Value c, w1) => if c then (runtime_error (lit "Assertion failed: " ++ src), w1) else (Returns, w1)
    end.
  (** Lines 119, 121: PASS and FAIL *)
  Definition pass : statement := assert_true (lit "true") (constant true).
  Definition fail : statement := assert_true (lit "false") (constant false).

  (** Lines 32-91: the comparing assertions; 93-103 ASSERT_EQ_PRINTABLE expands to the same code as
      ASSERT_EQ. *)
  Inductive relation := REq | RNe | RLt | RLe | RGt | RGe.
  (** The operator, and what the message prints between the values. *)
  Definition rel_text (r : relation) : list N :=
    match r with
    | REq => lit " == " | RNe => lit " != " | RLt => lit " < " | RLe => lit " <= " | RGt => lit " > " | RGe => lit " >= "
    end.
  Definition opposite_text (r : relation) : list N :=
    match r with
    | REq => lit " != " | RNe => lit " == " | RLt => lit " >= " | RLe => lit " > " | RGt => lit " <= " | RGe => lit " < "
    end.

  (** [ops r] is the operator r of the operand types, [src1] and [src2] the source texts.  The operands
      are evaluated once for the condition and, if it does not hold, once more for the message. *)
  Definition assert_rel {A B} (ops : relation -> A -> B -> bool) (show1 : A -> list N) (show2 : B -> list N)
      (order1 order2 : bool) (r : relation) (src1 src2 : list N) (e1 : expr A) (e2 : expr B) : statement := fun w =>
    match both order1 e1 e2 w with
    | (Raises x, w1) => (as_behaviour x, w1)
    | (Value (a, b), w1) =>
        if negb (ops r a b) then
          match both order2 e1 e2 w1 with
          | (Raises x, w2) => (as_behaviour x, w2)
          | (Value (a', b'), w2) =>
              (runtime_error (lit "Assertion failed: " ++ src1 ++ rel_text r ++ src2 ++ lit " (" ++ show1 a' ++
                              opposite_text r ++ show2 b' ++ lit ")"), w2)
          end
        else (Returns, w1)
    end.

  (** Statements around a macro: an if statement with or without else. *)
  Definition if_statement (c : expr bool) (s : statement) (e : option statement) : statement := fun w =>
    match c w with
    | (Raises x, w1) => (as_behaviour x, w1)
    | (Value true, w1) => s w1
    | (Value false, w1) => match e with Some s' => s' w1 | None => (Returns, w1) end
    end.
  Definition negated (e : expr bool) : expr bool := fun w =>
    match e w with (Value c, w1) => (Value (negb c), w1) | (Raises x, w1) => (Raises x, w1) end.
  Definition throw_statement (b : behaviour) : statement := fun w => (b, w).
  (** "if (c) ASSERT_TRUE(e); else s" after expansion of lines 24-26: the else belongs to the
      nearest if, [stmt.if]/3. *)
  Definition if_assert_true_else (c : expr bool) (src : list N) (e : expr bool) (s : statement) : statement :=
    if_statement c (if_statement (negated e) (throw_statement (runtime_error (lit "Assertion failed: " ++ src))) (Some s)) None.
End Macros.

(** Lines 105-117 ASSERT_STREQ on two C strings (None: null pointer; otherwise the bytes before the
    NUL): passes, or prints this to std::cerr and aborts the process. *)
Inductive streq_result := StrPass | StrAbort (message : list N).
Definition assert_streq (expected actual : option (list N)) : streq_result :=
  match expected, actual with
  | None, None => StrPass
  | None, Some a => StrAbort (lit "Assertion failed: Expected nullptr, but got """ ++ a ++ lit """" ++ [10%N])
  | Some e, None => StrAbort (lit "Assertion failed: Expected """ ++ e ++ lit """, but got nullptr" ++ [10%N])
  | Some e, Some a =>
      if list_eq_dec N.eq_dec e a then StrPass
      else StrAbort (lit "Assertion failed: Expected """ ++ e ++ lit """, but got """ ++ a ++ lit """" ++ [10%N])
  end.

(** TestFailMessage.h 30-55: file_, line and the stream message (its bytes). *)
Record fail_message := FailMessage { fm_file : Str; fm_line : Z; fm_message : list N }.
(** TestFailMessage.h 43-48 Fail: always throws *)
Definition fm_fail (m : fail_message) : behaviour :=
  runtime_error (lit "FAILURE: Test failed at " ++ s_str (fm_file m) ++ lit ":" ++ dec_of_Z (fm_line m) ++ lit " - " ++ fm_message m).
(** TestFailMessage.h 35-41 operator<< of a value that prints as [b]: the object goes on only if Fail
    returns. *)
Definition fm_shift (m : fail_message) (b : list N) : fail_message + behaviour :=
  let m := FailMessage (fm_file m) (fm_line m) (fm_message m ++ b) in
  match fm_fail m with Returns => inl m | x => inr x end.
(** Assert.h 123: FAIL_MESSAGE() << p1 << p2 ... as a statement *)
Fixpoint fm_chain (m : fail_message) (ps : list (list N)) : behaviour :=
  match ps with
  | [] => Returns
  | p :: r => match fm_shift m p with inl m' => fm_chain m' r | inr x => x end
  end.
Definition fail_message_statement (file : Str) (line : Z) (ps : list (list N)) : behaviour :=
  fm_chain (FailMessage file line []) ps.
