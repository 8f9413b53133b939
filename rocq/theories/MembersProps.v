(** Property C144: which values can be given to Format and to Write, WriteLine and Append. *)
From Coq Require Import List NArith Bool String Lia.
From Verif Require Import CxxTypes Traits Members.
Import ListNotations.
Local Open Scope string_scope.
Local Open Scope list_scope.

(** The rules of the language as relations.  [can o m]: m can be called on o without arguments; [prefer m n]: m is the better. *)
Definition can (o : object) (m : method) : Prop :=
  m_required m = 0 /\ (o_const o = true -> m_const m = true) /\ (o_volatile o = true -> m_volatile m = true) /\
  (m_ref m = LRef -> o_lvalue o = false -> m_const m = true /\ m_volatile m = false) /\ (m_ref m = RRef -> o_lvalue o = false).
Definition less_qualified (m n : method) : Prop :=
  (m_const m = true -> m_const n = true) /\ (m_volatile m = true -> m_volatile n = true) /\ (m_const m <> m_const n \/ m_volatile m <> m_volatile n).
Definition prefer (m n : method) : Prop :=
  (m_ref m = RRef /\ m_ref n <> RRef) \/ ((m_ref m = RRef <-> m_ref n = RRef) /\ less_qualified m n).
(** x.f() compiles: one overload is better than all others that can be called, and may be used *)
Definition compiles (o : object) (ms : list method) : Prop :=
  exists before m after, ms = before ++ m :: after /\ can o m /\ (forall n, In n (before ++ after) -> can o n -> prefer m n) /\
    m_public m = true /\ m_deleted m = false.
(** a variable, a constant *)
Definition variable := Object true false false.
Definition constant := Object true true false.

Lemma viable_can o m : viable o m = true <-> can o m.
Proof.
  unfold viable, can, implies. destruct (m_required m); cbn [Nat.eqb andb]; [|split; [discriminate|intros (? & _); discriminate]].
  destruct (o_const o), (m_const m), (o_volatile o), (m_volatile m), (o_lvalue o), (m_ref m); cbn; intuition congruence.
Qed.
Lemma better_prefer m n : better m n = true <-> prefer m n.
Proof.
  unfold better, prefer, less_qualified, fewer, rank_ref, implies.
  destruct (m_const m), (m_const n), (m_volatile m), (m_volatile n), (m_ref m), (m_ref n); cbn; intuition congruence.
Qed.
Lemma prefer_irrefl m n : prefer m n -> prefer n m -> False.
Proof.
  unfold prefer, less_qualified. destruct (m_ref m), (m_ref n), (m_const m), (m_const n), (m_volatile m), (m_volatile n); intuition congruence.
Qed.
Lemma best_of_spec l : forall before m, best_of before l = Some m <->
  exists a b, l = a ++ m :: b /\ forallb (better m) (before ++ a ++ b) = true /\
    (forall x y z, a = x ++ y :: z -> forallb (better y) (before ++ x ++ z ++ m :: b) = false).
Proof.
  induction l as [|x r IH]; intros before m; cbn [best_of].
  - split; [discriminate|]. intros ([|? ?] & b & H & _); discriminate.
  - destruct (forallb (better x) (before ++ r)) eqn:E.
    + split.
      * intros H. injection H as <-. exists [], r. cbn [app]. repeat split; [exact E|]. intros [|? ?] ? ? H; discriminate.
      * intros ([|y a] & b & H & B & N); cbn [app] in H; injection H as -> ->; [reflexivity|].
        specialize (N [] y a eq_refl). cbn [app] in N. rewrite N in E. discriminate.
    + rewrite IH. split.
      * intros (a & b & -> & B & N). exists (x :: a), b. repeat split.
        -- rewrite <- app_assoc in B. exact B.
        -- intros [|u v] y z H; cbn [app] in H; injection H as -> ->; [exact E|].
           specialize (N v y z eq_refl). rewrite <- app_assoc in N. exact N.
      * intros ([|y a] & b & H & B & N); cbn [app] in H; injection H as -> ->; [cbn [app] in B; congruence|].
        exists a, b. repeat split; [rewrite <- app_assoc; exact B|].
        intros u v w ->. specialize (N (y :: u) v w eq_refl). rewrite <- app_assoc. exact N.
Qed.
Lemma filter_split {A} (f : A -> bool) l : forall a m b, filter f l = a ++ m :: b ->
  exists u v, l = u ++ m :: v /\ filter f u = a /\ filter f v = b /\ f m = true.
Proof.
  induction l as [|x l IH]; intros a m b H; cbn [filter] in H; [destruct a; discriminate|].
  destruct (f x) eqn:F.
  - destruct a as [|y a]; cbn [app] in H; injection H as -> H.
    + exists [], l. repeat split; assumption.
    + destruct (IH _ _ _ H) as (u & v & -> & <- & <- & M). exists (y :: u), v. cbn [filter]. rewrite F. repeat split; assumption.
  - destruct (IH _ _ _ H) as (u & v & -> & <- & <- & M). exists (x :: u), v. cbn [filter app]. rewrite F. repeat split; assumption.
Qed.
Lemma calls_compiles o ms : calls o ms = true <-> compiles o ms.
Proof.
  unfold calls, chosen. split.
  - destruct (best_of [] (filter (viable o) ms)) as [m|] eqn:B; [|discriminate]. intros H. apply andb_prop in H as [P D].
    apply best_of_spec in B as (a & b & F & B & _). apply filter_split in F as (u & v & -> & <- & <- & M).
    exists u, m, v. split; [reflexivity|]. split; [now apply viable_can|]. split; [|split; [exact P|now destruct (m_deleted m)]].
    intros n I V. apply better_prefer. rewrite forallb_forall in B. apply B. cbn [app]. rewrite <- filter_app. apply filter_In. split; [exact I|now apply viable_can].
  - intros (u & m & v & -> & C & N & P & D).
    assert (B : best_of [] (filter (viable o) (u ++ m :: v)) = Some m).
    { apply best_of_spec. exists (filter (viable o) u), (filter (viable o) v). split.
      - rewrite filter_app. cbn [filter]. apply viable_can in C. rewrite C. reflexivity.
      - split.
        + cbn [app]. rewrite <- filter_app. apply forallb_forall. intros n I. apply filter_In in I as [I V]. apply better_prefer, N; [exact I|now apply viable_can].
        + intros x y z H. apply Bool.not_true_iff_false. intros F. rewrite forallb_forall in F.
          assert (Y : prefer y m) by (apply better_prefer, F; cbn [app]; rewrite !in_app_iff; right; right; left; reflexivity).
          assert (I : In y (filter (viable o) u)) by (rewrite H, in_app_iff; right; left; reflexivity). apply filter_In in I as [I V].
          apply (prefer_irrefl m y); [|exact Y]. apply N; [rewrite in_app_iff; now left|now apply viable_can]. }
    rewrite B, P, D. reflexivity.
Qed.

(** ** C144 *)
(** The four queries tell for T& whether a variable, for const T& whether a constant has the member. *)
Theorem C144_queries : forall c cst vol f,
  (HasToString (CType c cst vol LValueRef) = true <-> compiles (Object true cst vol) (overloads c "to_string")) /\
  (HasStr (CType c cst vol LValueRef) = true <-> compiles (Object true cst vol) (overloads c "str")) /\
  (HasCStr (CType c cst vol LValueRef) = true <-> compiles (Object true cst vol) (overloads c "c_str")) /\
  (ConvertibleToString (CType c cst vol LValueRef) = true <-> compiles (Object true cst vol) (overloads c "ToString")) /\
  (has_member (CType c cst vol RValueRef) f = true <-> compiles (Object false cst vol) (overloads c f)) /\
  (has_member (CType c cst vol Plain) f = true <-> compiles (Object false cst vol) (overloads c f)).
Proof. intros. repeat split; apply calls_compiles. Qed.
Print Assumptions C144_queries.
(** For T they tell it when no overload of that name has a reference qualifier ... *)
Theorem C144_variable_partial : forall c cst vol f, (forall m, In m (overloads c f) -> m_ref m = NoRef) ->
  has_member (CType c cst vol Plain) f = true <-> compiles (Object true cst vol) (overloads c f).
Proof.
  intros c cst vol f N. rewrite <- calls_compiles. unfold has_member, declval. cbn [ct_ref ct_const ct_volatile cls].
  assert (E : filter (viable (Object false cst vol)) (overloads c f) = filter (viable (Object true cst vol)) (overloads c f)).
  { apply filter_ext_in. intros m I. unfold viable. rewrite (N m I). reflexivity. }
  unfold calls, chosen. rewrite E. reflexivity.
Qed.
Print Assumptions C144_variable_partial.
(** ... but not otherwise: the query is asked of a temporary. *)
Theorem C144_variable_refuted : exists c, HasStr (CType c false false Plain) = false /\ compiles variable (overloads c "str").
Proof.
  exists (Class (fun _ => [Method false false LRef 0 true false]) false false). split; [reflexivity|]. now apply calls_compiles.
Qed.
Print Assumptions C144_variable_refuted.

(** Every arithmetic value can be formatted, except the two types of bytes. *)
Theorem C144_arithmetic_partial : forall b, (exists n, number_of b = Some n) -> b <> BSChar -> b <> BUChar ->
  take_number b = Chosen (if base_eqb b BBool then ByBoolean else ByNumber).
Proof. intros b (n & N) S U. destruct b; try discriminate N; try (exfalso; now apply S); try (exfalso; now apply U); reflexivity. Qed.
Print Assumptions C144_arithmetic_partial.
(** Int8 and Byte count as integers and as characters. *)
Theorem C144_bytes_refuted : take_number BSChar = Ambiguous /\ take_number BUChar = Ambiguous.
Proof. split; reflexivity. Qed.
Print Assumptions C144_bytes_refuted.

(** A class that is not String: what happens, exactly. *)
Definition names := ["to_string"; "str"; "ToString"].
Definition detected (c : class) (f : string) : Prop := compiles (Object false false false) (overloads c f).
Definition usable (c : class) (f : string) : Prop := compiles constant (overloads c f).
Theorem C144_class : forall c, is_String c = false ->
  (forall f, take_class c = Chosen (ByMember f) <-> In f names /\ detected c f /\ usable c f /\ (forall g, In g names -> detected c g -> g = f)) /\
  (take_class c = BodyFails <-> exists f, In f names /\ detected c f /\ ~ usable c f /\ (forall g, In g names -> detected c g -> g = f)) /\
  (take_class c = Ambiguous <-> exists f g, In f names /\ In g names /\ f <> g /\ detected c f /\ detected c g) /\
  (take_class c = Chosen ByString <-> to_String c = true /\ forall f, In f names -> ~ detected c f) /\
  (take_class c = NoneFits <-> to_String c = false /\ forall f, In f names -> ~ detected c f).
Proof.
  intros c S.
  assert (D : forall f, detected c f <-> has_member (CType c false false Plain) f = true) by (intros f; symmetry; apply calls_compiles).
  assert (U : forall f, usable c f <-> calls (Object true true false) (overloads c f) = true) by (intros f; symmetry; apply calls_compiles).
  assert (I : forall f, In f names <-> f = "to_string" \/ f = "str" \/ f = "ToString").
  { intros f. unfold names. cbn [In]. intuition congruence. }
  unfold take_class, pick, class_templates, HasToString, HasStr, ConvertibleToString. rewrite S.
  pose proof (D "to_string") as D1. pose proof (D "str") as D2. pose proof (D "ToString") as D3.
  pose proof (U "to_string") as U1. pose proof (U "str") as U2. pose proof (U "ToString") as U3.
  assert (A : forall P : string -> Prop, (forall f, In f names -> P f) <-> P "to_string" /\ P "str" /\ P "ToString").
  { intros P. split; [intros H; repeat split; apply H, I; tauto|]. intros (H1 & H2 & H3) f F. apply I in F. destruct F as [->|[->| ->]]; assumption. }
  assert (B : forall P : string -> Prop, (exists f, In f names /\ P f) <-> P "to_string" \/ P "str" \/ P "ToString").
  { intros P. split.
    - intros (f & F & H). apply I in F. destruct F as [->|[->| ->]]; tauto.
    - intros [H|[H|H]]; eexists; (split; [apply I|exact H]); tauto. }
  assert (G : forall f, (forall g, In g names -> detected c g -> g = f) <->
    (detected c "to_string" -> "to_string" = f) /\ (detected c "str" -> "str" = f) /\ (detected c "ToString" -> "ToString" = f)).
  { intros f. apply (A (fun g => detected c g -> g = f)). }
  assert (X : (exists f g, In f names /\ In g names /\ f <> g /\ detected c f /\ detected c g) <->
      (detected c "to_string" /\ detected c "str") \/ (detected c "to_string" /\ detected c "ToString") \/ (detected c "str" /\ detected c "ToString")).
  { split.
    - intros (f & g & F & F' & N & H & H'). apply I in F, F'. destruct F as [->|[->| ->]], F' as [->|[->| ->]]; tauto.
    - intros [[H H']|[[H H']|[H H']]]; [exists "to_string", "str"|exists "to_string", "ToString"|exists "str", "ToString"]; rewrite !I;
        (split; [|split; [|split; [|split; [exact H|exact H']]]]); first [discriminate|tauto]. }
  rewrite X, (B (fun f => detected c f /\ ~ usable c f /\ (forall g, In g names -> detected c g -> g = f))), !(A (fun f => ~ detected c f)), !G.
  assert (Y : forall f s, (s = Chosen (ByMember f) <-> In f names /\ detected c f /\ usable c f /\ (forall g, In g names -> detected c g -> g = f)) <->
    (s = Chosen (ByMember f) <-> (f = "to_string" \/ f = "str" \/ f = "ToString") /\ detected c f /\ usable c f /\
      (detected c "to_string" -> "to_string" = f) /\ (detected c "str" -> "str" = f) /\ (detected c "ToString" -> "ToString" = f))).
  { intros f s. rewrite G, I. reflexivity. }
  split.
  - intros f. apply Y. clear Y X G A B I.
    assert (E : (f = "to_string" \/ f = "str" \/ f = "ToString") \/ (f <> "to_string" /\ f <> "str" /\ f <> "ToString")).
    { destruct (string_dec f "to_string"), (string_dec f "str"), (string_dec f "ToString"); tauto. }
    destruct E as [E|(E1 & E2 & E3)].
    + destruct E as [->|[->| ->]]; rewrite !D1, !D2, !D3, ?U1, ?U2, ?U3; clear D U D1 D2 D3 U1 U2 U3;
      destruct (has_member _ "to_string"), (has_member _ "str"), (has_member _ "ToString"); cbn [app compile];
        try destruct (calls _ (overloads c "to_string")); try destruct (calls _ (overloads c "str")); try destruct (calls _ (overloads c "ToString"));
        try destruct (to_String c); intuition discriminate.
    + split; [|tauto]. intros H. exfalso. clear D U D1 D2 D3 U1 U2 U3.
      destruct (has_member _ "to_string"), (has_member _ "str"), (has_member _ "ToString"); cbn [app compile] in H;
        try destruct (calls _ (overloads c "to_string")); try destruct (calls _ (overloads c "str")); try destruct (calls _ (overloads c "ToString"));
        try destruct (to_String c); try discriminate H; injection H as H; congruence.
  - clear Y X G A B I. rewrite !D1, !D2, !D3, !U1, !U2, !U3. clear D U D1 D2 D3 U1 U2 U3.
    destruct (has_member _ "to_string"), (has_member _ "str"), (has_member _ "ToString"); cbn [app compile];
      try destruct (calls _ (overloads c "to_string")); try destruct (calls _ (overloads c "str")); try destruct (calls _ (overloads c "ToString"));
      try destruct (to_String c); (split; [|split; [|split]]); intuition discriminate.
Qed.
Print Assumptions C144_class.
Theorem C144_string : forall c, is_String c = true -> take_class c = Chosen ByString.
Proof. intros c S. unfold take_class, pick. now rewrite S. Qed.
Print Assumptions C144_string.
(** A class with exactly one of the members, usable on constants, is taken; a class with two of them is not, nor is one
    whose member is for variables only. *)
Theorem C144_members_refuted :
  (exists c, usable c "to_string" /\ usable c "str" /\ take_class c = Ambiguous) /\
  (exists c, compiles variable (overloads c "ToString") /\ (forall f, f <> "ToString" -> overloads c f = []) /\ take_class c = BodyFails).
Proof.
  split.
  - exists (with_members ["to_string"; "str"] false false). repeat split; now apply calls_compiles.
  - exists (Class (fun f => if String.eqb f "ToString" then [Method false false NoRef 0 true false] else []) false false). split; [now apply calls_compiles|].
    split; [|reflexivity]. intros f F. cbn [overloads]. apply String.eqb_neq in F. now rewrite F.
Qed.
Print Assumptions C144_members_refuted.
(** The classes of the library *)
Theorem C144_library : take_class class_Char = Chosen (ByMember "str") /\ take_class class_String = Chosen ByString /\
  take_class class_StringBuilder = Chosen (ByMember "str") /\ take_class class_BigInteger = Chosen (ByMember "ToString") /\
  take_class class_BigFloat = Chosen (ByMember "ToString") /\ take_class class_JsonData = Chosen (ByMember "ToString") /\
  take_class class_JsonDocument = Chosen (ByMember "ToString").
Proof. repeat split. Qed.
Print Assumptions C144_library.
Example C144_ex : let c := Class (fun f => if String.eqb f "str" then [Method false false NoRef 0 true false; Method true false NoRef 0 true false; Method true false NoRef 1 true false] else []) false false in
  HasStr (CType c false false Plain) = true /\ usable c "str" /\ take_class c = Chosen (ByMember "str") /\ is_String c = false /\
  HasStr (CType (Class (fun _ => [Method true false NoRef 0 true false; Method true false NoRef 0 true false]) false false) false false Plain) = false.
Proof. cbv zeta. repeat split. now apply calls_compiles. Qed.
