(** C147: an operator of the library can be used wherever its operands can - true of the members, not of the others. *)
From Coq Require Import String List Bool.
From Verif Require Import Lookup SpecLookup LookupProofs.
Import ListNotations.
Local Open Scope list_scope.

Definition plus_of_points : decl :=
  op "+" (Types (Class ["Geo"%string] "Point" []) (Class ["Geo"%string] "Point" [])) (Space ["Geo"%string]).

(** Every operator of the library is a member or a global function. *)
Lemma library_places d : In d library -> d_place d = Member \/ d_place d = Space [].
Proof.
  assert (H : forallb (fun d => match d_place d with Member => true | Space [] => true | _ => false end) library = true) by (vm_compute; reflexivity).
  intros Hi. rewrite forallb_forall in H. specialize (H d Hi). destruct (d_place d) as [|[|? ?]]; auto; discriminate.
Qed.

(** Exactly when an operator of the library can be used for operands it takes, anywhere in any program: always if it is a
    member; if it is a function, when it is declared before and no namespace around the site has an operator of the same name,
    or when an operand has to do with the global namespace. *)
Theorem C147_exactly :
  forall s o l r d, In d library -> In d (s_all s) -> d_op d = o -> takes (d_takes d) l r = true ->
  (In d (usable s o l r) <->
   d_place d = Member \/ In d (s_before s) /\ ~ hidden s o \/ ~ from_namespaces l r).
Proof.
  intros s o l r d Hl Ha Ho Ht. destruct (library_places d Hl) as [Hp|Hp].
  - split; [auto|]. intros _. apply usable_iff. auto.
  - rewrite (global_iff s o l r d Ho Hp Ht). unfold from_namespaces. split.
    + intros [H|[_ H]]; [auto|]. right. right. tauto.
    + intros [H|[H|H]]; [congruence|auto|]. right. split; trivial.
      destruct (in_dec (list_eq_dec string_dec) [] (associated l)) as [|N]; [auto|].
      destruct (in_dec (list_eq_dec string_dec) [] (associated r)) as [|N']; [auto|]. exfalso. auto.
Qed.
Print Assumptions C147_exactly.

(** So for an expression that only this operator fits *)
Lemma works_iff s o l r d :
  In d library -> In d (s_all s) -> d_op d = o -> takes (d_takes d) l r = true -> from_namespaces l r ->
  (forall d', In d' (s_before s ++ s_all s) -> d_op d' = o -> takes (d_takes d') l r = true -> d' = d) ->
  (works s o l r <-> d_place d = Member \/ In d (s_before s) /\ ~ hidden s o).
Proof.
  intros Hl Ha Ho Ht Hf Hu. assert (E := C147_exactly s o l r d Hl Ha Ho Ht). split.
  - intros [d' H]. assert (d' = d).
    { assert (H' := H). apply usable_iff in H' as (Ht' & H'). apply Hu; trivial.
      - apply in_or_app. destruct H' as [H'|[H'|H']].
        + right. apply H'.
        + left. apply unqualified_iff in H' as (? & _ & _ & H' & _). exact H'.
        + right. apply by_operands_iff in H' as (H' & _). exact H'.
      - destruct H' as [H'|[H'|H']]; [apply H'|apply unqualified_iff in H' as (? & H' & _); exact H'|apply by_operands_iff in H' as (_ & H' & _); exact H']. }
    subst d'. apply E in H. tauto.
  - intros H. exists d. apply E. tauto.
Qed.

(** In a template of the standard library, whose headers know nothing of these types, exactly the members work: a String can
    be the key of a std::map, a BigInteger cannot. *)
Theorem C147_in_std :
  forall before more o l r d,
  In d library -> d_op d = o -> takes (d_takes d) l r = true -> from_namespaces l r ->
  (forall d', In d' before -> takes (d_takes d') l r = false) ->
  (forall d', In d' (library ++ more) -> d_op d' = o -> takes (d_takes d') l r = true -> d' = d) ->
  (works (in_std before (before ++ library ++ more)) o l r <-> d_place d = Member).
Proof.
  intros before more o l r d Hl Ho Ht Hf Hb Hu.
  rewrite (works_iff (in_std before (before ++ library ++ more)) o l r d Hl); trivial; cbn [in_std s_all s_before].
  - split; [|auto]. intros [H|[H _]]; [exact H|]. rewrite (Hb d H) in Ht. discriminate.
  - apply in_or_app. right. apply in_or_app. auto.
  - intros d' Hi Ho' Ht'. assert (Hi' : In d' before \/ In d' (library ++ more)).
    { apply in_app_or in Hi as [Hi|Hi]; [auto|]. apply in_app_or in Hi. exact Hi. }
    destruct Hi' as [H|H]; [rewrite (Hb d' H) in Ht'; discriminate|auto].
Qed.
Print Assumptions C147_in_std.

(** In code that is no template, with any declarations of its own for other types: the functions work unless a namespace around
    the code has an operator of the same name. *)
Theorem C147_in_code :
  forall sp own o l r d,
  In d library -> d_op d = o -> takes (d_takes d) l r = true -> from_namespaces l r ->
  (forall d', In d' (library ++ own) -> d_op d' = o -> takes (d_takes d') l r = true -> d' = d) ->
  (works (plain sp (library ++ own)) o l r <->
   d_place d = Member \/ forall sp', sp' <> [] -> encloses sp' sp -> ~ has_own own o sp').
Proof.
  intros sp own o l r d Hl Ho Ht Hf Hu. rewrite (works_iff (plain sp (library ++ own)) o l r d Hl); trivial; cbn [plain s_all s_before].
  2: apply in_or_app; auto.
  2: { intros d' Hi. apply Hu. apply in_app_or in Hi as [Hi|Hi]; exact Hi. }
  split; intros [H|H]; auto; right.
  - destruct H as [_ H]. intros sp' Hn He (d' & Hi & Hd). apply H. exists sp'. cbn [plain s_space s_before].
    refine (conj Hn (conj He _)). exists d'. split; [apply in_or_app; auto|exact Hd].
  - split; [apply in_or_app; auto|]. intros (sp' & Hn & He & d' & Hi & Hd1 & Hd2). cbn [plain s_space s_before] in *.
    apply in_app_or in Hi as [Hi|Hi]; [|apply (H sp' Hn He); exists d'; auto].
    destruct (library_places d' Hi) as [P|P]; congruence.
Qed.
Print Assumptions C147_in_code.

(** A failed test can show a BigInteger (FAIL() << number) exactly when the header of the numbers is included before the header
    of the tests; likewise for the other types but Char and String. *)
Theorem C147_in_messages :
  forall before d t, incl before library -> In d library -> d_op d = "<<"%string -> d_takes d = Types tOStream t ->
  (works (fail_message before library) "<<" tOStream t <-> In d (before ++ char_operators ++ string_operators)).
Proof.
  intros before d t Hb Hl Ho Ht.
  assert (G : In t [tChar; tString; tBigInteger; tBigFloat; tJsonDocument] /\ d = op "<<" (Types tOStream t) (Space [])).
  { revert Ho Ht. unfold library in Hl. rewrite !in_app_iff in Hl.
    cbn -[tOStream tChar tString tBigInteger tBigFloat tJsonDocument tCStr tIStream Caitlyn] in Hl.
    repeat match goal with H : _ \/ _ |- _ => destruct H as [H|H] end; try contradiction;
      subst d; cbn [op d_op d_takes]; intros Ho Ht; try discriminate; injection Ht as <-; (split; [cbn; tauto|reflexivity]). }
  destruct G as [G ->].
  assert (U : forall d', In d' library -> d_op d' = "<<"%string -> takes (d_takes d') tOStream t = true -> d' = op "<<" (Types tOStream t) (Space [])).
  { intros d' Hi. unfold library in Hi. rewrite !in_app_iff in Hi.
    cbn -[tOStream tChar tString tBigInteger tBigFloat tJsonDocument tCStr tIStream Caitlyn] in Hi. cbn [In] in G.
    repeat match goal with H : _ \/ _ |- _ => destruct H as [H|H] end; try contradiction;
      subst d' t; cbn [op d_op d_takes]; intros Ho' Ht'; try discriminate; vm_compute in Ht'; try discriminate; reflexivity. }
  assert (C : incl (char_operators ++ string_operators) library).
  { unfold library. intros x Hx. rewrite !in_app_iff in *. tauto. }
  rewrite (works_iff (fail_message before library) "<<" tOStream t (op "<<" (Types tOStream t) (Space [])) Hl Hl eq_refl).
  - cbn [fail_message s_before d_place op]. split.
    + intros [H|[H _]]; [discriminate|exact H].
    + intros H. right. split; [exact H|]. intros (sp & Hn & He & d' & Hi & Hd1 & Hd2). cbn [fail_message s_space s_before] in *.
      apply in_app_or in Hi as [Hi|Hi]; [apply Hb in Hi|apply C in Hi]; destruct (library_places d' Hi) as [P|P]; congruence.
  - cbn [In] in G. repeat match goal with H : _ \/ _ |- _ => destruct H as [H|H] end; try contradiction; subst t; vm_compute; reflexivity.
  - cbn [In] in G. repeat match goal with H : _ \/ _ |- _ => destruct H as [H|H] end; try contradiction; subst t; split; vm_compute; intuition discriminate.
  - intros d' Hi. apply U. cbn [fail_message s_before s_all] in Hi. apply in_app_or in Hi as [Hi|Hi]; [|exact Hi].
    apply in_app_or in Hi as [Hi|Hi]; auto.
Qed.
Print Assumptions C147_in_messages.

(** Two errors that are big integers can be compared exactly when the header of the numbers comes before that of the errors;
    two errors that are texts always. *)
Theorem C147_in_errors :
  forall before, incl before library ->
  (works (compare_errors before library) "==" tBigInteger tBigInteger <->
   In (op "==" (Types tBigInteger tBigInteger) (Space [])) before) /\
  works (compare_errors before library) "==" tString tString.
Proof.
  intros before Hb.
  assert (L : In (op "==" (Types tBigInteger tBigInteger) (Space [])) library) by (unfold library; rewrite !in_app_iff; cbn; tauto).
  assert (L' : In (op "==" (Types tString tString) Member) library) by (unfold library; rewrite !in_app_iff; cbn; tauto).
  assert (U : forall d', In d' library -> d_op d' = "=="%string -> takes (d_takes d') tBigInteger tBigInteger = true ->
              d' = op "==" (Types tBigInteger tBigInteger) (Space [])).
  { intros d' Hi. unfold library in Hi. rewrite !in_app_iff in Hi.
    cbn -[tOStream tChar tString tBigInteger tBigFloat tJsonDocument tCStr tIStream Caitlyn] in Hi.
    repeat match goal with H : _ \/ _ |- _ => destruct H as [H|H] end; try contradiction;
      subst d'; cbn [op d_op d_takes]; intros Ho' Ht'; try discriminate; vm_compute in Ht'; try discriminate; reflexivity. }
  assert (C : incl (char_operators ++ string_operators ++ unexpected_operators) library).
  { unfold library. intros x Hx. rewrite !in_app_iff in *. tauto. }
  split.
  - rewrite (works_iff (compare_errors before library) "==" tBigInteger tBigInteger _ L L eq_refl); [|vm_compute; reflexivity| |].
    + cbn [compare_errors s_before d_place op]. split.
      * intros [H|[H _]]; [discriminate|]. apply in_app_or in H as [H|H]; [exact H|]. exfalso.
        cbn -[tOStream tChar tString tBigInteger tCStr tIStream Caitlyn] in H.
        repeat match goal with H : _ \/ _ |- _ => destruct H as [H|H] end; try contradiction; discriminate.
      * intros H. right. split; [apply in_or_app; auto|]. intros (sp & Hn & He & _). apply Hn, encloses_nil, He.
    + split; vm_compute; intuition discriminate.
    + intros d' Hi. apply U. cbn [compare_errors s_before s_all] in Hi. apply in_app_or in Hi as [Hi|Hi]; [|exact Hi].
      apply in_app_or in Hi as [Hi|Hi]; auto.
  - exists (op "==" (Types tString tString) Member). apply usable_iff. split; [vm_compute; reflexivity|]. left. auto.
Qed.
Print Assumptions C147_in_errors.

(** The claim that would make the operators usable everywhere fails: in a namespace with a + of its own, and in std::less. *)
Theorem C147_refuted :
  ~ (forall sp own, works (plain sp (library ++ own)) "+" tBigInteger tBigInteger) /\
  ~ works (in_std [] library) "<" tBigInteger tBigInteger /\
  works (in_std [] library) "<" tString tString.
Proof.
  split; [|split].
  - intros H. destruct (H ["Geo"%string] [plus_of_points]) as [d Hd]. vm_compute in Hd. exact Hd.
  - intros [d Hd]. vm_compute in Hd. exact Hd.
  - exists (op "<" (Types tString tString) Member). vm_compute. auto.
Qed.
Print Assumptions C147_refuted.

(** The same in numbers: what each site can use *)
Example code_ok : List.length (usable (plain ["App"%string] (library ++ [plus_of_points])) "+" tBigInteger tBigInteger) = 1. Proof. reflexivity. Qed.
Example code_no : usable (plain ["Shapes"; "Geo"]%string (library ++ [plus_of_points])) "+" tBigInteger tBigInteger = []. Proof. reflexivity. Qed.
Example code_member : List.length (usable (plain ["Geo"%string] (library ++ [plus_of_points])) "+" tString tString) = 1. Proof. reflexivity. Qed.
Example std_no : usable (in_std [] library) "<<" tOStream tString = []. Proof. reflexivity. Qed.
Example message_no : usable (fail_message [] library) "<<" tOStream tBigInteger = []. Proof. reflexivity. Qed.
Example message_ok : List.length (usable (fail_message integer_operators library) "<<" tOStream tBigInteger) = 1. Proof. reflexivity. Qed.
Example message_text : List.length (usable (fail_message [] library) "<<" tOStream tString) = 1. Proof. reflexivity. Qed.
(** An error of a class of the global namespace makes the comparison of two Unexpected found everywhere *)
Example global_error :
  List.length (usable (in_std [] library) "==" (tUnexpected (Class [] "Failure" [])) (tUnexpected (Class [] "Failure" []))) = 1. Proof. reflexivity. Qed.
Example library_error : usable (in_std [] library) "==" (tUnexpected tString) (tUnexpected tString) = []. Proof. reflexivity. Qed.
