(** C148: source files can include the headers in any selection and order, and programs of several such files can be built -
    refuted; exactly what can be built. *)
From Coq Require Import String List Bool Arith Lia.
From Verif Require Import Headers SpecHeaders HeadersProofs.
Import ListNotations.
Local Open Scope string_scope.
Local Open Scope list_scope.

(** How deep the includes of a header are nested *)
Definition ranks : list (string * nat) := [
   ("Caitlyn/Algorithms", 6); ("Caitlyn/Caitlyn", 17); ("Caitlyn/Char", 8); ("Caitlyn/Collections", 8);
   ("Caitlyn/DateTime", 6); ("Caitlyn/Error", 15); ("Caitlyn/File", 14); ("Caitlyn/IO", 14); ("Caitlyn/Memory", 9);
   ("Caitlyn/Numeric", 15); ("Caitlyn/Serializing", 17); ("Caitlyn/String", 12); ("Caitlyn/System", 6); ("Caitlyn/Testing",
   17); ("Caitlyn/Threading", 6); ("Caitlyn/Traits", 11); ("Caitlyn/Utility", 7); ("Caitlyn/__Base.h", 4);
   ("Caitlyn/__Caitlyn.h", 5); ("Caitlyn/__Caitlyn/Application.h", 4); ("Caitlyn/__Caitlyn/Config.h", 2);
   ("Caitlyn/__Caitlyn/Namespace.h", 1); ("Caitlyn/__Caitlyn/Types.h", 3); ("Caitlyn/__Core/Algorithms.h", 5);
   ("Caitlyn/__Core/Char.h", 7); ("Caitlyn/__Core/Char/Char.h", 5); ("Caitlyn/__Core/Char/Defs.h", 5);
   ("Caitlyn/__Core/Char/Utility.h", 6); ("Caitlyn/__Core/Collections.h", 7); ("Caitlyn/__Core/Collections/Utility.h", 6);
   ("Caitlyn/__Core/Collections/Utility/MapUtility.h", 5); ("Caitlyn/__Core/Date.h", 1); ("Caitlyn/__Core/DateTime.h", 5);
   ("Caitlyn/__Core/Error.h", 14); ("Caitlyn/__Core/Error/Expected.h", 13); ("Caitlyn/__Core/Error/Unexpected.h", 12);
   ("Caitlyn/__Core/File.h", 13); ("Caitlyn/__Core/File/File.h", 12); ("Caitlyn/__Core/IO.h", 13);
   ("Caitlyn/__Core/IO/Stream.h", 12); ("Caitlyn/__Core/Memory.h", 8); ("Caitlyn/__Core/Memory/Types.h", 7);
   ("Caitlyn/__Core/Memory/Types/DataSize.h", 5); ("Caitlyn/__Core/Memory/Types/MemoryFormat.h", 5);
   ("Caitlyn/__Core/Memory/Types/RawPointer.h", 5); ("Caitlyn/__Core/Memory/Types/SharedPointer.h", 5);
   ("Caitlyn/__Core/Memory/Types/UniquePointer.h", 5); ("Caitlyn/__Core/Memory/Types/WeakPointer.h", 6);
   ("Caitlyn/__Core/Memory/Utility.h", 7); ("Caitlyn/__Core/Memory/Utility/SizeCalculation.h", 6);
   ("Caitlyn/__Core/Numeric.h", 7); ("Caitlyn/__Core/Numeric/Types.h", 6); ("Caitlyn/__Core/Numeric/Types/Radix.h", 5);
   ("Caitlyn/__Core/Numeric/Types/Sign.h", 5); ("Caitlyn/__Core/Numeric/Utility.h", 6);
   ("Caitlyn/__Core/Numeric/Utility/Limits.h", 5); ("Caitlyn/__Core/String.h", 11); ("Caitlyn/__Core/String/Algorithms.h",
   6); ("Caitlyn/__Core/String/Algorithms/Kmp.h", 5); ("Caitlyn/__Core/String/Defs.h", 5);
   ("Caitlyn/__Core/String/String.h", 9); ("Caitlyn/__Core/String/StringBuilder.h", 10);
   ("Caitlyn/__Core/String/Utility.h", 10); ("Caitlyn/__Core/System.h", 5); ("Caitlyn/__Core/Threads.h", 5);
   ("Caitlyn/__Core/Time.h", 1); ("Caitlyn/__Core/Traits.h", 10); ("Caitlyn/__Core/Traits/Constraints.h", 9);
   ("Caitlyn/__Core/Traits/Constraints/Composite.h", 6); ("Caitlyn/__Core/Traits/Constraints/Operations.h", 6);
   ("Caitlyn/__Core/Traits/Constraints/Primary.h", 8); ("Caitlyn/__Core/Traits/Constraints/Properties.h", 7);
   ("Caitlyn/__Core/Traits/Constraints/PropertyQueries.h", 6); ("Caitlyn/__Core/Traits/Constraints/Relationships.h", 7);
   ("Caitlyn/__Core/Traits/Constraints/String.h", 6); ("Caitlyn/__Core/Traits/Types.h", 8);
   ("Caitlyn/__Core/Traits/Types/Base.h", 5); ("Caitlyn/__Core/Traits/Types/Collections.h", 6);
   ("Caitlyn/__Core/Traits/Types/Operators.h", 6); ("Caitlyn/__Core/Traits/Types/Pointers.h", 7);
   ("Caitlyn/__Core/Traits/Types/Primary.h", 7); ("Caitlyn/__Core/Traits/Types/Properties.h", 6);
   ("Caitlyn/__Core/Traits/Types/References.h", 6); ("Caitlyn/__Core/Traits/Types/Relationships.h", 6);
   ("Caitlyn/__Core/Traits/Types/SignModifiers.h", 6); ("Caitlyn/__Core/Traits/Types/Specifiers.h", 6);
   ("Caitlyn/__Core/Utility.h", 6); ("Caitlyn/__Core/Utility/Comparators.h", 5); ("Caitlyn/__Core/Utility/Random.h", 5);
   ("Caitlyn/__Numeric/Types.h", 14); ("Caitlyn/__Numeric/Types/BigFloat.h", 13); ("Caitlyn/__Numeric/Types/BigInteger.h",
   12); ("Caitlyn/__Serializing/Json.h", 16); ("Caitlyn/__Serializing/Json/Defs.h", 1);
   ("Caitlyn/__Serializing/Json/Types.h", 15); ("Caitlyn/__Serializing/Json/Types/Json.h", 14);
   ("Caitlyn/__Serializing/Json/Types/JsonClass.h", 5); ("Caitlyn/__Serializing/Json/Types/JsonData.h", 12);
   ("Caitlyn/__Serializing/Json/Types/JsonError.h", 5); ("Caitlyn/__Serializing/Json/Types/JsonParser.h", 13);
   ("Caitlyn/__Serializing/Json/Utility.h", 6); ("Caitlyn/__Testing/Macro.h", 16); ("Caitlyn/__Testing/Macro/Assert.h",
   15); ("Caitlyn/__Testing/Macro/Test.h", 15); ("Caitlyn/__Testing/Macro/TestFixture.h", 15);
   ("Caitlyn/__Testing/Types.h", 14); ("Caitlyn/__Testing/Types/TestCase.h", 12);
   ("Caitlyn/__Testing/Types/TestFailMessage.h", 5); ("Caitlyn/__Testing/Types/TestFunction.h", 5);
   ("Caitlyn/__Testing/Types/TestRegistry.h", 13)].
Definition rank (f : header) : nat := match find (fun x => (fst x =? h_path f)%string) ranks with Some (_, n) => n | None => O end.
Ltac in_list := cbn [In]; repeat (first [left; reflexivity | right]).
Definition check_closed (fs : file_system) (files : list header) : bool :=
  forallb (fun f => forallb (fun p => match lookup fs files p with Some f' => (rank f' <? rank f)%nat | None => false end)
    (h_includes f)) files.
Definition check_unique (files : list header) : bool :=
  forallb (fun f => match h_guard f with None => true | Some g =>
    forallb (fun f' => match h_guard f' with Some g' => negb (g =? g')%string || (h_path f =? h_path f')%string | None => true end) files end) files.
Definition check_paths (files : list header) : bool :=
  (fix go l := match l with [] => true | f :: l => negb (existsb (fun f' => (h_path f =? h_path f')%string) l) && go l end) files.

Lemma closed_of fs files : check_closed fs files = true -> forall f p, In f files -> In p (h_includes f) ->
  exists f', lookup fs files p = Some f' /\ rank f' < rank f.
Proof.
  intros H f p Hf Hp. unfold check_closed in H. rewrite forallb_forall in H. specialize (H f Hf). rewrite forallb_forall in H. specialize (H p Hp).
  destruct (lookup fs files p) as [f'|]; [|discriminate]. exists f'. split; [reflexivity|]. apply Nat.ltb_lt, H.
Qed.
Lemma paths_of files : check_paths files = true -> forall f f', In f files -> In f' files -> h_path f = h_path f' -> f = f'.
Proof.
  induction files as [|x l IH]; intros H f f' Hf Hf' E; [destruct Hf|]. cbn in H. apply andb_true_iff in H as [H1 H2].
  assert (N : forall y, In y l -> h_path x <> h_path y).
  { intros y Hy E'. apply negb_true_iff in H1. assert (T : existsb (fun f' => (h_path x =? h_path f')%string) l = true).
    { apply existsb_exists. exists y. split; [exact Hy|]. apply String.eqb_eq, E'. }
    congruence. }
  destruct Hf as [<-|Hf], Hf' as [<-|Hf']; [reflexivity|exfalso; eapply N; eauto|exfalso; eapply N; eauto|].
  apply IH; trivial.
Qed.
Lemma unique_of files : check_unique files = true -> check_paths files = true ->
  forall f f' g, In f files -> In f' files -> h_guard f = Some g -> h_guard f' = Some g -> f = f'.
Proof.
  intros H Hp f f' g Hf Hf' G G'. apply (paths_of files Hp); trivial. unfold check_unique in H. rewrite forallb_forall in H.
  specialize (H f Hf). rewrite G in H. rewrite forallb_forall in H. specialize (H f' Hf'). rewrite G', String.eqb_refl in H.
  apply String.eqb_eq, H.
Qed.

(** ** Where upper and lower case do not matter, every selection of headers in every order is preprocessed; every header follows
    those it includes and none with an include guard is repeated. *)
Theorem C148_any_order :
  forall paths, (forall p, In p paths -> exists f, In f headers /\ h_path f = p) ->
  exists texts defined, preprocess Insensitive headers paths = Done texts defined /\
    in_order Insensitive texts /\ no_repetition texts /\ incl texts headers /\
    forall f, In f headers -> In (h_path f) paths -> In f texts.
Proof.
  intros paths Hp.
  assert (L : forall f, In f headers -> lookup Insensitive headers (h_path f) = Some f).
  { assert (C : forallb (fun f => match lookup Insensitive headers (h_path f) with Some f' => (h_path f' =? h_path f)%string | None => false end) headers = true)
      by (vm_compute; reflexivity).
    intros f Hf. rewrite forallb_forall in C. specialize (C f Hf). destruct (lookup Insensitive headers (h_path f)) as [f'|] eqn:E; [|discriminate].
    apply String.eqb_eq in C. f_equal. apply (paths_of headers); [vm_compute; reflexivity| |exact Hf|exact C].
    apply lookup_in in E. apply E. }
  destruct (preprocess_ok Insensitive headers (rank)) with (paths := paths)
    as (t & d & E & Ho & Hn & Hi & Ha & _).
  - apply closed_of. vm_compute. reflexivity.
  - apply unique_of; vm_compute; reflexivity.
  - assert (C : forallb (fun f => (rank f <=? List.length headers)%nat) headers = true) by (vm_compute; reflexivity).
    intros f Hf. rewrite forallb_forall in C. apply Nat.leb_le, C, Hf.
  - intros p Hi. destruct (Hp p Hi) as (f & Hf & <-). exists f. apply L, Hf.
  - exists t, d. refine (conj E (conj Ho (conj Hn (conj Hi _)))). intros f Hf Hq. eapply Ha; [exact Hq|]. apply L, Hf.
Qed.
Print Assumptions C148_any_order.

(** ** Where they do matter, no source file that includes a header for users is preprocessed. *)
Theorem C148_case_refuted :
  forall p rest, In p public -> preprocess Sensitive headers (p :: rest) = Missing "caitlyn/__caitlyn/application.h".
Proof.
  intros p rest Hp. assert (C : forallb (fun p => match include (S (List.length headers)) Sensitive headers p [] with
      Missing q => (q =? "caitlyn/__caitlyn/application.h")%string | _ => false end) public = true) by (vm_compute; reflexivity).
  rewrite forallb_forall in C. specialize (C p Hp). unfold preprocess. cbn [include_all].
  destruct (include (S (List.length headers)) Sensitive headers p []); try discriminate. f_equal. apply String.eqb_eq, C.
Qed.
Print Assumptions C148_case_refuted.

(** ** Which programs can be built *)
Definition application : header :=
  File "Caitlyn/__Caitlyn/Application.h" (Some "CAITLYN_APPLICATION_H_") ["Caitlyn/__Caitlyn/Config.h"; "Caitlyn/__Caitlyn/Types.h"]
    ["Caitlyn::Application::application_"; "Caitlyn::Application::initialized_"].

Lemma only_application f : In f headers -> f = application \/ h_definitions f = [].
Proof.
  assert (C : forallb (fun f => match h_definitions f with [] => true | _ => (h_path f =? h_path application)%string end) headers = true)
    by (vm_compute; reflexivity).
  intros Hf. rewrite forallb_forall in C. specialize (C f Hf). destruct (h_definitions f) as [|x l]; [auto|]. left.
  apply String.eqb_eq in C. apply (paths_of headers); [vm_compute; reflexivity|exact Hf| |exact C].
  apply (nth_error_In headers 19). vm_compute. reflexivity.
Qed.

Lemma definitions_of texts : incl texts headers -> no_repetition texts ->
  (~ In application texts /\ flat_map h_definitions texts = []) \/
  (In application texts /\ flat_map h_definitions texts = h_definitions application).
Proof.
  induction texts as [|f l IH]; intros Hi Hn; [left; auto|].
  destruct IH as [[N E]|[N E]].
  - intros x Hx. apply Hi. right. exact Hx.
  - intros x a b c E. apply (Hn x (f :: a) b c). cbn. rewrite E. reflexivity.
  - cbn [flat_map]. rewrite E, app_nil_r. destruct (only_application f (Hi f (or_introl eq_refl))) as [-> |D].
    + right. split; [left; reflexivity|reflexivity].
    + destruct (only_application f (Hi f (or_introl eq_refl))) as [-> |_]; [discriminate|]. left. split; [|exact D].
      intros [->|H]; [discriminate|contradiction].
  - right. split; [right; exact N|]. cbn [flat_map]. rewrite E.
    destruct (only_application f (Hi f (or_introl eq_refl))) as [-> |D]; [exfalso|rewrite D; reflexivity].
    apply in_split in N as (a & b & ->). specialize (Hn application [] a b eq_refl). discriminate.
Qed.

Lemma unit_definitions u : incl u public ->
  compiled (preprocess Insensitive headers u) = true /\
  defined_in Insensitive headers u = match u with [] => [] | _ => h_definitions application end.
Proof.
  intros Hu. destruct (C148_any_order u) as (t & d & E & Ho & Hn & Hi & Ha).
  { assert (C : forallb (fun p => existsb (fun f => (h_path f =? p)%string) headers) public = true) by (vm_compute; reflexivity).
    intros p Hp. rewrite forallb_forall in C. specialize (C p (Hu p Hp)). apply existsb_exists in C as (f & Hf & Ef).
    exists f. split; [exact Hf|]. apply String.eqb_eq, Ef. }
  unfold defined_in. rewrite E. split; [reflexivity|]. cbn [texts_of].
  destruct u as [|p u].
  - unfold preprocess in E. cbn [include_all] in E. injection E as <- <-. reflexivity.
  - destruct (definitions_of t Hi Hn) as [[N _]|[_ D]]; [exfalso|exact D]. apply N. clear N.
    assert (Hp : In p public) by (apply Hu; left; reflexivity).
    assert (C : forallb (fun p => existsb (fun f => (h_path f =? p)%string && existsb (String.eqb "Caitlyn/__Caitlyn.h") (h_includes f)) headers) public = true)
      by (vm_compute; reflexivity).
    rewrite forallb_forall in C. specialize (C p Hp). apply existsb_exists in C as (f & Hf & C). apply andb_true_iff in C as [C1 C2].
    apply String.eqb_eq in C1. apply existsb_exists in C2 as (q & Hq & C2). apply String.eqb_eq in C2. subst q.
    assert (Hft : In f t) by (apply Ha; [exact Hf|left; congruence]).
    apply in_split in Hft as (b1 & a1 & E1). destruct (Ho _ _ _ _ E1 Hq) as (f2 & Hf2 & S2).
    assert (Hf2t : In f2 t) by (rewrite E1; apply in_or_app; auto).
    assert (C : forallb (fun f => negb (same_path Insensitive (h_path f) "Caitlyn/__Caitlyn.h") ||
        existsb (String.eqb "caitlyn/__caitlyn/application.h") (h_includes f)) headers = true) by (vm_compute; reflexivity).
    rewrite forallb_forall in C. specialize (C f2 (Hi f2 Hf2t)). rewrite S2 in C. cbn [negb orb] in C.
    apply existsb_exists in C as (q & Hq' & C). apply String.eqb_eq in C. subst q.
    apply in_split in Hf2t as (b2 & a2 & E2). destruct (Ho _ _ _ _ E2 Hq') as (f3 & Hf3 & S3).
    assert (Hf3t : In f3 t) by (rewrite E2; apply in_or_app; auto).
    assert (C : forallb (fun f => negb (same_path Insensitive (h_path f) "caitlyn/__caitlyn/application.h") || (h_path f =? h_path application)%string) headers = true)
      by (vm_compute; reflexivity).
    rewrite forallb_forall in C. specialize (C f3 (Hi f3 Hf3t)). rewrite S3 in C. cbn [negb orb] in C. apply String.eqb_eq in C.
    assert (f3 = application) as <-; [|exact Hf3t].
    apply (paths_of headers); [vm_compute; reflexivity|apply Hi, Hf3t|apply (nth_error_In headers 19); vm_compute; reflexivity|exact C].
Qed.

(** Exactly the programs in which not two source files include headers for users *)
Theorem C148_builds_exactly :
  forall program, (forall u, In u program -> incl u public) ->
  (builds Insensitive headers program <-> at_most_one_user program).
Proof.
  intros program Hp. unfold builds.
  assert (C : forallb (fun u => compiled (preprocess Insensitive headers u)) program = true).
  { apply forallb_forall. intros u Hu. apply (unit_definitions u (Hp u Hu)). }
  split.
  - intros [_ N] a u b v c ->. destruct u as [|p u]; [auto|]. destruct v as [|q v]; [auto|]. exfalso.
    rewrite flat_map_app in N. cbn [flat_map] in N. rewrite flat_map_app in N. cbn [flat_map] in N.
    rewrite (proj2 (unit_definitions (p :: u) (Hp _ ltac:(rewrite in_app_iff; right; left; reflexivity)))) in N.
    rewrite (proj2 (unit_definitions (q :: v) (Hp _ ltac:(rewrite in_app_iff; right; right; rewrite in_app_iff; right; left; reflexivity)))) in N.
    cbn [application h_definitions app] in N. apply NoDup_remove_2 in N. apply N. rewrite !in_app_iff. right. right. rewrite in_app_iff.
    right. left. reflexivity.
  - intros A. split; [exact C|]. clear C.
    assert (K : (forall u, In u program -> u = []) /\ flat_map (defined_in Insensitive headers) program = [] \/
                flat_map (defined_in Insensitive headers) program = h_definitions application).
    { induction program as [|u l IH]; [left; split; [intros u []|reflexivity]|].
      cbn [flat_map]. rewrite (proj2 (unit_definitions u (Hp u (or_introl eq_refl)))).
      destruct IH as [[N E]|E].
      - intros v Hv. apply Hp. right. exact Hv.
      - intros a v b w c E. apply (A (u :: a) v b w c). cbn. rewrite E. reflexivity.
      - rewrite E. destruct u as [|p u]; [left; split; [intros v [<-|Hv]; auto|reflexivity]|right; reflexivity].
      - right. destruct u as [|p u]; [exact E|]. exfalso.
        assert (N : forall v, In v l -> v = []).
        { intros v Hv. apply in_split in Hv as (a & b & ->). destruct (A [] (p :: u) a v b eq_refl) as [H|H]; [discriminate|exact H]. }
        assert (Z : flat_map (defined_in Insensitive headers) l = []).
        { clear -N. induction l as [|v l IH]; [reflexivity|]. cbn [flat_map]. rewrite (N v (or_introl eq_refl)).
          rewrite IH; [reflexivity|]. intros w Hw. apply N. right. exact Hw. }
        rewrite Z in E. discriminate. }
    destruct K as [[_ ->]| ->]; [constructor|]. cbn. repeat constructor; cbn; intuition discriminate.
Qed.
Print Assumptions C148_builds_exactly.

Theorem C148_refuted :
  ~ (forall program, (forall u, In u program -> incl u public) -> builds Insensitive headers program) /\
  ~ (exists program, In ["Caitlyn/String"] program /\ builds Sensitive headers program).
Proof.
  split.
  - intros H. specialize (H [["Caitlyn/String"]; ["Caitlyn/String"]]). assert (P : forall u, In u [["Caitlyn/String"]; ["Caitlyn/String"]] -> incl u public).
    { intros u [<-|[<-|[]]] x [<-|[]]; unfold public; in_list. }
    apply (C148_builds_exactly _ P) in H; [|exact P]. destruct (H [] ["Caitlyn/String"] [] ["Caitlyn/String"] [] eq_refl); discriminate.
  - intros (program & Hi & C & _). rewrite forallb_forall in C. specialize (C _ Hi).
    rewrite C148_case_refuted in C; [discriminate|]. unfold public. in_list.
Qed.
Print Assumptions C148_refuted.

(** These two are the only obstacles: with that one path and these two definitions put right, every program can be built. *)
Definition repaired : list header :=
  map (fun f => let 'File p g i _ := f in
    File p g (map (fun q => if (q =? "caitlyn/__caitlyn/application.h")%string then "Caitlyn/__Caitlyn/Application.h" else q) i) []) headers.
Theorem C148_repaired :
  forall fs program, (forall u, In u program -> incl u public) -> builds fs repaired program.
Proof.
  intros fs program Hp.
  assert (C1 : check_closed fs repaired = true) by (destruct fs; vm_compute; reflexivity).
  assert (C2 : forallb (fun f => (rank f <=? List.length repaired)%nat) repaired = true) by (destruct fs; vm_compute; reflexivity).
  assert (C3 : forallb (fun p => match lookup fs repaired p with Some _ => true | None => false end) public = true) by (destruct fs; vm_compute; reflexivity).
  assert (C4 : forallb (fun f => match h_definitions f with [] => true | _ => false end) repaired = true) by (vm_compute; reflexivity).
  assert (U : forall u, In u program -> compiled (preprocess fs repaired u) = true /\ defined_in fs repaired u = []).
  { intros u Hu. destruct (preprocess_ok fs repaired (rank)) with (paths := u) as (t & d & E & _ & _ & Hi & _).
    - apply closed_of, C1.
    - apply unique_of; vm_compute; reflexivity.
    - intros f Hf. rewrite forallb_forall in C2. apply Nat.leb_le, C2, Hf.
    - intros p Hq. rewrite forallb_forall in C3. specialize (C3 p (Hp u Hu p Hq)). destruct (lookup fs repaired p) as [f|]; [eauto|discriminate].
    - unfold defined_in. rewrite E. split; [reflexivity|]. cbn [texts_of]. clear -Hi C4.
      induction t as [|f t IH]; [reflexivity|]. cbn [flat_map]. rewrite IH by (intros x Hx; apply Hi; right; exact Hx).
      rewrite forallb_forall in C4. specialize (C4 f (Hi f (or_introl eq_refl))). destruct (h_definitions f); [reflexivity|discriminate]. }
  split.
  - apply forallb_forall. intros u Hu. apply (U u Hu).
  - assert (Z : flat_map (defined_in fs repaired) program = []).
    { clear -U. induction program as [|u l IH]; [reflexivity|]. cbn [flat_map]. rewrite (proj2 (U u (or_introl eq_refl))).
      rewrite IH; [reflexivity|]. intros v Hv. apply U. right. exact Hv. }
    rewrite Z. constructor.
Qed.
Print Assumptions C148_repaired.

Example one_user : builds Insensitive headers [["Caitlyn/Testing"; "Caitlyn/Numeric"; "Caitlyn/Testing"]; []].
Proof.
  apply C148_builds_exactly.
  - intros u [<-|[<-|[]]] x Hx; [|destruct Hx]. destruct Hx as [<-|[<-|[<-|[]]]]; unfold public; in_list.
  - intros [|x [|y [|z a]]] u [|w b] v c E; cbn in E; injection E; intros; subst; auto; try discriminate.
    all: try (destruct a; discriminate). all: try (destruct b; discriminate).
Qed.
Example how_many : List.length (texts_of (preprocess Insensitive headers ["Caitlyn/Caitlyn"; "Caitlyn/Testing"])) = 95.
Proof. vm_compute. reflexivity. Qed.
