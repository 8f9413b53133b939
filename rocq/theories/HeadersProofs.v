From Coq Require Import String List Bool Arith Lia.
From Verif Require Import Headers SpecHeaders.
Import ListNotations.
Local Open Scope list_scope.

Lemma is_defined_iff d g : is_defined d g = true <-> In g d.
Proof.
  unfold is_defined. rewrite existsb_exists. split.
  - intros (x & Hi & E). apply String.eqb_eq in E. congruence.
  - intros H. exists g. rewrite String.eqb_refl. auto.
Qed.
Definition guarded (f : header) : bool := match h_guard f with Some _ => true | None => false end.

Lemma app_split_last {A} (l : list A) x before y after :
  l ++ [x] = before ++ y :: after -> (before = l /\ y = x /\ after = []) \/ exists after', l = before ++ y :: after'.
Proof.
  revert before. induction l as [|a l IH]; intros [|b before] H; simpl in H; injection H as E1 E2.
  - left. auto.
  - destruct before; discriminate.
  - right. exists l. cbn. congruence.
  - subst b. destruct (IH before E2) as [(-> & -> & ->)|[after' ->]]; [left; auto|right; exists after'; reflexivity].
Qed.

Lemma in_order_nil fs : in_order fs [].
Proof. intros [|? ?] f after p H; discriminate. Qed.
Lemma in_order_snoc fs l f :
  in_order fs l -> (forall p, In p (h_includes f) -> exists f', In f' l /\ same_path fs (h_path f') p = true) -> in_order fs (l ++ [f]).
Proof.
  intros Hl Hf before x after p E Hp. apply app_split_last in E as [(-> & -> & _)|[after' E]]; [auto|]. eapply Hl; eauto.
Qed.

Lemma nodup_no_repetition texts : NoDup (filter guarded texts) -> no_repetition texts.
Proof.
  intros H f before between after ->. destruct (h_guard f) as [g|] eqn:E; [exfalso|reflexivity].
  assert (G : guarded f = true) by (unfold guarded; rewrite E; reflexivity).
  rewrite filter_app in H. cbn [filter] in H. rewrite G, filter_app in H. cbn [filter] in H. rewrite G in H.
  apply NoDup_remove_2 in H. apply H. rewrite !in_app_iff. right. right. left. reflexivity.
Qed.
Lemma NoDup_snoc {A} (l : list A) x : NoDup l -> ~ In x l -> NoDup (l ++ [x]).
Proof.
  intros Hl Hx. induction l as [|a l IH]; [constructor; [intros []|constructor]|].
  inversion Hl; subst. cbn. constructor.
  - rewrite in_app_iff. cbn. intros [?|[?|[]]]; [contradiction|]. subst. apply Hx. left. reflexivity.
  - apply IH; trivial. intros ?. apply Hx. right. trivial.
Qed.

Section Tree.
  Context (fs : file_system) (files : list header) (rank : header -> nat).
  Hypothesis closed : forall f p, In f files -> In p (h_includes f) ->
    exists f', lookup fs files p = Some f' /\ rank f' < rank f.
  Hypothesis unique : forall f f' g, In f files -> In f' files -> h_guard f = Some g -> h_guard f' = Some g -> f = f'.

  Lemma lookup_in p f : lookup fs files p = Some f -> In f files /\ same_path fs (h_path f) p = true.
  Proof. intros H. apply find_some in H. exact H. Qed.

  Record good (T : list header) (d : list string) (k : nat) : Prop := {
    g_order : in_order fs T;
    g_seen : forall h g, In h files -> h_guard h = Some g -> In g d -> rank h < k -> In h T;
    g_def : forall h g, In h T -> h_guard h = Some g -> In g d;
    g_once : NoDup (filter guarded T) }.

  Record step (T : list header) (d : list string) (t : list header) (d' : list string) (k : nat) : Prop := {
    s_incl : incl d d';
    s_order : in_order fs (T ++ t);
    s_def : forall h g, In h (T ++ t) -> h_guard h = Some g -> In g d';
    s_once : NoDup (filter guarded (T ++ t));
    s_new : forall h g, In h files -> h_guard h = Some g -> In g d' -> In g d \/ In h (T ++ t);
    s_rank : forall h, In h t -> In h files /\ rank h < k }.

  Lemma good_step T d t d' k k' : good T d k -> step T d t d' k' -> good (T ++ t) d' k.
  Proof.
    intros [A B C D] [A' B' C' D' E' F']. constructor; trivial.
    intros h g Hh Hg Hi Hr. destruct (E' h g Hh Hg Hi) as [H|H]; trivial. apply in_or_app. left. eapply B; eauto.
  Qed.
  Lemma good_less T d k k' : good T d k -> k' <= k -> good T d k'.
  Proof. intros [A B C D] L. constructor; trivial. intros h g Hh Hg Hi Hr. eapply B; eauto. lia. Qed.

  Lemma all_ok inc k :
    (forall p f T d, lookup fs files p = Some f -> rank f < k -> good T d (S (rank f)) ->
       exists t d', inc p d = Done t d' /\ step T d t d' (S (rank f)) /\ In f (T ++ t)) ->
    forall paths T d, (forall p, In p paths -> exists f, lookup fs files p = Some f /\ rank f < k) -> good T d k ->
    exists t d', include_all inc paths d = Done t d' /\ step T d t d' k /\
      forall p f, In p paths -> lookup fs files p = Some f -> In f (T ++ t).
  Proof.
    intros Hinc. induction paths as [|p rest IH]; intros T d Hp Hg; cbn [include_all].
    - exists [], d. split; [reflexivity|]. split; [|intros p f []]. destruct Hg as [A B C D].
      constructor; rewrite ?app_nil_r; trivial; [intros x Hx; exact Hx|auto|intros h []].
    - destruct (Hp p (or_introl eq_refl)) as (f & Hl & Hr).
      destruct (Hinc p f T d Hl Hr (good_less _ _ _ _ Hg Hr)) as (t & d1 & -> & St & Hf).
      assert (Hg1 := good_step _ _ _ _ _ _ Hg St).
      destruct (IH (T ++ t) d1 (fun p H => Hp p (or_intror H)) Hg1) as (t' & d2 & -> & St' & Ha).
      exists (t ++ t'), d2. split; [reflexivity|]. rewrite app_assoc. destruct St as [A B C D E F], St' as [A' B' C' D' E' F']. split.
      + constructor; rewrite ?app_assoc; trivial.
        * intros x Hx. auto.
        * intros h g Hh Hg' Hi. destruct (E' h g Hh Hg' Hi) as [H|H]; [|auto].
          destruct (E h g Hh Hg' H) as [H'|H']; [auto|]. right. apply in_or_app. auto.
        * intros h Hh. apply in_app_or in Hh as [Hh|Hh]; [|auto]. destruct (F h Hh). split; [trivial|lia].
      + intros q h [<-|Hq] Hl'; [|eauto]. assert (h = f) by congruence. subst h. apply in_or_app. auto.
  Qed.

  Lemma include_ok n : forall p f T d, rank f < n -> lookup fs files p = Some f -> good T d (S (rank f)) ->
    exists t d', include n fs files p d = Done t d' /\ step T d t d' (S (rank f)) /\ In f (T ++ t).
  Proof.
    induction n as [|n IH]; intros p f T d Hn Hl Hg; [lia|]. cbn [include]. rewrite Hl.
    destruct (lookup_in p f Hl) as [Hin Hsp].
    assert (Body : forall d1, incl d d1 ->
              (forall h g, In h files -> h_guard h = Some g -> In g d1 -> In g d \/ h = f) ->
              (guarded f = true -> ~ In f T) -> (forall g, h_guard f = Some g -> In g d1) ->
              exists t d', include_all (include n fs files) (h_includes f) d1 = Done t d' /\
                step T d (t ++ [f]) d' (S (rank f)) /\ In f (T ++ t ++ [f])).
    { intros d1 Hd1 Hnew HfT Hfg.
      assert (G1 : good T d1 (rank f)).
      { destruct Hg as [A B C D]. constructor; trivial.
        - intros h g Hh Hg' Hi Hr. destruct (Hnew h g Hh Hg' Hi) as [H| ->]; [|lia]. eapply B; eauto.
        - intros h g Hh Hg'. apply Hd1. eauto. }
      destruct (all_ok (include n fs files) (rank f)) with (paths := h_includes f) (T := T) (d := d1) as (t & d' & E & St & Ha).
      - intros q f' T' d'' Hl' Hr Hg'. apply IH; trivial. lia.
      - intros q Hq. apply closed; trivial.
      - exact G1.
      - exists t, d'. split; [exact E|]. destruct St as [A B C D E' F]. split; [|rewrite !in_app_iff; cbn; auto].
        constructor; rewrite ?app_assoc.
        + intros x Hx. auto.
        + apply in_order_snoc; trivial. intros q Hq. destruct (closed f q Hin Hq) as (f' & Hl' & _).
          exists f'. split; [eauto|]. apply (lookup_in q f' Hl').
        + intros h g Hh Hg'. apply in_app_or in Hh as [Hh|[<-|[]]]; [eauto|]. apply A, Hfg, Hg'.
        + rewrite filter_app. cbn [filter]. destruct (guarded f) eqn:Gf; [|rewrite app_nil_r; trivial].
          apply NoDup_snoc; trivial. rewrite filter_In, in_app_iff. intros [[H|H] _]; [apply HfT; trivial|].
          destruct (F f H). lia.
        + intros h g Hh Hg' Hi. destruct (E' h g Hh Hg' Hi) as [H|H]; [|right; apply in_or_app; auto].
          destruct (Hnew h g Hh Hg' H) as [H'| ->]; [auto|]. right. rewrite in_app_iff. cbn. auto.
        + intros h Hh. apply in_app_or in Hh as [Hh|[<-|[]]]; [|split; [trivial|lia]]. destruct (F h Hh). split; [trivial|lia]. }
    destruct (h_guard f) as [g|] eqn:Gf.
    - destruct (is_defined d g) eqn:Dg.
      + apply is_defined_iff in Dg. exists [], d. split; [reflexivity|].
        assert (HfT : In f T) by (eapply g_seen; eauto). rewrite app_nil_r. split; [|exact HfT].
        destruct Hg as [A B C D]. constructor; rewrite ?app_nil_r; trivial; [intros x Hx; exact Hx|auto|intros h []].
      + assert (Ng : ~ In g d) by (rewrite <- is_defined_iff; congruence).
        destruct (Body (g :: d)) as (t & d' & -> & St & Hf); [| | | |exists (t ++ [f]), d'; auto].
        * intros x Hx. right. exact Hx.
        * intros h g' Hh Hg' [<-|Hi]; [right; eapply unique; eauto|auto].
        * intros _ HfT. apply Ng. eapply g_def; eauto.
        * intros g' E. left. congruence.
    - destruct (Body d) as (t & d' & -> & St & Hf); [| | | |exists (t ++ [f]), d'; auto].
      + intros x Hx. exact Hx.
      + auto.
      + unfold guarded. rewrite Gf. discriminate.
      + discriminate.
  Qed.

  Lemma preprocess_ok paths :
    (forall f, In f files -> rank f <= List.length files) ->
    (forall p, In p paths -> exists f, lookup fs files p = Some f) ->
    exists texts defined, preprocess fs files paths = Done texts defined /\ in_order fs texts /\ no_repetition texts /\
      (forall f, In f texts -> In f files) /\
      (forall p f, In p paths -> lookup fs files p = Some f -> In f texts) /\ NoDup (filter guarded texts).
  Proof.
    intros Hr Hp. unfold preprocess.
    destruct (all_ok (include (S (List.length files)) fs files) (S (List.length files))) with (paths := paths) (T := @nil header) (d := @nil string)
      as (t & d' & E & St & Ha).
    - intros p f T d Hl Hk Hg. apply include_ok; trivial.
    - intros p Hi. destruct (Hp p Hi) as [f Hl]. exists f. split; [exact Hl|]. apply lookup_in in Hl as [Hl _].
      specialize (Hr f Hl). lia.
    - constructor; [apply in_order_nil|intros h g _ _ []|intros h g []|constructor].
    - exists t, d'. destruct St as [A B C D E' F]. cbn [app] in *.
      refine (conj E (conj B (conj (nodup_no_repetition _ D) (conj _ (conj _ D))))); trivial. intros f Hf. apply F, Hf.
  Qed.
End Tree.
