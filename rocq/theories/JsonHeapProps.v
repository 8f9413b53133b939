(** Properties C118, C119: JsonData objects in memory.  [F] is any type of floating-point numbers, [zero] its default value;
    a program is a list of operations on variables of type JsonData and references to parts of them. *)
From Coq Require Import List Arith NArith ZArith Bool Lia.
From Verif Require Import Outcome CharModel StrModel JsonData JsonHeap SpecJsonHeap JsonHeapProofs JsonHeapSteps JsonHeapRuns.
Import ListNotations.

(** A program used as a concrete case: two variables, nested members, a copy, a change of the copy, a move. *)
Definition heap_key (n : N) : Str := [[n]].
Definition heap_ex : list (hop unit) :=
  [OMake CObject; OKey [0] (heap_key 97); OAssign [0; 0] (SInt 1); OKey [0] (heap_key 98); OAppend [0; 1] (SStr (heap_key 120));
   OCopyNew [0]; OAssign [1; 1; 0] (SBool true); OAppendCopy [1; 1] [0]; OMove [0; 0] [1; 1]].
Definition heap_ex_value : json unit :=
  JArr [JObj [(heap_key 97, JArr [JBool true; JObj [(heap_key 97, JInt 1); (heap_key 98, JArr [JStr (heap_key 120)])]]);
              (heap_key 98, JArr [JStr (heap_key 120)])];
        JObj [(heap_key 97, JInt 1); (heap_key 98, JNull)]].
Definition final (o : outcome (hstate unit)) : hstate unit := match o with Ok s => s | _ => hstart end.
Lemma heap_ex_runs : hrun tt hstart heap_ex = Ok (final (hrun tt hstart heap_ex)) /\ vrun tt (JArr []) heap_ex = Ok heap_ex_value.
Proof. vm_compute. split; reflexivity. Qed.

(** C118.  Any program: the memory holds, read through the pointers, exactly the values the program has on plain values
    (JsonData.v); the one is undefined when and only when the other is; it never gets stuck. *)
Theorem C118_memory_holds_values : forall (F : Type) (zero : F) (os : list (hop F)),
  match vrun zero (JArr []) os with
  | Ok w => exists s, hrun zero hstart os = Ok s /\ reads (mem s) 0 w
  | UB => hrun zero hstart os = UB
  | _ => False
  end.
Proof.
  intros F zero os. pose proof (run_good zero os hstart _ _ start_inv) as G. change (value (ANode 0 HArr [])) with (JArr (F := F) []) in G.
  destruct (vrun zero (JArr []) os); try contradiction; [|exact G]. destruct G as (s & t & new & E & I & <- & _). exists s. split; [exact E|].
  rewrite <- (proj1 (i_frame _ _ _ I)). apply tree_reads; apply I.
Qed.
Print Assumptions C118_memory_holds_values.
(** Reading is a function: an object is at most one value. *)
Theorem C118_one_value : forall (F : Type) (zero : F) os s a v w, hrun zero hstart os = Ok s -> denotes s a v -> denotes s a w -> v = w.
Proof.
  intros F zero os s a v w E V W. destruct (reachable_inv zero os s E) as (t & lk & I & _).
  apply (inv_denotes s t lk a v I) in V. destruct V as [_ V]. apply (inv_denotes s t lk a w I) in W. destruct W as [_ W]. congruence.
Qed.
Print Assumptions C118_one_value.
(** A new variable initialised with a copy denotes the same value, and everything else is as before. *)
Theorem C118_copy : forall (F : Type) (zero : F) os s a v, hrun zero hstart os = Ok s -> denotes s a v ->
  exists s' x, hstep zero s (OCopyNew a) = Ok s' /\ denotes s' [x] v /\ (forall w, ~ denotes s [x] w) /\
  forall b w, denotes s b w -> denotes s' b w.
Proof.
  intros F zero os s a v E V. destruct (reachable_inv zero os s E) as (t & lk & I & _). apply (inv_denotes s t lk a v I) in V. destruct V as [Na Va0].
  pose proof (step_good zero s t lk (OCopyNew a) I) as G. unfold good in G. cbn [vstep] in G.
  assert (Va : vat (value t) a = Ok v) by (unfold vat; destruct a; [congruence|]; now rewrite Va0).
  rewrite Va in G. cbn [bind] in G. rewrite (frame_value s t lk I) in *. cbn [vpush] in G.
  destruct G as (s' & t' & new & E' & I' & V' & _). exists s', (length (akids t)). split; [exact E'|].
  assert (L : length (akids t) = length (map value (akids t))) by now rewrite map_length.
  split; [|split].
  - apply (inv_denotes s' t' _ _ v I'). split; [discriminate|]. rewrite V'. cbn. rewrite nth_error_app2, L, Nat.sub_diag by lia. reflexivity.
  - intros w W. apply (inv_denotes s t lk _ w I) in W. destruct W as [_ W]. rewrite (frame_value s t lk I) in W. cbn in W.
    destruct (nth_error (map value (akids t)) (length (akids t))) eqn:N; [|discriminate]. assert (nth_error (map value (akids t)) (length (akids t)) <> None) as X by congruence.
    apply nth_error_Some in X. lia.
  - intros b w W. apply (inv_denotes s t lk b w I) in W. destruct W as [Nb W0]. rewrite (frame_value s t lk I) in W0. apply (inv_denotes s' t' _ b w I').
    split; [exact Nb|]. rewrite V'. destruct b as [|i r]; [congruence|]. cbn in W0 |- *.
    destruct (nth_error (map value (akids t)) i) as [c|] eqn:N; [|discriminate]. rewrite nth_error_app1; [now rewrite N|]. apply nth_error_Some. congruence.
Qed.
Print Assumptions C118_copy.
(** What an operation does to one variable cannot be seen through any other. *)
Theorem C118_independent : forall (F : Type) (zero : F) os s o s' x a v, hrun zero hstart os = Ok s -> hstep zero s o = Ok s' ->
  ~ touches o x -> denotes s (x :: a) v -> denotes s' (x :: a) v.
Proof.
  intros F zero os s o s' x a v E St T V. destruct (reachable_inv zero os s E) as (t & lk & I & _).
  apply (inv_denotes s t lk _ v I) in V. destruct V as [_ V]. destruct (step_ok zero s t lk o s' I St) as (t' & new & I' & V').
  apply (inv_denotes s' t' _ _ v I'). split; [discriminate|]. exact (untouched zero _ _ o x a v V' T V).
Qed.
Print Assumptions C118_independent.
Example C118_ex : exists s, hrun tt hstart heap_ex = Ok s /\ reads (mem s) 0 heap_ex_value /\ denotes s [1; 0] (JInt 1) /\
  touches (F := unit) (OAssign [0; 0] (SInt 7)) 0 /\ ~ touches (F := unit) (OAssign [0; 0] (SInt 7)) 1.
Proof.
  destruct heap_ex_runs as [R V]. exists (final (hrun tt hstart heap_ex)). split; [exact R|].
  destruct (reachable_inv tt heap_ex _ R) as (t & lk & I & V' & _). rewrite V in V'. injection V' as V'. repeat split.
  - rewrite V', <- (proj1 (i_frame _ _ _ I)). apply tree_reads; apply I.
  - discriminate.
  - apply (proj2 (inv_denotes _ t lk [1; 0] (JInt 1) I)). split; [discriminate|]. rewrite <- V'. reflexivity.
  - cbn. discriminate.
Qed.
(** The source of a copy assignment inside the target is destroyed before it is read; a reference past the elements dangles. *)
Example C118_ub : vrun tt (JArr []) (heap_ex ++ [OCopy [0] [0; 1]]) = UB /\ hrun tt hstart (heap_ex ++ [OCopy [0] [0; 1]]) = UB /\
  hrun tt hstart (heap_ex ++ [OAssign [0; 7] (SInt 1)]) = UB.
Proof. vm_compute. repeat split. Qed.

(** C119.  Any program: no object is deleted twice, a deleted object is gone, what can be reached exists. *)
Theorem C119_deleted_once : forall (F : Type) (zero : F) os s, hrun zero hstart os = Ok s ->
  NoDup (deleted s) /\ (forall n, In n (deleted s) -> mem s n = None /\ ~ reach (mem s) 0 n) /\
  (forall n, reach (mem s) 0 n -> mem s n <> None) /\ (forall n, mem s n <> None -> n < next s).
Proof.
  intros F zero os s E. destruct (reachable_inv zero os s E) as (t & lk & I & _). pose proof (i_acct _ _ _ I) as A. repeat split.
  - apply (NoDup_count_occ Nat.eq_dec). intro n. specialize (A n). unfold cnt in A. destruct (n <? next s); lia.
  - apply (i_dead _ _ _ I). apply cnt_in in H. specialize (A n). destruct (n <? next s); lia.
  - intros R. apply (inv_reach s t lk n I) in R. apply cnt_in in R, H. specialize (A n). destruct (n <? next s); lia.
  - intros n R. apply (inv_reach s t lk n I) in R. apply (holds_live _ t); [apply I|exact R].
  - intros n M. destruct (Nat.lt_ge_cases n (next s)) as [L|G]; [exact L|]. destruct M. apply (i_dead _ _ _ I). specialize (A n).
    destruct (Nat.ltb_spec n (next s)); lia.
Qed.
Print Assumptions C119_deleted_once.
(** Each object has one owner: two different references denote two different objects. *)
Theorem C119_one_owner : forall (F : Type) (zero : F) os s a b n, hrun zero hstart os = Ok s -> leads (mem s) 0 a n -> leads (mem s) 0 b n -> a = b.
Proof.
  intros F zero os s a b n E A B. destruct (reachable_inv zero os s E) as (t & lk & I & _).
  apply (inv_leads s t lk a n I) in A as (u & Ga & Ra). apply (inv_leads s t lk b n I) in B as (w & Gb & Rb).
  apply (aget_unique t a b u w (inv_once _ _ _ I) Ga Gb). congruence.
Qed.
Print Assumptions C119_one_owner.
(** Without RemoveMember and without moves into a part of what is moved, every object made is in use or deleted; when the
    last variable is out of scope, all have been deleted.  Missing: the two operations below. *)
Theorem C119_no_leak_partial : forall (F : Type) (zero : F) os s, hrun zero hstart os = Ok s -> Forall keeps_owner os ->
  (forall n, n < next s -> reach (mem s) 0 n \/ In n (deleted s)) /\
  (mem s 0 = Some (HArr, []) -> forall n, 0 < n < next s -> In n (deleted s)).
Proof.
  intros F zero os s E K. destruct (reachable_inv zero os s E) as (t & lk & I & _ & L). specialize (L K). subst lk.
  assert (X : forall n, n < next s -> reach (mem s) 0 n \/ In n (deleted s)).
  { intros n H. pose proof (i_acct _ _ _ I n) as A. rewrite (proj2 (Nat.ltb_lt _ _) H), cnt_nil in A.
    destruct (Nat.eq_dec (cnt n (nodes t)) 0); [right; apply cnt_in; lia|left; apply (inv_reach s t [] n I), cnt_in; lia]. }
  split; [exact X|]. intros M n [P H]. destruct (X n H) as [R|D]; [|exact D]. exfalso.
  inversion R as [|? h ks c k E0 Ic _]; subst; [lia|]. rewrite M in E0. injection E0 as <- <-. destruct Ic.
Qed.
Print Assumptions C119_no_leak_partial.
Example C119_ex : let os := heap_ex ++ [OEnd 0; OEnd 0] in
  Forall keeps_owner os /\ hrun tt hstart os = Ok (final (hrun tt hstart os)) /\
  next (final (hrun tt hstart os)) = 17 /\ deleted (final (hrun tt hstart os)) = [10; 12; 11; 9; 8; 14; 16; 15; 13; 2; 4; 3; 1; 6; 7; 5] /\
  mem (final (hrun tt hstart os)) 0 = Some (HArr, []).
Proof.
  split; [|vm_compute; repeat split]. repeat constructor. cbn. intros (i & r & H). discriminate.
Qed.

(** RemoveMember forgets the member without deleting it: nothing the program does later deletes it. *)
Theorem C119_removed_member_leaks_refuted : forall (F : Type) (zero : F) os s a n names ks i k c,
  hrun zero hstart os = Ok s -> a <> [] -> leads (mem s) 0 a n -> mem s n = Some (HObj names, ks) ->
  nth_error names i = Some k -> nth_error ks i = Some c ->
  exists s1, hstep zero s (ORemove a k) = Ok s1 /\
  forall os' s', hrun zero s1 os' = Ok s' -> forall m, reach (mem s) c m -> leaked s' m /\ ~ In m (deleted s').
Proof.
  intros F zero os s a n names ks i k c E Na L M Nk Nc. destruct (reachable_inv zero os s E) as (t & lk & I & _).
  apply (inv_leads s t lk a n I) in L as (v & G & <-). pose proof (aget_holds _ _ _ _ (i_holds _ _ _ I) G) as Hv.
  rewrite (holds_root _ _ Hv) in M. injection M as Hh Hk. rewrite <- Hk, nth_map in Nc. destruct (nth_error (akids v) i) as [u|] eqn:Nu; [|discriminate]. injection Nc as <-.
  destruct (remove_leaks zero s t lk a k v names i u I Na G Hh Nk Nu) as (s1 & t1 & lk1 & E1 & I1 & K). exists s1. split; [exact E1|].
  intros os' s' R m Rm. apply (leaked_stays zero os' s1 t1 lk1 m s' I1); [|exact R]. apply K. apply (reach_nodes (mem s) u); [|exact Rm].
  apply (aget_holds (mem s) t (a ++ [i]) u (i_holds _ _ _ I)). rewrite aget_app, G. cbn. now rewrite Nu.
Qed.
Print Assumptions C119_removed_member_leaks_refuted.
Example C119_removed_ex : let os := heap_ex ++ [ORemove [0] (heap_key 97); OEnd 0; OEnd 0] in
  hrun tt hstart os = Ok (final (hrun tt hstart os)) /\ next (final (hrun tt hstart os)) = 17 /\ length (deleted (final (hrun tt hstart os))) = 10.
Proof. vm_compute. repeat split. Qed.

(** Moving an object into a part of itself: the target, and all that was moved, is never deleted. *)
Theorem C119_self_move_leaks_refuted : forall (F : Type) (zero : F) os s a t n m,
  hrun zero hstart os = Ok s -> a <> [] -> below a t -> leads (mem s) 0 a n -> leads (mem s) 0 t m ->
  exists s1, hstep zero s (OMove t a) = Ok s1 /\
  forall os' s', hrun zero s1 os' = Ok s' -> (leaked s' m /\ ~ In m (deleted s')) /\
  forall k, reach (mem s) n k -> k <> n -> ~ (reach (mem s) m k /\ k <> m) -> leaked s' k /\ ~ In k (deleted s').
Proof.
  intros F zero os s a t0 n m E Na (j & r & ->) La Lt. destruct (reachable_inv zero os s E) as (t & lk & I & _).
  apply (inv_leads s t lk a n I) in La as (w & Gb & <-). apply (inv_leads s t lk _ m I) in Lt as (v & G & <-).
  destruct (self_move_leaks zero s t lk a j r v w I Na G Gb) as (s1 & t1 & lk1 & E1 & I1 & K & Kv). exists s1. split; [exact E1|].
  intros os' s' R. split; [now apply (leaked_stays zero os' s1 t1 lk1 _ s' I1)|]. intros k Rk Nk Nr. apply (leaked_stays zero os' s1 t1 lk1 _ s' I1); [|exact R].
  pose proof (aget_holds _ _ _ _ (i_holds _ _ _ I) G) as Hv. pose proof (aget_holds _ _ _ _ (i_holds _ _ _ I) Gb) as Hw.
  apply (reach_nodes (mem s) w Hw) in Rk. apply K; auto. apply cnt_0. intros X. apply Nr. split.
  - apply (reach_nodes (mem s) v Hv). destruct v. now right.
  - intros ->. pose proof (once_aget _ _ _ (inv_once _ _ _ I) G (aroot v)) as O. apply cnt_in in X. destruct v as [m0 h0 l0]. cbn [nodes aroot akids] in *. rewrite cnt_cons, Nat.eqb_refl in O. lia.
Qed.
Print Assumptions C119_self_move_leaks_refuted.
Example C119_self_move_ex : let os := heap_ex ++ [OMove [0; 0; 1] [0]] in below [0] [0; 0; 1] /\
  hrun tt hstart os = Ok (final (hrun tt hstart os)) /\ mem (final (hrun tt hstart os)) 1 = Some (HNull, []) /\
  length (deleted (final (hrun tt hstart (os ++ [OEnd 0; OEnd 0])))) = 11.
Proof. split; [now exists 0, [1]|]. vm_compute. repeat split. Qed.

(** The end of a variable: the strings in it are left without their destructor having run. *)
Theorem C119_strings_refuted : forall (F : Type) (zero : F) os s x v, hrun zero hstart os = Ok s -> denotes s [x] v ->
  exists s', hstep zero s (OEnd x) = Ok s' /\ lost s' = lost s ++ strings_of v.
Proof.
  intros F zero os s x v E V. destruct (reachable_inv zero os s E) as (t & lk & I & _). apply (inv_denotes s t lk _ v I) in V. destruct V as [_ V].
  pose proof (end_spec zero s t lk x I) as S. rewrite (get_value t [x] (i_wf _ _ _ I)) in V. cbn in V.
  destruct (nth_error (akids t) x) as [c|] eqn:N; [|discriminate]. cbn in V. injection V as <-. destruct S as (s' & E' & _ & L). exists s'. split; [exact E'|].
  rewrite L. f_equal. apply strings_value. apply (aget_wf t [x]); [apply I|]. cbn. now rewrite N.
Qed.
Print Assumptions C119_strings_refuted.
Example C119_strings_ex : lost (final (hrun tt hstart (heap_ex ++ [OEnd 0; OEnd 0]))) = [heap_key 120; heap_key 120; heap_key 120; heap_key 120].
Proof. vm_compute. reflexivity. Qed.
