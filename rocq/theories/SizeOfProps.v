(** Property C143: the sizes of types and values, and the widths of the named number types. *)
From Coq Require Import List NArith ZArith Bool Lia String.
From Verif Require Import CxxTypes Limits SizeOf.
Import ListNotations.
Local Open Scope Z_scope.

(** C143.  The bits are eight times the bytes, as long as they can be counted by a SizeType. *)
Theorem C143_bits_partial : forall sizes t n, 0 <= n < 2 ^ 61 -> SizeOf sizes t FByte = Some n -> SizeOf sizes t FBit = Some (8 * n).
Proof. intros sizes t n B H. cbn [SizeOf] in *. rewrite H. cbn [option_map]. f_equal. rewrite Z.mod_small; lia. Qed.
Print Assumptions C143_bits_partial.
(** An array of 2^61 characters has no bits. *)
Theorem C143_bits_refuted : exists t, forall sizes, SizeOf sizes t FByte = Some (2 ^ 61) /\ SizeOf sizes t FBit = Some 0.
Proof. exists (TArr (Some (2 ^ 61)%N) (TBase false false BChar)). intros. split; vm_compute; reflexivity. Qed.
Print Assumptions C143_bits_refuted.

(** Every integer type but bool uses all of its bits: it has as many values as bit patterns. *)
Theorem C143_integers : forall sizes c v b m n, ValueRange b = Some (m, n) -> (exists s k, number_of b = Some (NInt s k)) -> b <> BBool ->
  exists k, SizeOf sizes (TBase c v b) FBit = Some k /\ n - m + 1 = 2 ^ k.
Proof.
  intros sizes c v b m n H (s & k & K) B. unfold ValueRange, MinValue, MaxValue in H.
  destruct b; try discriminate K; try (exfalso; now apply B); cbn [number_of option_map limits_min limits_max] in H; injection H as <- <-;
    (eexists; split; [reflexivity|]); vm_compute; reflexivity.
Qed.
Print Assumptions C143_integers.

(** The names of the integer types with a width: exactly the integers of that many bits, stored in that many bits.  The
    names without a width are no wider than Int64 or UInt64. *)
Definition exact : list (string * (bool * Z)) :=
  [("SByte", (true, 8)); ("Byte", (false, 8)); ("Int8", (true, 8)); ("UInt8", (false, 8)); ("Int16", (true, 16)); ("UInt16", (false, 16));
   ("Int32", (true, 32)); ("UInt32", (false, 32)); ("Int64", (true, 64)); ("UInt64", (false, 64));
   ("Char16", (false, 16)); ("Char32", (false, 32)); ("CodePoint", (false, 32))]%string.
Definition bits_of (signed : bool) (k z : Z) : Prop := if signed then - 2 ^ (k - 1) <= z < 2 ^ (k - 1) else 0 <= z < 2 ^ k.
Lemma convert_signed k z : 0 < k -> (exists x, (x + 2 ^ k / 2) mod 2 ^ k - 2 ^ k / 2 = z) <-> - 2 ^ (k - 1) <= z < 2 ^ (k - 1).
Proof.
  intros K. assert (P : 0 < 2 ^ (k - 1)) by (apply Z.pow_pos_nonneg; lia).
  assert (T : 2 ^ k = 2 * 2 ^ (k - 1)) by (rewrite <- Z.pow_succ_r by lia; f_equal; lia).
  assert (D : 2 ^ k / 2 = 2 ^ (k - 1)) by (rewrite T, Z.mul_comm; now apply Z.div_mul). rewrite D. split.
  - intros (x & <-). pose proof (Z.mod_pos_bound (x + 2 ^ (k - 1)) (2 ^ k)). lia.
  - intros B. exists z. rewrite Z.mod_small; lia.
Qed.
Lemma convert_unsigned k z : 0 <= k -> (exists x, x mod 2 ^ k = z) <-> 0 <= z < 2 ^ k.
Proof.
  intros K. pose proof (Z.pow_pos_nonneg 2 k). split.
  - intros (x & <-). pose proof (Z.mod_pos_bound x (2 ^ k)). lia.
  - intros B. exists z. apply Z.mod_small. lia.
Qed.
Theorem C143_exact : forall sizes c v name s k, In (name, (s, k)) exact -> exists b, alias name = Some b /\
  (forall z, (exists x, convert_int b x = Some z) <-> bits_of s k z) /\ SizeOf sizes (TBase c v b) FBit = Some k.
Proof.
  intros sizes c v name s k H.
  assert (J : forall (f : Z -> Z) z, (exists x, Some (f x) = Some z) <-> exists x, f x = z).
  { intros f z. split; intros (x & X); exists x; [now injection X|now rewrite X]. }
  cbn [In exact] in H.
  repeat (destruct H as [H|H]; [injection H as <- <- <-; eexists; split; [reflexivity|]; split; [|reflexivity];
    intros z; unfold convert_int; cbn [number_of]; rewrite J; first [ apply (convert_signed 8); reflexivity | apply (convert_signed 16); reflexivity
      | apply (convert_signed 32); reflexivity | apply (convert_signed 64); reflexivity | apply (convert_unsigned 8); discriminate
      | apply (convert_unsigned 16); discriminate | apply (convert_unsigned 32); discriminate | apply (convert_unsigned 64); discriminate ]|]).
  destruct H.
Qed.
Print Assumptions C143_exact.

(** IntPtr and UIntPtr have room for every pointer; the two sizes are signed and unsigned. *)
Theorem C143_pointers : forall sizes c v t c' v', exists i u, alias "IntPtr" = Some i /\ alias "UIntPtr" = Some u /\
  SizeOf sizes (TPtr c v t) FBit = SizeOf sizes (TBase c' v' i) FBit /\ SizeOf sizes (TPtr c v t) FBit = SizeOf sizes (TBase c' v' u) FBit /\
  MinValue i = Some (- 2 ^ 63) /\ MinValue u = Some 0.
Proof. intros. exists BLong, BULong. repeat split. Qed.
Print Assumptions C143_pointers.

(** Every answer is a SizeType, whatever is asked. *)
Lemma sizeof_bound sizes t n : (forall e k m, sizes e k = Some m -> 0 < m < 2 ^ 63) -> sizeof sizes t = Some n -> 0 < n < 2 ^ 63.
Proof.
  intros S. revert n. induction t as [c v b|c v t IH|t IH|t IH|o t IH|r IH args]; cbn [sizeof]; intros n H.
  - destruct b; cbn [sizeof_base] in H; try discriminate; try (injection H as <-; lia); eapply S; eassumption.
  - injection H as <-. lia.
  - now apply IH.
  - now apply IH.
  - destruct o as [k|]; [|discriminate]. destruct (sizeof sizes t) as [e|]; [|discriminate]. specialize (IH e eq_refl).
    destruct (0 <? Z.of_N k) eqn:A; [|discriminate]. destruct (Z.of_N k * e <? 2 ^ 63) eqn:B; [|discriminate].
    apply Z.ltb_lt in A, B. injection H as <-. nia.
  - discriminate.
Qed.
Theorem C143_range : forall sizes t mf n, (forall e k m, sizes e k = Some m -> 0 < m < 2 ^ 63) -> SizeOf sizes t mf = Some n ->
  exists m, alias "SizeType" = Some BULong /\ MaxValue BULong = Some m /\ 0 <= n <= m /\ (mf = FByte -> 0 < n).
Proof.
  intros sizes t mf n S H. eexists. split; [reflexivity|]. split; [reflexivity|]. cbn [limits_max]. change (Z.of_N 64) with 64.
  destruct mf; cbn [SizeOf] in H.
  - destruct (sizeof sizes t) as [e|]; [|discriminate]. cbn [option_map] in H. injection H as <-.
    pose proof (Z.mod_pos_bound (e * 8) (2 ^ 64)). split; [lia|discriminate].
  - apply sizeof_bound in H; [|exact S]. split; [lia|intros _; lia].
Qed.
Print Assumptions C143_range.

(** An array has the bytes of its elements; a reference has the size of what it refers to; qualifiers do not count. *)
Theorem C143_array : forall sizes t n k, (0 < n)%N ->
  SizeOf sizes (TArr (Some n) t) FByte = Some k <-> exists e, SizeOf sizes t FByte = Some e /\ k = Z.of_N n * e /\ k < 2 ^ 63.
Proof.
  intros sizes t n k N. cbn [SizeOf sizeof]. assert (A : 0 <? Z.of_N n = true) by (apply Z.ltb_lt; lia). rewrite A. cbn [andb].
  destruct (sizeof sizes t) as [e|]; [|split; [discriminate|intros (e & E & _); discriminate]].
  destruct (Z.ltb_spec (Z.of_N n * e) (2 ^ 63)) as [B|B]; split.
  - intros H. injection H as <-. exists e. repeat split; lia.
  - intros (e' & E & -> & _). injection E as ->. reflexivity.
  - discriminate.
  - intros (e' & E & -> & L). injection E as ->. lia.
Qed.
Print Assumptions C143_array.
Lemma sizeof_qualify sizes c v t : sizeof sizes (qualify c v t) = sizeof sizes t.
Proof. induction t as [a b t|a b t IH|t IH|t IH|o t IH|r IH args]; cbn [qualify sizeof]; [reflexivity..| |reflexivity]. destruct o; [now rewrite IH|reflexivity]. Qed.
Lemma sizeof_without sizes c v t : sizeof sizes (without c v t) = sizeof sizes t.
Proof. induction t as [a b t|a b t IH|t IH|t IH|o t IH|r IH args]; cbn [without sizeof]; [reflexivity..| |reflexivity]. destruct o; [now rewrite IH|reflexivity]. Qed.
Theorem C143_reference : forall sizes t c v mf, SizeOf sizes (TLRef t) mf = SizeOf sizes t mf /\ SizeOf sizes (TRRef t) mf = SizeOf sizes t mf /\
  SizeOf sizes (qualify c v t) mf = SizeOf sizes t mf.
Proof. intros. destruct mf; cbn [SizeOf sizeof]; rewrite sizeof_qualify; repeat split. Qed.
Print Assumptions C143_reference.
(** Asking for a value is asking for its type: an array is not taken for a pointer. *)
Theorem C143_value : forall sizes t mf, SizeOf_value sizes t mf = SizeOf sizes t mf.
Proof.
  intros. assert (E : sizeof sizes (TLRef (qualify true false (deduced t))) = sizeof sizes t).
  { cbn [sizeof]. rewrite sizeof_qualify. unfold deduced. rewrite sizeof_without. destruct t; reflexivity. }
  destruct mf; cbn [SizeOf_value SizeOf]; now rewrite E.
Qed.
Print Assumptions C143_value.

Example C143_ex : let sizes := fun (_ : bool) (_ : nat) => Some 24 in
  SizeOf sizes (TBase true false BInt) FBit = Some 32 /\ SizeOf sizes (TArr (Some 5%N) (TBase false false (BClass 1))) FByte = Some 120 /\
  SizeOf_value sizes (TLRef (TArr (Some 3%N) (TBase true false BShort))) FBit = Some 48 /\ SizeOf sizes (TFun (TBase false false BInt) []) FByte = None /\
  ValueRange BShort = Some (-32768, 32767) /\ In ("Int16"%string, (true, 16)) exact.
Proof. cbn [exact In]. repeat split; try reflexivity. tauto. Qed.
