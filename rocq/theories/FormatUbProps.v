(** Final theorems: exactly when Format returns, throws, or has undefined behaviour. *)
From Coq Require Import List NArith ZArith Lia.
From Verif Require Import Outcome StrModel Format SpecUtf8 SpecChar SpecStr SpecFormat FormatProofs SpecFormatUb FormatUbProofs FormatProps.
Import ListNotations.
Local Open Scope N_scope.

(** C37 *)
Theorem C37_undefined_exactly : forall args t,
  Forall text args -> (Z.of_nat (length args) < 2 ^ 64)%Z -> text t ->
  (format t args = UB <-> undefined (length args) 0 t).
Proof. intros args t TA L T. now apply format_undefined_iff. Qed.
Print Assumptions C37_undefined_exactly.
Theorem C37_returns_exactly : forall args t,
  Forall text args -> (Z.of_nat (length args) < 2 ^ 64)%Z -> text t ->
  ((exists r, format t args = Ok r) <-> completes (length args) 0 t).
Proof. intros args t TA L T. now apply format_completes_iff. Qed.
Print Assumptions C37_returns_exactly.
Theorem C37_throws_exactly : forall args t,
  Forall text args -> (Z.of_nat (length args) < 2 ^ 64)%Z -> text t ->
  ((exists e, format t args = Throw e) <-> ~ completes (length args) 0 t /\ ~ undefined (length args) 0 t).
Proof. intros args t TA L T. now apply format_throws_iff. Qed.
Print Assumptions C37_throws_exactly.

(** {}{0:5} with one argument and with two is carried out; {}{}{0:5} with two reads past the arguments
    ({0:5} formats the next argument of {}). *)
Lemma nd_empty : no_digit []. Proof. exact I. Qed.
Lemma read5 : readable [[0x35]].
Proof.
  assert (N : digit [0x35]) by (exists 5; split; [lia|]; exists 0x30; split; [now left|reflexivity]).
  apply (rd_plain _ [[0x35]] []); [apply aa_none; [intros [[| |] E]; discriminate|exact I]| |discriminate].
  apply (an_some _ _ [[0x35]] [] 5); [repeat split; repeat constructor; exact N|discriminate| |lia].
  exists [5], []. repeat split; [discriminate|repeat constructor; lia].
Qed.
Lemma zero_index n : index_accepted n [[0x30]].
Proof.
  exists 0. split; [|destruct n; [right; split; [reflexivity|lia]|left; lia]].
  exists [0], []. repeat split; [discriminate|repeat constructor; lia].
Qed.
Lemma zero_then g : no_digit g -> digits_then ([0x30] :: g) [[0x30]] g.
Proof.
  intros G. split; [reflexivity|]. split; [|exact G]. constructor; [|constructor].
  exists 0. split; [lia|]. exists 0x30. split; [now left|reflexivity].
Qed.
Example C37_ex_completes : completes 2 0 (ascii [123; 125; 123; 48; 58; 53; 125]) /\
  format (ascii [123; 125; 123; 48; 58; 53; 125]) [ascii [97]; ascii [98]] = Ok (ascii [97; 98; 32; 32; 32; 32]).
Proof.
  split; [|reflexivity].
  apply (cm_pass 2 0 1 [] (ascii [123; 48; 58; 53; 125])); [split; [discriminate|intros []]|apply ps_next; [lia|lia|exact I|discriminate]|].
  apply (cm_pass 2 1 1 (ascii [48; 58; 53]) []); [split; [discriminate|cbn; intuition discriminate]| |constructor].
  apply (ps_pos_spec 2 1 _ [[0x30]] [[0x35]]); [|discriminate|apply zero_index|exact read5|lia].
  apply zero_then. intros D. now apply digits_colon in D.
Qed.
Example C37_ex_undefined : undefined 2 0 (ascii [123; 125; 123; 125; 123; 48; 58; 53; 125]) /\
  format (ascii [123; 125; 123; 125; 123; 48; 58; 53; 125]) [ascii [97]; ascii [98]] = UB.
Proof.
  split; [|reflexivity].
  apply (un_pass 2 0 1 [] (ascii [123; 125; 123; 48; 58; 53; 125])); [split; [discriminate|intros []]|apply ps_next; [lia|lia|exact I|discriminate]|].
  apply (un_pass 2 1 2 [] (ascii [123; 48; 58; 53; 125])); [split; [discriminate|intros []]|apply ps_next; [lia|lia|exact I|discriminate]|].
  apply (un_here 2 2 (ascii [48; 58; 53]) []); [split; [discriminate|cbn; intuition discriminate]|].
  apply (uf_pos_spec 2 2 _ [[0x30]] [[0x35]]); [|discriminate|apply zero_index|exact read5|lia].
  apply zero_then. intros D. now apply digits_colon in D.
Qed.
Example C37_ex_throws : format (ascii [123; 57; 125]) [ascii [97]] = Throw EFormatError /\
  format (ascii [123; 58; 57; 57; 57; 57; 57; 57; 57; 57; 57; 57; 57; 57; 57; 57; 57; 57; 57; 57; 57; 57; 57; 125]) [ascii [97]] = Throw EOutOfRange.
Proof. split; reflexivity. Qed.
