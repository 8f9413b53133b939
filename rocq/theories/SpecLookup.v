(** What it means that an operator can be used everywhere its operands can, apart from the lookup itself. *)
From Coq Require Import String List.
From Verif Require Import Lookup.
Import ListNotations.

(** [inner] is [outer] or lies in it *)
Definition encloses (outer inner : ns) : Prop := exists names, inner = names ++ outer.
(** The declarations [ds] give a namespace [sp] an operator of this name of its own *)
Definition has_own (ds : list decl) (o : string) (sp : ns) : Prop :=
  exists d, In d ds /\ d_op d = o /\ d_place d = Space sp.
(** Between the site and the global namespace some namespace has its own operator of this name *)
Definition hidden (s : site) (o : string) : Prop :=
  exists sp, sp <> [] /\ encloses sp (s_space s) /\ has_own (s_before s) o sp.
(** Both operands are of types that have nothing to do with the global namespace *)
Definition from_namespaces (l r : ctype) : Prop := ~ In [] (associated l) /\ ~ In [] (associated r).
(** The expression l @ r can use some operator function *)
Definition works (s : site) (o : string) (l r : ctype) : Prop := exists d, In d (usable s o l r).
