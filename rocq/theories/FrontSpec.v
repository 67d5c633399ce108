(** Dependency cycles as the makefile spells them. *)
From stdpp Require Import prelude gmap relations.
From Verif Require Import Base Data Infer Front.

(** [x] lists a name that stands for [y], makefile.h:160-174. *)
Definition edge (mk : mkfile) (x y : tid) : Prop :=
  exists b d, mk_targets mk !! x = Some b /\ d ∈ b_deps b /\ mk_find mk d = Some y.

(** Following dependents from [t] one comes to a target that depends on itself. *)
Definition cycleReachable (mk : mkfile) (t : tid) : Prop :=
  exists x, rtc (edge mk) t x /\ tc (edge mk) x x.

(** No dependent carries double quotes. (The parser strips them, parser.cpp:297-305, unless they are
    doubled.) *)
Definition plainDeps (mk : mkfile) : Prop :=
  forall t b d, mk_targets mk !! t = Some b -> d ∈ b_deps b -> removeDoubleQuotes d = d.

(** What parsing guarantees: a makefile with targets has a first target. *)
Definition hasFirst (mk : mkfile) : Prop :=
  mk_targets mk <> ∅ -> exists t b, mk_first mk = Some t /\ mk_targets mk !! t = Some b /\ keyOf (b_name b) = t.

(** The targets asked for. *)
Definition asksFor (mk : mkfile) (active : list qstr) (t : tid) : Prop :=
  (active = [] /\ mk_first mk = Some t) \/ exists n, n ∈ active /\ mk_find mk n = Some t.
