(** What is to become of the files of inline texts. *)
From stdpp Require Import prelude gmap.
From Verif Require Import Base Data CmdExec CmdSys.

(** Runs with the list of what happened. *)
Inductive runOf (o : xopts) : xsys -> list xevent -> xsys -> Prop :=
| ro_nil s : runOf o s [] s
| ro_snoc s es s1 w fuel files e s2 : runOf o s es s1 -> sysEvent o w fuel files e s1 = Some s2 -> runOf o s (es ++ [e]) s2.

(** An inline file of a command handed to executor [i], with or without KEEP. *)
Definition inlineOf (es : list xevent) (i : nat) (keep : bool) (text : qstr) : Prop :=
  exists t cs c f, XStart i t cs ∈ es /\ c ∈ cs /\ f ∈ c_inline c /\ if_keep f = keep /\ if_content f = text.

(** [a] is somewhere behind position [k]. *)
Definition later {A} (tr : list A) (k : nat) (a : A) : Prop := exists k', (k < k')%nat /\ tr !! k' = Some a.
(** [a] is somewhere before position [k]. *)
Definition earlier {A} (tr : list A) (k : nat) (a : A) : Prop := exists k', (k' < k)%nat /\ tr !! k' = Some a.
