(** What is said about the things jom starts with: environment, predefined macros, job server. *)
From Coq Require Import Ascii String.
From stdpp Require Import prelude gmap.
From Verif Require Import Base EnvSpec OptsSpec.
Local Open Scope N_scope.

(** A line of the environment says that a variable has a value: the name ends at the first equals sign (which may be the first
    character, as in the variables cmd.exe keeps for directories of drives). *)
Definition saysVariable (l k v : qstr) : Prop := l = k ++ [ch "="] ++ v /\ ch "=" ∉ k.
(** The last line for a variable counts; large and small letters are not distinguished. *)
Definition variableIs (lines : list qstr) (name v : qstr) : Prop :=
  exists l1 l l2 k, lines = l1 ++ [l] ++ l2 /\ saysVariable l k v /\ sameVar k name /\
    forall l' k' v', l' ∈ l2 -> saysVariable l' k' v' -> ~ sameVar k' name.
(** No line is for this variable. *)
Definition noVariable (lines : list qstr) (name : qstr) : Prop := forall l k v, l ∈ lines -> saysVariable l k v -> ~ sameVar k name.
(** A path as it stands in a macro: in double quotes if there is white space in it. *)
Definition pathText (p v : qstr) : Prop :=
  ((exists c, c ∈ p /\ isSpace c = true) /\ v = [34] ++ p ++ [34]) \/ ((forall c, c ∈ p -> isSpace c = false) /\ v = p).
