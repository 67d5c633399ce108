(** C59: wildcards among the dependents. *)
From Coq Require Import Ascii String.
From stdpp Require Import prelude.
From Verif Require Import Base.
Local Open Scope N_scope.

(** A wildcard: an asterisk or a question mark that is not the name of a file name macro. Such macros are marked by a magic
    character for the dollar, with or without a parenthesis. *)
Definition wildcardAt (s : list N) (i : nat) : Prop :=
  (s !! i = Some (ch "*") \/ s !! i = Some (ch "?")) /\
  (forall k, i = S k -> s !! k <> Some magicEscape) /\
  (forall k, i = S (S k) -> ~ (s !! k = Some magicEscape /\ s !! S k = Some (ch "("))).

Definition slashes (s : qstr) : qstr := map (fun c => if decide (c = ch "\") then ch "/" else c) s.
Definition backslashed (s : qstr) : qstr := map (fun c => if decide (c = ch "/") then ch "\" else c) s.
(** A name that does not begin with a separator or a drive. *)
Definition relative (s : list N) : Prop := s !! 0%nat <> Some (ch "/") /\ s !! 1%nat <> Some (ch ":").
(** What can be the name of a file. *)
Definition fileName (n : qstr) : Prop := n <> [] /\ ch "/" ∉ n /\ ch "\" ∉ n /\ ch ":" ∉ n.
(** A file in a directory, as QDirIterator names it. *)
Definition pathOf (dir n : qstr) : qstr := if decide (last dir = Some (ch "/")) then dir ++ n else dir ++ ch "/" :: n.
(** [written s d pat]: the name is a pattern, if [d] is [None], or a pattern in the directory [d]. *)
Definition written (s : qstr) (d : option qstr) (pat : qstr) : Prop :=
  ch "/" ∉ pat /\ slashes s = match d with Some x => x ++ ch "/" :: pat | None => pat end.
(** [finds] is what the file system has: the names of the files in a directory that match a pattern, in any order. *)
Definition asked (glob : qstr -> qstr -> list qstr) (finds : qstr -> qstr -> list qstr) : Prop :=
  forall dir pat, glob dir pat = map (pathOf dir) (finds dir pat) /\ Forall fileName (finds dir pat).
Definition sameCase (a b : qstr) : Prop := foldCase a = foldCase b.
