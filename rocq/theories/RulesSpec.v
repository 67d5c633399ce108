(** Names of targets, sequences of rules, .SYNC. *)
From Coq Require Import Ascii String.
From stdpp Require Import prelude.
From Verif Require Import Base Data FileMacros MkParse.
Local Open Scope N_scope.

(** An upper-case letter (Latin-1) and its lower-case letter. *)
Definition casePair (u l : N) : Prop := l = u + 32 /\ (65 <= u <= 90 \/ (192 <= u <= 222 /\ u <> 215)).
(** Characters that mean the same in the name of a target. *)
Inductive sameChar : N -> N -> Prop :=
| sc_eq c : sameChar c c
| sc_lower u l : casePair u l -> sameChar u l
| sc_upper u l : casePair u l -> sameChar l u
| sc_slash : sameChar 47 92
| sc_backslash : sameChar 92 47.
Definition sameName (a b : list N) : Prop := Forall2 sameChar a b.
(** Names as the parser makes them: without slashes. *)
Definition native (n : list N) : Prop := 47 ∉ n.

(** The occurrences of targets in a sequence of rules. *)
Definition special (n : qstr) : Prop := n = s2q ".NOTPARALLEL".
Definition uses (rs : list prule) : list (qstr * prule) :=
  flat_map (fun r => map (fun n => (n, r)) (filter (fun n => n <> s2q ".NOTPARALLEL") (pr_targets r))) rs.
(** Those of one target. *)
Inductive usesOf (t : list N) : list (qstr * prule) -> list prule -> Prop :=
| uo_nil : usesOf t [] []
| uo_yes n r us rs : sameName t n -> usesOf t us rs -> usesOf t ((n, r) :: us) (r :: rs)
| uo_no n r us rs : ~ sameName t n -> usesOf t us rs -> usesOf t ((n, r) :: us) rs.

(** A dependent after one or more expansions of the file name macros in it. *)
Inductive expandsTo (target : qstr) (d d' : qstr) : Prop :=
| et_once fuel deps tm : expandName target deps tm fuel None true d = Some (FOk d') -> expandsTo target d d'
| et_again fuel deps tm e : expandName target deps tm fuel None true d = Some (FOk e) -> expandsTo target e d' -> expandsTo target d d'.

(** The commands of a target, given those of its rules: all of them, or the first ones. *)
Inductive firstCommands : list (list command) -> list command -> Prop :=
| fc_none : firstCommands [] []
| fc_skip l cs : firstCommands l cs -> firstCommands ([] :: l) cs
| fc_first c cs l : firstCommands ((c :: cs) :: l) (c :: cs).

Definition acsOf (d : bool) : acs := if d then ACSEnabled else ACSDisabled.
(** What is known of a target after the rules [rs] for it. *)
Definition blockFor (b : block) (rs : list prule) : Prop :=
  (exists r0 rs', rs = r0 :: rs' /\ b_acs b = acsOf (pr_double r0) /\ Forall (fun r => pr_double r = pr_double r0) rs' /\
    (if pr_double r0 then b_cmds b = concat (map pr_cmds rs) else firstCommands (map pr_cmds rs) (b_cmds b))) /\
  Forall2 (expandsTo (b_name b)) (concat (map pr_deps rs)) (b_deps b).

(** A rule without .SYNC. *)
Definition strip (r : prule) : prule :=
  Prule (pr_double r) (pr_targets r) (filter (fun d => d <> s2q ".SYNC") (pr_deps r)) (pr_cmds r).
(** A list of dependents with .SYNC between groups. *)
Fixpoint withSync (g : list qstr) (gs : list (list qstr)) : list qstr :=
  match gs with [] => g | g' :: gs' => g ++ s2q ".SYNC" :: withSync g' gs' end.
(** The name [d] is to wait for [x]: they are in successive groups. *)
Definition waits (g : list qstr) (gs : list (list qstr)) (d x : qstr) : Prop :=
  exists k a b, (g :: gs) !! k = Some a /\ (g :: gs) !! S k = Some b /\ x ∈ a /\ d ∈ b.
