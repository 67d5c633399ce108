(** What it means for a target to be up to date, stated without the loops of UpToDate.v.
    Text of the code: dependencygraph.cpp:103-180. *)
From stdpp Require Import prelude gmap.
From Verif Require Import Base Data Infer UpToDate.
Local Open Scope N_scope.

(** The target a dependent's name stands for (makefile.h:160-174). *)
Definition blockOf (mk : mkfile) (d : qstr) : option block :=
  match mk_find mk d with Some k => mk_targets mk !! k | None => None end.

(** The time stamp of a dependent: the one recorded with the target of that name, otherwise that of the
    file; 0 is no time (filetime.cpp:34-52). *)
Definition hasStamp (sn : snap) (mk : mkfile) (d : qstr) (ts : N) : Prop :=
  ts <> 0 /\
  ((exists b, blockOf mk d = Some b /\ b_time b = ts) \/
   ((forall b, blockOf mk d = Some b -> b_time b = 0) /\ sn_stat sn d = Some ts)).

(** A target that has commands but for which no file has been seen. *)
Definition pseudoWithCommands (mk : mkfile) (d : qstr) : Prop :=
  exists b, blockOf mk d = Some b /\ b_exists b = false /\ b_cmds b <> [].

(** The dependents that count as modified now. *)
Definition countsAsNow (sn : snap) (mk : mkfile) (d : qstr) : Prop :=
  pseudoWithCommands mk d \/ forall ts, ~ hasStamp sn mk d ts.

(** The target's own file: seen now or before, with its time (dependencygraph.cpp:105-109). *)
Definition fileSeen (sn : snap) (b : block) : Prop := sn_stat sn (b_name b) <> None \/ b_exists b = true.
Definition fileTime (sn : snap) (b : block) : N :=
  match sn_stat sn (b_name b) with Some t => t | None => b_time b end.

(** No dependent in the list is newer than [tm]. *)
Definition noneNewer (sn : snap) (mk : mkfile) (deps : list qstr) (tm : N) : Prop :=
  forall d, d ∈ deps ->
    (countsAsNow sn mk d -> sn_now sn <= tm) /\
    (~ pseudoWithCommands mk d -> forall ts, hasStamp sn mk d ts -> ts <= tm).

(** What the code really compares: the first dependent that counts as modified now ends the search and
    the time stamps seen before it are forgotten. *)
Definition noneNewerCode (sn : snap) (mk : mkfile) (deps : list qstr) (tm : N) : Prop :=
  ((exists d, d ∈ deps /\ countsAsNow sn mk d) -> sn_now sn <= tm) /\
  ((forall d, d ∈ deps -> ~ countsAsNow sn mk d) ->
   forall d ts, d ∈ deps -> hasStamp sn mk d ts -> ts <= tm).

(** The files that rules not yet applied would add as dependents. *)
Definition inferredFile (sn : snap) (b : block) (d : qstr) : Prop :=
  (exists r, r ∈ b_rules b /\ d = inferredDependent r (b_name b)) /\ sn_stat sn d <> None.

(** All that has to be compared with the target. *)
Definition allDeps (sn : snap) (b : block) (ds : list qstr) : Prop :=
  forall d, d ∈ ds <-> d ∈ b_deps b \/ inferredFile sn b d.

(** A target is not its own dependent. *)
Definition notOwnDependent (sn : snap) (mk : mkfile) (t : tid) (b : block) : Prop :=
  forall d, d ∈ b_deps b \/ inferredFile sn b d -> mk_find mk d <> Some t.
