(** What is said about a whole run of jom. *)
From Coq Require Import Ascii String.
From stdpp Require Import prelude gmap.
From Verif Require Import Base Data Graph Exec ExecSpec Opts OptsSpec Env MkParse RulesSpec RulesProofs Front CmdExec Main.
Local Open Scope N_scope.

(** The arguments, with the flags from the environment in front of them. *)
Definition argumentsOf (u : outside) : list qstr :=
  let e := readSystemEnvironment (u_env u) in
  commandLineArguments (u_args u) (envValue (s2q "JOMFLAGS") e) (envValue (s2q "MAKEFLAGS") e).
(** The arguments say the options [is], macro definitions [ms] and targets [ts] (grammar of OptsSpec.v). *)
Definition says (u : outside) (is : list item) (ms : list (qstr * qstr)) (ts : list qstr) : Prop :=
  exists args, expandsArgs (u_cfiles u) (argumentsOf u) args /\ commandLine args is ms ts.

(** The rules of the makefile that was read: [mk], [serial], [sync] are made from them. *)
Definition madeFrom (rs : list prule) (b : building) : Prop :=
  nativeRules rs /\ exists fuel dir mk sync exts sfx irules sync' names,
    applyRules fuel rs (Mkfile ∅ None dir 0, false, []) = POk (mk, pd_serial (bd_parsed b), sync) /\
    finishParse exts sfx irules sync' mk (c_targets (bd_cl b)) = Ok (pd_mk (bd_parsed b), names).
(** .NOTPARALLEL is one of the targets. *)
Definition notParallel (rs : list prule) : Prop := exists r, r ∈ rs /\ s2q ".NOTPARALLEL" ∈ pr_targets r.
Global Instance notParallel_dec rs : Decision (notParallel rs).
Proof.
  refine (cast_if (decide (Exists (fun r => s2q ".NOTPARALLEL" ∈ pr_targets r) rs))); unfold notParallel;
    rewrite Exists_exists in *; [destruct e as (r & ? & ?); by exists r|intros (r & ? & ?); apply n; by exists r].
Defined.

(** jom ends with this exit code. *)
Definition jomEnds (u : outside) (n fuel : nat) (w : world) (at_ : nat -> moment) (code : N) : Prop :=
  mainStart u n fuel w = MReturns code \/
  exists es b s e, jomRun u n fuel w at_ es b s /\ e_end s = Some e /\ exitCode e = Some code.
