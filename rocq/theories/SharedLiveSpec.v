(** What C62 is about: jom processes that share a job server and wait for each other. *)
From stdpp Require Import prelude gmap.
From Verif Require Import Base Data Graph Exec ExecSpec Jobs JobsSpec.

(** One of the processes can do something, or a command that is not a jom process itself ends. Commands that jom does
    not watch any more do not count. *)
Definition goesOn (m : mst) : Prop :=
  exists i e m', (forall k, e <> EvGone k) /\ mstep m (MOwn i e) = Some m'.

(** Every command built into jom has an exit code. *)
Definition builtinsEnd (c : cfg) : Prop := forall x l, k_kind c x = KBuiltin l -> l <> [].

(** jom watches all commands of the process: none ended with the exit code that means "still running", and none has followed
    another one after jom had stopped waiting for that (C04_refuted). *)
Definition allWatched (p : inst) : Prop := forall j, j ∈ e_jobs (i_s p) -> j_state j = JWatched.

(** The process has given up after a failure and waits for its commands. *)
Definition givenUp (p : inst) : bool := alive p && e_aborted (i_s p).
