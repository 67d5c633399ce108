(** What C08 is about: commands that are not themselves jom processes. *)
From stdpp Require Import prelude gmap.
From Verif Require Import Base Data Graph Exec ExecSpec Jobs.

(** The commands being run: process number and executor number. *)
Definition slots (m : mst) : list (nat * nat) :=
  concat (imap (fun i p => map (fun j => (i, j_exec j)) (e_jobs (i_s p))) (m_insts m)).
(** ... that are not jom processes themselves. *)
Definition leaves (m : mst) : list (nat * nat) := base.filter (fun x => x ∉ kids m) (slots m).

Definition spawnOk (ev : mevent) : Prop :=
  match ev with MSpawn _ _ c mk _ => startable (k_o c) mk | _ => True end.

(** The processes sharing a job server for n jobs, after the given events. *)
Definition sharedRun (n : nat) (c : cfg) (mk : mkfile) (names : list qstr) (evs : list mevent) (m : mst) : Prop :=
  startable (k_o c) mk /\ (forall ev, ev ∈ evs -> spawnOk ev)
  /\ exists m0, mstart n c mk names = Some m0 /\ mrun m0 evs = Some m.

(** A process that has ended holds no tokens and has left no command running. *)
Definition cleanEnd (p : inst) : Prop := e_end (i_s p) = None \/ (e_net (i_s p) = 0%Z /\ e_jobs (i_s p) = []).

(** Tokens held by all processes. *)
Definition held (m : mst) : Z := foldr (fun p z => (e_net (i_s p) + z)%Z) 0%Z (m_insts m).
