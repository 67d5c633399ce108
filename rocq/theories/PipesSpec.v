(** What C63 is about: the two ends of a pipe. *)
From stdpp Require Import prelude gmap.
From Verif Require Import Pipes.
Local Open Scope N_scope.

(** What other programs can do between two calls: jom's pipes stay under their names, others may come and go, somebody may
    connect. *)
Definition meanwhile (w w' : pworld) : Prop :=
  forall name k b, w !! name = Some (Own k, b) -> exists b', w' !! name = Some (Own k, b') /\ (b' = true -> b = true).

(** The circumstances of a call: at least one and at most 1000 attempts, all but the last with names in use, and what there is when
    the other end is opened follows from what there was. *)
Definition circumstances (ts : list attempt) (k : nat) (w2 : pworld) : Prop :=
  ts <> [] /\ (length ts <= 1000)%nat /\
  match last ts with
  | Some t => match t_before t !! t_random t with
              | None => meanwhile (<[t_random t := (Own k, true)]> (t_before t)) w2
              | Some _ => length ts = 1000%nat /\ meanwhile (t_before t) w2
              end
  | None => False
  end /\
  Forall (fun t => is_Some (t_before t !! t_random t) /\ t_fails t = false) (removelast ts).

(** Some name was not in use. *)
Definition someFree (ts : list attempt) : Prop := exists t, t ∈ ts /\ t_before t !! t_random t = None.
