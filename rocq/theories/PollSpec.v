(** C61: the reports of the ends of processes; stated about what happens only. *)
From stdpp Require Import prelude.
From Verif Require Import Poll.
Local Open Scope Z_scope.

(** The process was started last and has not been reported to have ended. *)
Definition isStart (e : pevent) : bool := match e with EStart _ => true | _ => false end.
Definition isFinished (e : pevent) : bool := match e with EFinished _ _ => true | _ => false end.
Definition isPoke (e : pevent) : bool := match e with EPoke => true | _ => false end.
Definition runs (t : list pevent) (k : nat) : Prop :=
  exists a b, t = a ++ EStart k :: b /\ Forall (fun e => isStart e = false /\ isFinished e = false) b.
(** Nothing runs: every process started was reported to have ended. *)
Definition quiet (t : list pevent) : Prop := forall k, EStart k ∈ t -> exists c, EFinished k c ∈ t.
Definition count (f : pevent -> bool) (t : list pevent) : nat := List.length (List.filter f t).
