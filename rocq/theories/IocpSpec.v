(** C60: results of reads and the channels they are handed to; stated about what happens only. *)
From stdpp Require Import prelude.
From Verif Require Import Base Iocp.

(** Reads that were started for a channel, and results of them that were dealt with. *)
Definition readOf (c : nat) (l : label) : nat := match l with LRead c' _ => if decide (c' = c) then 1 else 0 | _ => 0 end.
Definition doneOf (c : nat) (l : label) : nat :=
  match l with LNotify c' _ _ _ | LIgnored c' _ _ => if decide (c' = c) then 1 else 0 | _ => 0 end.
Definition total (f : label -> nat) (t : list label) : nat := sum_list (map f t).
(** No process failed to start, and whenever a channel is registered, all its reads have been dealt with. *)
Definition settled (t : list label) : Prop :=
  (forall c, LFailed c ∉ t) /\ forall a c b, t = a ++ LRegister c :: b -> total (readOf c) a = total (doneOf c) a.
(** What a process wrote and what the channel was given of it. *)
Definition wrote (c r : nat) (l : label) : list N := match l with LWrite c' r' d => if decide (c' = c /\ r' = r) then d else [] | _ => [] end.
Definition given (c r : nat) (l : label) : list N := match l with LNotify c' r' _ d => if decide (c' = c /\ r' = r) then d else [] | _ => [] end.
Definition all (f : label -> list N) (t : list label) : list N := concat (map f t).
(** The channel is registered at the end. *)
Definition registered (t : list label) (c : nat) : Prop :=
  exists a b, t = a ++ LRegister c :: b /\ LUnregister c ∉ b /\ LDestroy c ∉ b.
