(** What is said about handles of processes, on the history alone. *)
From stdpp Require Import prelude gmap.
From Verif Require Import Handles.

(** The handle is made and not closed (jomprocess.cpp:79-85). *)
Definition neverClosed (l : list hev) (h : nat) : Prop := (exists b, HOpen h b ∈ l) /\ HClose h ∉ l.
(** All pipes can be read and all processes created (jomprocess.cpp:364, 387). *)
Definition noFailure (es : list hevent) : Prop := forall i a, EStart i a ∈ es -> a = Answer true true.
(** A command that cannot be started directly: then the shell is started with it (commandexecutor.cpp:211-252), which ends. *)
Definition failThenShell (i : nat) : list hevent := [EStart i (Answer true false); EStart i (Answer true true); EFinished i].
(** [n] such commands one after the other (commandexecutor.cpp:211-252). *)
Fixpoint rounds (n i : nat) : list hevent := match n with 0 => [] | S m => failThenShell i ++ rounds m i end.
