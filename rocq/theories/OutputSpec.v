(** What is said about the output of commands, in terms of what can be seen of an execution. *)
From stdpp Require Import prelude.
From Verif Require Import Output.
Local Open Scope N_scope.

(** Bytes that have come to jom for channel c of executor e, with the time, in order: read from the child or written
    by jom itself. *)
Definition handed1 (e : nat) (c : chan) (l : label) : option item :=
  match l with
  | LRead e' c' d t | LOwn e' c' d t => if decide (e' = e /\ c' = c) then Some (mkItem t d) else None
  | _ => None
  end.
Definition handed (e : nat) (c : chan) (ls : list label) : list item := omap (handed1 e c) ls.

(** Bytes that have been printed for channel c of executor e. *)
Definition printed1 (e : nat) (c : chan) (l : label) : option item :=
  match l with
  | LPrint e' c' d t _ => if decide (e' = e /\ c' = c) then Some (mkItem t d) else None
  | _ => None
  end.
Definition printed (e : nat) (c : chan) (ls : list label) : list item := omap (printed1 e c) ls.

(** The times of the bytes that have been printed for executor e, both channels together. *)
Definition printTime (e : nat) (l : label) : option N :=
  match l with LPrint e' _ _ t _ => if decide (e' = e) then Some t else None | _ => None end.
Definition printTimes (e : nat) (ls : list label) : list N := omap (printTime e) ls.
Definition ordered (l : list N) : Prop := forall i j x y, (i < j)%nat -> l !! i = Some x -> l !! j = Some y -> x <= y.

(** Bytes the children of executor e have written to channel c, and those that jom has read or dropped. *)
Definition written1 (e : nat) (c : chan) (l : label) : bytes :=
  match l with LWrite e' c' d => if decide (e' = e /\ c' = c) then d else [] | _ => [] end.
Definition written (e : nat) (c : chan) (ls : list label) : bytes := flat_map (written1 e c) ls.
Definition taken1 (e : nat) (c : chan) (l : label) : bytes :=
  match l with
  | LRead e' c' d _ => if decide (e' = e /\ c' = c) then d else []
  | LDrop e' o r => if decide (e' = e) then match c with Stdout => o | Stderr => r end else []
  | _ => []
  end.
Definition taken (e : nat) (c : chan) (ls : list label) : bytes := flat_map (taken1 e c) ls.
(** No bytes were dropped. *)
Definition nothingDropped (ls : list label) : Prop := forall e o r, LDrop e o r ∈ ls -> o = [] /\ r = [].
(** Bytes jom has read. *)
Definition read1 (e : nat) (c : chan) (l : label) : bytes :=
  match l with LRead e' c' d _ => if decide (e' = e /\ c' = c) then d else [] | _ => [] end.
Definition read (e : nat) (c : chan) (ls : list label) : bytes := flat_map (read1 e c) ls.

(** Printed in the k-th call of printBufferedOutput. *)
Definition flushed1 (k e : nat) (c : chan) (l : label) : option item :=
  match l with
  | LPrint e' c' d t (Flushed k') => if decide (e' = e /\ c' = c /\ k' = k) then Some (mkItem t d) else None
  | _ => None
  end.
Definition flushed (k e : nat) (c : chan) (ls : list label) : list item := omap (flushed1 k e c) ls.

(** What may be printed between two pieces of the k-th printing, which is one for executor e: more of it, or direct output of
    another executor. *)
Definition mayComeBetween (k e : nat) (l : label) : Prop :=
  match l with
  | LPrint e' _ _ _ (Flushed k') => k' = k /\ e' = e
  | LPrint e' _ _ _ Direct => e' <> e
  | _ => True
  end.

(** Writes its output directly. *)
Definition directWriter (s : st) (e : nat) : Prop := p_active (procs s e) = true /\ p_buffered (procs s e) = false.
(** Everything is over: the executors have been destroyed. *)
Definition over (s : st) : Prop := quitting s = true /\ code s = [].
