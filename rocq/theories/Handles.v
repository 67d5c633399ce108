(** The Windows handles of the processes jom starts: jomprocess.cpp:57-85, 114-146, 166-175, 283-409, 423-444. *)
From stdpp Require Import prelude gmap.
From RecordUpdate Require Import RecordSet.
Import RecordSetNotations.

(** The variables that hold handles (jomprocess.cpp:74-75 Pipe::hWrite and hRead of 136-138 stdoutPipe, stderrPipe, stdinPipe;
    134-135 hProcess, hProcessThread). *)
Inductive slot := InR | InW | OutR | OutW | ErrR | ErrW | HProc | HThread.
Global Instance slot_dec : EqDecision slot. Proof. solve_decision. Defined.
(** A number for each of them, so that they can be keys (jomprocess.cpp:134-138). *)
Definition slotNumber (x : slot) : nat :=
  match x with InR => 0 | InW => 1 | OutR => 2 | OutW => 3 | ErrR => 4 | ErrW => 5 | HProc => 6 | HThread => 7 end.
Definition slotOf (n : nat) : slot :=
  match n with 0 => InR | 1 => InW | 2 => OutR | 3 => OutW | 4 => ErrR | 5 => ErrW | 6 => HProc | _ => HThread end.
Global Instance slot_countable : Countable slot.
Proof. refine (inj_countable' slotNumber slotOf _). by intros []. Defined.

(** What is seen by Windows: a handle is made (inheritable or not) and closed; CreateProcess is called for the process object
    [i] with standard handles [std] (jomprocess.cpp:371-376), the child gets all inheritable handles that are open (387-389, fifth
    argument). *)
Inductive hev := HOpen (h : nat) (inheritable : bool) | HClose (h : nat) | HCreate (i : nat) (std : list nat) (inherited : gset nat) (ok : bool).

(** All process objects together, one for each executor (commandexecutor.h:79): the values of their variables other than
    INVALID_HANDLE_VALUE, which of them have m_state == Running, the open handles of jom (true: inheritable), the next
    handle Windows makes, the history. Simplification: Windows makes no handle a second time. *)
Record hstate := Hstate {
  h_slots : gmap (nat * slot) nat;
  h_running : gset nat;
  h_open : gmap nat bool;
  h_next : nat;
  h_log : list hev;
}.
#[export] Instance eta_hstate : Settable _ := settable! Hstate <h_slots; h_running; h_open; h_next; h_log>.

(** CreateNamedPipe, CreateFile, CreateProcess: a new handle is put into a variable, whatever was in it before
    (jomprocess.cpp:341-342, 406-407). *)
Definition openInto (k : nat * slot) (inheritable : bool) (s : hstate) : hstate :=
  let h := h_next s in
  s <| h_slots ::= <[k := h]> |> <| h_open ::= <[h := inheritable]> |> <| h_next := S h |> <| h_log ::= fun l => l ++ [HOpen h inheritable] |>.

(** jomprocess.cpp:79-85 safelyCloseHandle. *)
Definition safelyClose (k : nat * slot) (s : hstate) : hstate :=
  match h_slots s !! k with
  | Some h => s <| h_slots ::= delete k |> <| h_open ::= delete h |> <| h_log ::= fun l => l ++ [HClose h] |>
  | None => s
  end.

(** jomprocess.cpp:283-345 setupPipe for a pipe that can be made; [input]: PipeType InputPipe. The read end is inheritable
    for an input pipe (299), the write end for an output pipe (323). Simplifications: names that are in use and the at most
    1000 attempts are left out; when a pipe cannot be made jom is aborted (355-360 qFatal), such runs end here. *)
Definition setupPipe (i : nat) (r w : slot) (input : bool) (s : hstate) : hstate :=
  openInto (i, w) (negb input) (openInto (i, r) input s).

(** What Windows answers: whether the reading of both output pipes can be started (jomprocess.cpp:364), whether the process can be created (387). *)
Record answer := Answer { a_read : bool; a_create : bool }.

(** jomprocess.cpp:355-360: the three pipes of a start. *)
Definition pipes (i : nat) (s : hstate) : hstate := setupPipe i ErrR ErrW false (setupPipe i OutR OutW false (setupPipe i InR InW true s)).
(** jomprocess.cpp:371-389: CreateProcess is called. *)
Definition created (i : nat) (ok : bool) (s : hstate) : hstate :=
  s <| h_log ::= fun l => l ++ [HCreate i (omap (fun x => h_slots s !! (i, x)) [InR; OutW; ErrW]) (dom (filter (fun p => p.2 = true) (h_open s))) ok] |>.
(** jomprocess.cpp:406-407: the handles of the new process. *)
Definition twoOpen (i : nat) (s : hstate) : hstate := openInto (i, HThread) false (openInto (i, HProc) false s).
(** jomprocess.cpp:398-407: what follows when the process has been created. *)
Definition started (i : nat) (s : hstate) : hstate :=
  safelyClose (i, ErrW) (safelyClose (i, OutW) (safelyClose (i, InW) (safelyClose (i, InR) (twoOpen i s)))).
(** jomprocess.cpp:347-409 Process::start. *)
Definition procStart (i : nat) (a : answer) (s : hstate) : hstate :=
  if a_read a then
    (if a_create a then started i (created i true (pipes i s)) <| h_running ::= fun r => {[i]} ∪ r |> else created i false (pipes i s))
  else pipes i s.

(** jomprocess.cpp:423-444 onProcessFinished, the handles of it. *)
Definition procFinished (i : nat) (s : hstate) : hstate :=
  if bool_decide (i ∈ h_running s) then
    (safelyClose (i, HThread) (safelyClose (i, HProc) (safelyClose (i, ErrR) (safelyClose (i, OutR) s)))) <| h_running ::= fun r => r ∖ {[i]} |>
  else s.

(** jomprocess.cpp:166-175 ~Process: delete d destroys the three pipes, the one declared last first (136-138), each of them closes its
    write end and its read end (66-72); hProcess and hProcessThread are not closed. *)
Definition procDestroyed (i : nat) (s : hstate) : hstate :=
  safelyClose (i, OutR) (safelyClose (i, OutW) (safelyClose (i, ErrR) (safelyClose (i, ErrW) (safelyClose (i, InR) (safelyClose (i, InW) s))))).

(** What happens to process objects. A process is only started when none is running (commandexecutor.cpp:71-125); a process
    object that has been destroyed is not used again (targetexecutor.cpp:64-67). *)
Inductive hevent := EStart (i : nat) (a : answer) | EFinished (i : nat) | EDestroyed (i : nat).
(** One of these events (jomprocess.cpp:347, 423, 166). *)
Definition hstep (e : hevent) (s : hstate) : option hstate :=
  match e with
  | EStart i a => if bool_decide (i ∈ h_running s) then None else Some (procStart i a s)
  | EFinished i => Some (procFinished i s)
  | EDestroyed i => Some (procDestroyed i s)
  end.
(** Before the first process: all variables are INVALID_HANDLE_VALUE (jomprocess.cpp:60-61, 119-120); handles below [n] may be in use by
    others. *)
Definition hstart (n : nat) : hstate := Hstate ∅ ∅ ∅ n [].
(** A sequence of events (jomprocess.cpp:166-175, 347-444). *)
Fixpoint hrun (es : list hevent) (s : hstate) : option hstate :=
  match es with
  | [] => Some s
  | e :: es' => match hstep e s with Some s' => hrun es' s' | None => None end
  end.
