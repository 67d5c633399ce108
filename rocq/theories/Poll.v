(** The exit code of a process is asked for again and again: jomprocess.cpp:397-444 with the calls that arrive from the channels
    (jomprocess.cpp:522-545), from the notifier of the end of the process (162-163, 404-405) and from the timers (418). *)
From stdpp Require Import prelude.
From RecordUpdate Require Import RecordSet.
Import RecordSetNotations.
From Verif Require Import ProcEnd.
Local Open Scope Z_scope.

(** [q_running]: m_state is Running; [q_proc]: the process that hProcess belongs to, [None] for INVALID_HANDLE_VALUE; [q_code]:
    exitCode; [q_calls]: calls of tryToRetrieveExitCode that are queued or that a timer will make; [q_exit]: processes that have ended, with
    their codes; [q_next]: the number of the next process (jomprocess.cpp:115-144, 411-444). *)
Record pst := Pst { q_running : bool; q_proc : option nat; q_code : Z; q_calls : nat; q_exit : list (nat * Z); q_next : nat }.
#[export] Instance eta_pst : Settable _ := settable! Pst <q_running; q_proc; q_code; q_calls; q_exit; q_next>.
(** What happens (jomprocess.cpp:347-444). *)
Inductive pevent := EStart (k : nat) | EFailed | EExit (k : nat) (c : Z) | EPoke | ECall | EFinished (k : nat) (c : Z).
(** jomprocess.cpp:115-129, 147-156. *)
Definition pollStart : pst := Pst false None STILL_ACTIVE 0 [] 0.

(** The code a process has ended with (GetExitCodeProcess, jomprocess.cpp:414). *)
Definition exitOf (k : nat) (l : list (nat * Z)) : option Z := option_map snd (List.find (fun p => Nat.eqb (fst p) k) l).
(** jomprocess.cpp:411-415: exitCode after the question; it fails for an invalid handle. *)
Definition ask (s : pst) : Z :=
  if q_code s =? STILL_ACTIVE
  then match q_proc s with Some k => default STILL_ACTIVE (exitOf k (q_exit s)) | None => STILL_ACTIVE end
  else q_code s.
(** jomprocess.cpp:411-444: one call. *)
Definition call (s : pst) : pst * list pevent :=
  let c := ask s in
  let s := s <| q_code := c |> in
  if c =? STILL_ACTIVE then (s <| q_calls ::= S |>, [])
  else match q_running s, q_proc s with
       | true, Some k => (s <| q_running := false |> <| q_proc := None |> <| q_code := STILL_ACTIVE |>, [EFinished k c])
       | _, _ => (s, [])
       end.

(** Steps of the main thread, of the thread of the completion port and of the system. Simplifications: processes of one executor only; start is
    called only while no process runs, as the executor does (commandexecutor.cpp:127-255); calls that are queued may come in any
    order and a timer may fire at any time; a channel may ask for a call at any time, more than it can (jomprocess.cpp:397-444, 522-545). *)
Inductive pstep : pst -> list pevent -> pst -> Prop :=
(** jomprocess.cpp:397-408. *)
| p_start s : q_running s = false -> pstep s [EStart (q_next s)] (s <| q_running := true |> <| q_proc := Some (q_next s) |> <| q_next ::= S |>)
(** jomprocess.cpp:364-369, 392-396. *)
| p_failed s : q_running s = false -> pstep s [EFailed] s
(** A process ends. *)
| p_exit s k c : (k < q_next s)%nat -> exitOf k (q_exit s) = None -> pstep s [EExit k c] (s <| q_exit ::= fun l => (k, c) :: l |>)
(** jomprocess.cpp:540-544, 162-163. *)
| p_poke s : pstep s [EPoke] (s <| q_calls ::= S |>)
(** jomprocess.cpp:411-444. *)
| p_call s n : q_calls s = S n -> pstep s (ECall :: snd (call (s <| q_calls := n |>))) (fst (call (s <| q_calls := n |>))).
(** Executions (jomprocess.cpp:347-444). *)
Inductive prun : list pevent -> pst -> Prop :=
| pr_nil : prun [] pollStart
| pr_step t s l s' : prun t s -> pstep s l s' -> prun (t ++ l) s'.
