(** The thread that reads the output of the processes: iocompletionport.cpp:32-114 and the channels of jomprocess.cpp:99-113.
    In Output.v a channel reads from the pipe of the running process; here the completion port has a queue, and its key is only the
    address of the channel, which is the same for all processes of an executor. *)
From stdpp Require Import prelude gmap.
From RecordUpdate Require Import RecordSet.
Import RecordSetNotations.
From Verif Require Import Base.

(** A result in the queue of the completion port: the channel is the key (iocompletionport.cpp:66), [k_run] tells for the model which
    pipe of the channel it comes from; [k_ok]: ERROR_SUCCESS (iocompletionport.cpp:88-106). *)
Record packet := Packet { k_chan : nat; k_run : nat; k_data : list N; k_ok : bool }.
(** How far Process::start and the end of a process are, for a channel (jomprocess.cpp:347-409, 423-444). *)
Inductive phase := PIdle | PPiped | PRegistered | PReading | PUnregistered | PDead.
(** [i_run]: the pipe that pipe->hRead belongs to, [i_pend]: the reads under way, with the pipe they read from; [i_pipe]: what is in a pipe;
    [i_stop]: the thread has ended (iocompletionport.h:41-63, jomprocess.cpp:57-76, 99-113). *)
Record st := St {
  i_queue : list packet;
  i_obs : gset nat;
  i_pend : list (nat * nat);
  i_run : nat -> nat;
  i_phase : nat -> phase;
  i_pipe : nat -> nat -> list N;
  i_stop : bool;
}.
#[export] Instance eta_st : Settable _ := settable! St <i_queue; i_obs; i_pend; i_run; i_phase; i_pipe; i_stop>.
(** What happens; [LNotify c r cur d]: the result of a read from pipe [r] is handed to the channel while its pipe is [cur]
    (iocompletionport.cpp:64-114, jomprocess.cpp:347-444, 470-545). *)
Inductive label :=
| LPipe (c r : nat) | LRegister (c : nat) | LRead (c r : nat) | LFailed (c : nat) | LUnregister (c : nat) | LDestroy (c : nat)
| LWrite (c r : nat) (d : list N) | LComplete (c r : nat) (d : list N) (ok : bool)
| LNotify (c r cur : nat) (d : list N) | LIgnored (c r : nat) (d : list N) | LPoke (c : nat) | LStop.

(** jomprocess.cpp, everything before the first process. *)
Definition start : st := St [] ∅ [] (fun _ => O) (fun _ => PIdle) (fun _ _ => []) false.
(** Change of a function at one place (jomprocess.cpp:99-113: one channel). *)
Definition setAt {A} (c : nat) (x : A) (f : nat -> A) : nat -> A := fun c' => if decide (c' = c) then x else f c'.

(** The steps. Those of the main thread for a channel come in the order of Process::start and onProcessFinished. The mutex of the
    completion port is held while a channel is registered, unregistered or notified, so each of these is one step. Simplifications: the null
    values posted at the end are not in the queue (the thread can end at any time); a read is completed with data or with an error;
    what happens to data that is in a pipe that is closed is left out (iocompletionport.cpp:44-49, 64-114, jomprocess.cpp:166-175, 347-444, 470-545). *)
Inductive step : st -> list label -> st -> Prop :=
(** jomprocess.cpp:355-360 setupPipe; the new pipe is empty because nothing was written to it so far. *)
| s_pipe s c : i_phase s c = PIdle ->
    step s [LPipe c (S (i_run s c))]
         (s <| i_run ::= setAt c (S (i_run s c)) |> <| i_phase ::= setAt c PPiped |>)
(** jomprocess.cpp:362-363, iocompletionport.cpp:64-76. *)
| s_register s c : i_phase s c = PPiped ->
    step s [LRegister c] (s <| i_obs ::= fun o => {[ c ]} ∪ o |> <| i_phase ::= setAt c PRegistered |>)
(** jomprocess.cpp:364, 475-495 startRead in the main thread. *)
| s_read s c : i_phase s c = PRegistered ->
    step s [LRead c (i_run s c)] (s <| i_pend ::= fun l => l ++ [(c, i_run s c)] |> <| i_phase ::= setAt c PReading |>)
(** jomprocess.cpp:364-369, 392-396: reading or starting the process fails; the channel stays registered. *)
| s_failed s c : i_phase s c = PRegistered \/ i_phase s c = PReading ->
    step s [LFailed c] (s <| i_phase ::= setAt c PIdle |>)
(** jomprocess.cpp:429-430, iocompletionport.cpp:78-83. *)
| s_unregister s c : i_phase s c = PReading ->
    step s [LUnregister c] (s <| i_obs ::= fun o => o ∖ {[ c ]} |> <| i_phase ::= setAt c PUnregistered |>)
(** jomprocess.cpp:431-443. *)
| s_idle s c : i_phase s c = PUnregistered -> step s [] (s <| i_phase ::= setAt c PIdle |>)
(** jomprocess.cpp:166-175 the destructor. *)
| s_destroy s c : step s [LDestroy c] (s <| i_obs ::= fun o => o ∖ {[ c ]} |> <| i_phase ::= setAt c PDead |>)
(** A process writes into the pipe it was started with. *)
| s_write s c d : d <> [] -> i_phase s c = PReading ->
    step s [LWrite c (i_run s c) d] (s <| i_pipe ::= setAt c (setAt (i_run s c) (i_pipe s c (i_run s c) ++ d) (i_pipe s c)) |>)
(** The system completes a read (iocompletionport.cpp:92-96). *)
| s_data s c r l1 l2 d rest : i_pend s = l1 ++ (c, r) :: l2 -> i_pipe s c r = d ++ rest -> d <> [] ->
    step s [LComplete c r d true]
         (s <| i_pend := l1 ++ l2 |> <| i_queue ::= fun q => q ++ [Packet c r d true] |> <| i_pipe ::= setAt c (setAt r rest (i_pipe s c)) |>)
| s_error s c r l1 l2 : i_pend s = l1 ++ (c, r) :: l2 ->
    step s [LComplete c r [] false] (s <| i_pend := l1 ++ l2 |> <| i_queue ::= fun q => q ++ [Packet c r [] false] |>)
(** iocompletionport.cpp:108-112 with jomprocess.cpp:522-545: another read is started from the pipe the channel has now. *)
| s_notify_again s p q : i_stop s = false -> i_queue s = p :: q -> k_chan p ∈ i_obs s -> k_ok p = true ->
    step s [LNotify (k_chan p) (k_run p) (i_run s (k_chan p)) (k_data p); LRead (k_chan p) (i_run s (k_chan p))]
         (s <| i_queue := q |> <| i_pend ::= fun l => l ++ [(k_chan p, i_run s (k_chan p))] |>)
(** jomprocess.cpp:540-544: no read or no success; the main thread is told to look for the exit code. *)
| s_notify_last s p q : i_stop s = false -> i_queue s = p :: q -> k_chan p ∈ i_obs s ->
    step s [LNotify (k_chan p) (k_run p) (i_run s (k_chan p)) (k_data p); LPoke (k_chan p)] (s <| i_queue := q |>)
(** iocompletionport.cpp:110: the channel is not registered. *)
| s_ignored s p q : i_stop s = false -> i_queue s = p :: q -> k_chan p ∉ i_obs s ->
    step s [LIgnored (k_chan p) (k_run p) (k_data p)] (s <| i_queue := q |>)
(** iocompletionport.cpp:44-49, 97-101. *)
| s_stop s : step s [LStop] (s <| i_stop := true |>).

(** Executions (iocompletionport.cpp:85-114, jomprocess.cpp:347-444). *)
Inductive run : st -> list label -> st -> Prop :=
| run_nil s : run s [] s
| run_step s t s1 l s2 : run s t s1 -> step s1 l s2 -> run s (t ++ l) s2.
