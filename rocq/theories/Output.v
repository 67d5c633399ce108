(** The output of commands: jomprocess.cpp:55-203, 411-444, 522-568, commandexecutor.cpp:70-131, 323-343,
    targetexecutor.cpp:47-62, 164-165, 224-268.

    Two threads of jom act here: the main thread and the thread of the I/O completion port. The main thread is given
    by a list of instructions ([code]), so that the other thread can come between any two of them. *)
From stdpp Require Import prelude.
From RecordUpdate Require Import RecordSet.
Import RecordSetNotations.
Local Open Scope N_scope.

(** jomprocess.cpp:139-140: the two channels of a process. *)
Inductive chan := Stdout | Stderr.
Global Instance chan_dec : EqDecision chan. Proof. solve_decision. Defined.
(** QByteArray (jomprocess.cpp:87-97). *)
Definition bytes := list N.

(** jomprocess.cpp:87-96 struct TimeStampedBuffer. *)
Record item := mkItem { it_time : N; it_data : bytes }.
(** jomprocess.cpp:100-112 class OutputChannel: [c_pipe] are the bytes the child has written into the pipe and jom
    has not read. Simplification: intermediateOutputBuffer is not kept; a read is one step. *)
Record channel := mkChannel { c_pipe : bytes; c_buffers : list item }.
Global Instance eta_channel : Settable _ := settable! mkChannel <c_pipe; c_buffers>.

(** The parts of class Process and CommandExecutor that matter for output: jomprocess.h:144 m_bufferedOutput,
    jomprocess.cpp:141 bufferedOutputModeSwitchMutex ([p_locked]: held by the main thread), jomprocess.cpp:408, 425
    m_state == Running with the observers registered (iocompletionport.cpp:64-83), commandexecutor.h:92 m_active. *)
Record proc := mkProc { p_out : channel; p_err : channel; p_buffered : bool; p_locked : bool; p_running : bool;
                        p_active : bool }.
Global Instance eta_proc : Settable _ := settable! mkProc <p_out; p_err; p_buffered; p_locked; p_running; p_active>.

(** jomprocess.cpp:551 channels[i]. *)
Definition chanOf (c : chan) (p : proc) : channel := match c with Stdout => p_out p | Stderr => p_err p end.
(** Change one channel of a process (jomprocess.cpp:551, 561). *)
Definition withChan (c : chan) (f : channel -> channel) (p : proc) : proc :=
  match c with Stdout => p <| p_out ::= f |> | Stderr => p <| p_err ::= f |> end.

(** What the main thread still has to do before it returns to its event loop: jomprocess.cpp:546-568
    printBufferedOutput of an executor, 177-189 setBufferedOutput, 188 the unlocking at its end, 166-170 the
    beginning of the destructor. *)
Inductive instr := IPrint (e : nat) | ISetBuffered (e : nat) (b : bool) | IUnlock (e : nat) | IDestroy (e : nat).

(** How bytes get onto the console: written at once (commandexecutor.cpp:334, 342, jomprocess.cpp:533) or by the k-th
    call of printBufferedOutput (jomprocess.cpp:564). *)
Inductive how := Direct | Flushed (k : nat).

(** What can be seen of an execution. The child of executor e writes; the completion port thread reads at time t; jom
    itself writes for e at time t; bytes that came at time t are printed; unread bytes are dropped with the pipe; the mode of e changes; the process of e
    starts and ends; e gets a target and gives it back; TargetExecutor is destroyed (jomprocess.cpp:411-444, 522-568). *)
Inductive label :=
| LWrite (e : nat) (c : chan) (d : bytes)
| LRead (e : nat) (c : chan) (d : bytes) (t : N)
| LOwn (e : nat) (c : chan) (d : bytes) (t : N)
| LPrint (e : nat) (c : chan) (d : bytes) (t : N) (h : how)
| LDrop (e : nat) (out err : bytes)
| LMode (e : nat) (b : bool)
| LProcStart (e : nat)
| LProcEnd (e : nat)
| LTake (e : nat)
| LGive (e : nat)
| LQuit.

(** State: the executors by number (targetexecutor.cpp:47-60 m_processes), m_availableProcesses, the clock
    (jomprocess.cpp:55 runtime), the code of the main thread, the number of calls of printBufferedOutput that have
    ended, and whether TargetExecutor is being destroyed. *)
Record st := mkSt { procs : nat -> proc; avail : list nat; now : N; code : list instr; flushes : nat; quitting : bool }.
Global Instance eta_st : Settable _ := settable! mkSt <procs; avail; now; code; flushes; quitting>.

(** Change one executor (jomprocess.cpp:114-144). *)
Definition upd (e : nat) (f : proc -> proc) (ps : nat -> proc) : nat -> proc :=
  fun i => if decide (i = e) then f (ps i) else ps i.

(** jomprocess.cpp:117-129, 146-164: a new process. *)
Definition newProc : proc := mkProc (mkChannel [] []) (mkChannel [] []) true false false false.
(** targetexecutor.cpp:47-62: n executors, all available; the first one writes directly. Simplification: n is at
    least 1 (options.cpp:302-305; with 0 executors first() is undefined). *)
Definition start (n : nat) : st :=
  mkSt (upd 0 (fun p => p <| p_buffered := false |>) (fun _ => newProc)) (seq 0 n) 0 [] 0 false.

(** targetexecutor.cpp:246-251: the executors for which isActive holds, in the order of m_processes. *)
Definition actives (n : nat) (ps : nat -> proc) : list nat := filter (fun e => p_active (ps e) = true) (seq 0 n).

(** targetexecutor.cpp:242-254: the mode is passed on. [ps], [av]: after m_active = false and after append. *)
Definition passOn (n : nat) (e : nat) (ps : nat -> proc) (av : list nat) : list instr :=
  if p_buffered (ps e) then []
  else ISetBuffered e true ::
       match actives n ps with
       | [] => match av with f :: _ => [ISetBuffered f false] | [] => [] end
       | l => map (fun x => ISetBuffered x false) l
       end.

(** jomprocess.cpp:548-559: which channel printBufferedOutput takes next, [None] if both are empty. *)
Definition nextChan (p : proc) : option chan :=
  match c_buffers (p_out p), c_buffers (p_err p) with
  | [], [] => None
  | [], _ :: _ => Some Stderr
  | _ :: _, [] => Some Stdout
  | a :: _, b :: _ => if it_time b <? it_time a then Some Stderr else Some Stdout
  end.

(** jomprocess.cpp:429-432, 168-169: pipes and observers are given up. *)
Definition closePipes (p : proc) : proc :=
  p <| p_out ::= (fun c => c <| c_pipe := [] |>) |> <| p_err ::= (fun c => c <| c_pipe := [] |>) |> <| p_running := false |>.

Section Steps.
Context (n : nat).

(** One step of the main thread inside its code.
    jomprocess.cpp:546-568 one turn of the loop of printBufferedOutput, or its end; 177-189 setBufferedOutput; 166-175
    ~Process (unregistering the observers; closing the pipes in ~Pipe, 66-72, after printing). *)
Inductive exec1 : st -> list label -> st -> Prop :=
| x_print s e rest c t d buf : code s = IPrint e :: rest -> nextChan (procs s e) = Some c ->
    c_buffers (chanOf c (procs s e)) = mkItem t d :: buf ->
    exec1 s [LPrint e c d t (Flushed (flushes s))]
          (s <| procs ::= upd e (withChan c (fun ch => ch <| c_buffers := buf |>)) |>)
| x_printed s e rest : code s = IPrint e :: rest -> nextChan (procs s e) = None ->
    exec1 s [] (s <| code := rest |> <| flushes ::= S |>)
| x_same s e b rest : code s = ISetBuffered e b :: rest -> p_buffered (procs s e) = b -> exec1 s [] (s <| code := rest |>)
| x_set s e b rest : code s = ISetBuffered e b :: rest -> p_buffered (procs s e) <> b ->
    exec1 s [LMode e b]
          (s <| procs ::= upd e (fun p => p <| p_locked := true |> <| p_buffered := b |>) |>
             <| code := (if b then [] else [IPrint e]) ++ IUnlock e :: rest |>)
| x_unlock s e rest : code s = IUnlock e :: rest ->
    exec1 s [] (s <| procs ::= upd e (fun p => p <| p_locked := false |>) |> <| code := rest |>)
| x_destroy s e rest : code s = IDestroy e :: rest ->
    exec1 s [LDrop e (c_pipe (p_out (procs s e))) (c_pipe (p_err (procs s e)))]
          (s <| procs ::= upd e closePipes |> <| code := rest |>).

(** The steps of everything else. The main thread takes up something new only in its event loop (no code left).
    Simplification: when it may take something up is not restricted further than by the states of the executors
    (targets and job tokens are in Exec.v and Jobs.v) (jomprocess.cpp:411-444, 522-568, targetexecutor.cpp:156-173, 224-267). *)
Inductive step : st -> list label -> st -> Prop :=
| s_code s l s' : exec1 s l s' -> step s l s'
(** Time goes by (jomprocess.cpp:55, 160). *)
| s_time s t : now s <= t -> step s [] (s <| now := t |>)
(** The child writes into a pipe. *)
| s_write s e c d : p_running (procs s e) = true -> d <> [] ->
    step s [LWrite e c d] (s <| procs ::= upd e (withChan c (fun ch => ch <| c_pipe ::= (fun x => x ++ d) |>)) |>)
(** jomprocess.cpp:522-537 completionPortNotified with some bytes; iocompletionport.cpp:109-113: only while the
    channel is registered. The mutex keeps it out while the main thread switches the mode. *)
| s_read_buffered s e c d rest : p_running (procs s e) = true -> p_locked (procs s e) = false -> d <> [] ->
    c_pipe (chanOf c (procs s e)) = d ++ rest -> p_buffered (procs s e) = true ->
    step s [LRead e c d (now s)]
         (s <| procs ::= upd e (withChan c (fun ch => mkChannel rest (c_buffers ch ++ [mkItem (now s) d]))) |>)
| s_read_direct s e c d rest : p_running (procs s e) = true -> p_locked (procs s e) = false -> d <> [] ->
    c_pipe (chanOf c (procs s e)) = d ++ rest -> p_buffered (procs s e) = false ->
    step s [LRead e c d (now s); LPrint e c d (now s) Direct]
         (s <| procs ::= upd e (withChan c (fun ch => ch <| c_pipe := rest |>)) |>)
(** commandexecutor.cpp:323-343 writeToStandardOutput and writeToStandardError with jomprocess.cpp:191-203; called
    while no process of the executor is running (commandexecutor.cpp:114, 165, 288-292, 361-362, 381). *)
| s_own_buffered s e c d : code s = [] -> quitting s = false -> p_active (procs s e) = true -> p_running (procs s e) = false ->
    p_buffered (procs s e) = true ->
    step s [LOwn e c d (now s)]
         (s <| procs ::= upd e (withChan c (fun ch => ch <| c_buffers ::= (fun x => x ++ [mkItem (now s) d]) |>)) |>)
| s_own_direct s e c d : code s = [] -> quitting s = false -> p_active (procs s e) = true -> p_running (procs s e) = false ->
    p_buffered (procs s e) = false ->
    step s [LOwn e c d (now s); LPrint e c d (now s) Direct] s
(** jomprocess.cpp:347-409 start, if it succeeds. *)
| s_procStart s e : code s = [] -> quitting s = false -> p_active (procs s e) = true -> p_running (procs s e) = false ->
    step s [LProcStart e] (s <| procs ::= upd e (fun p => p <| p_running := true |>) |>)
(** jomprocess.cpp:411-435 tryToRetrieveExitCode and onProcessFinished up to printBufferedOutput. *)
| s_procEnd s e : code s = [] -> quitting s = false -> p_running (procs s e) = true ->
    step s [LProcEnd e; LDrop e (c_pipe (p_out (procs s e))) (c_pipe (p_err (procs s e)))]
         (s <| procs ::= upd e closePipes |> <| code := [IPrint e] |>)
(** targetexecutor.cpp:164-165 with commandexecutor.cpp:70-74. *)
| s_take s e rest : code s = [] -> quitting s = false -> avail s = e :: rest ->
    step s [LTake e] (s <| avail := rest |> <| procs ::= upd e (fun p => p <| p_active := true |>) |>)
(** commandexecutor.cpp:127-131 finishExecution and targetexecutor.cpp:242-254. *)
| s_give s e : code s = [] -> quitting s = false -> p_active (procs s e) = true -> p_running (procs s e) = false ->
    let ps := upd e (fun p => p <| p_active := false |>) (procs s) in
    step s [LGive e] (s <| procs := ps |> <| avail ::= (fun x => x ++ [e]) |> <| code := passOn n e ps (avail s ++ [e]) |>)
(** main.cpp:213-230: the TargetExecutor and with it its children are destroyed when the event loop has ended
    (commandexecutor.cpp:65-68, jomprocess.cpp:166-175). *)
| s_quit s : code s = [] -> quitting s = false ->
    step s [LQuit] (s <| quitting := true |> <| code := flat_map (fun e => [IDestroy e; IPrint e]) (seq 0 n) |>).

(** Executions (jomprocess.cpp:411-444, 522-568). *)
Inductive run : st -> list label -> st -> Prop :=
| run_nil s : run s [] s
| run_step s l s1 ls s2 : step s l s1 -> run s1 ls s2 -> run s (l ++ ls) s2.
End Steps.
