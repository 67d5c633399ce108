(** The build driver: targetexecutor.cpp together with the part of commandexecutor.cpp, jobclient.cpp
    and jomprocess.cpp that decides when things happen, as a transition system.

    jom's main thread runs Qt's event loop; one step of the model is the handling of one event
    (a queued call of startProcesses, the end of a child process, a granted job token) or one
    action of the outside world (the semaphore grants a token, a process ends unnoticed). *)
From stdpp Require Import prelude gmap.
From RecordUpdate Require Import RecordUpdate.
From Verif Require Import Base Data Infer UpToDate Graph.
Local Open Scope N_scope.

(** What executeCurrentCommandLine (commandexecutor.cpp:154-255) does with a command: start a process
    or handle it at once with one of the given exit codes. *)
Inductive ckind := KProcess | KBuiltin (codes : list N).

(** A child process together with its Process object (jomprocess.h m_state): alive and watched (m_state
    Running), alive but unwatched (m_state was reset by waitForFinished, jomprocess.cpp:457), gone
    while m_state is still Running (its exit code was STILL_ACTIVE, jomprocess.cpp:413-418), or gone
    while unwatched. *)
Inductive jstate := JWatched | JUnwatched | JHung | JDead.
Global Instance jstate_eq_dec : EqDecision jstate.
Proof. solve_decision. Defined.

(** A busy CommandExecutor: its index in m_processes, m_pTarget, the commands from
    m_currentCommandIdx on (the first one is running), the state of its process (commandexecutor.h:79-94). *)
Record job := Job { j_exec : nat; j_target : tid; j_cmds : list command; j_state : jstate }.

(** The job client: no acquisition under way, one requested (asyncAcquire was called), one granted
    by the semaphore whose acquired signal is still to be delivered (jobclient.cpp:79-98). *)
Inductive acqstate := AIdle | ARequested | ATaken.
Global Instance acqstate_eq_dec : EqDecision acqstate.
Proof. solve_decision. Defined.

(** The innermost nested event loop of an aborted build: waiting for the process of executor k
    (targetexecutor.cpp:175-179), or for the job client (181-189). Simplification: when several failing
    commands nest such loops only the innermost one is kept; it ends with finishBuild, after which
    QCoreApplication::exit makes all outer loops return without handling further events. *)
Inductive waitloop := WProc (k : nat) | WJob.

(** How jom ends: with an exit code; with exit code 1 after printing the message of an exception
    (targetexecutor.cpp:149-153, 168-172, kept apart from EExit 1 only to tell the two apart); by
    undefined behaviour or qFatal; by unbounded recursion. *)
Inductive ending := EExit (code : N) | EError | ECrash | EDiverge.
Definition exitCode (e : ending) : option N :=
  match e with EExit c => Some c | EError => Some 1 | _ => None end.

(** Ghost history of what happened, oldest first (targetexecutor.cpp:119-267). *)
Inductive logev :=
| LRoot (t : tid) (mk : mkfile)            (* the graph of this root was built from this makefile *)
| LUpToDate (t : tid) (mk : mkfile)        (* found up to date, given this makefile *)
| LNoCmds (t : tid) (mk : mkfile)          (* removed: it has no commands in this makefile *)
| LUnbuildable (t : tid)                   (* removed because of a failed dependent *)
| LStart (t : tid) (cmds : list command)   (* these commands of the target are about to be run *)
| LCmd (t : tid) (c : command)             (* a command is started *)
| LExit (t : tid) (c : command) (code : N) (* ... and has ended *)
| LEnd (t : tid) (failed : bool).          (* the target is finished *)

(** targetexecutor.h:70-83 members of TargetExecutor, jobclient.h m_isAcquiring, the event queue. *)
Record est := Est {
  e_mk : mkfile;
  e_g : graph;                  (* m_depgraph *)
  e_next : option tid;          (* m_nextTarget *)
  e_pending : list (option tid);(* m_pendingTargets; None is a null pointer *)
  e_avail : list nat;           (* m_availableProcesses *)
  e_jobs : list job;            (* the executors not available *)
  e_acq : nat;                  (* m_jobAcquisitionCount *)
  e_acquiring : acqstate;       (* m_jobClient *)
  e_aborted : bool;             (* m_bAborted *)
  e_allok : bool;               (* m_allCommandsSuccessfullyExecuted *)
  e_queue : nat;                (* queued calls of startProcesses *)
  e_wait : option waitloop;
  e_end : option ending;
  e_net : Z;                    (* ghost: tokens taken from the semaphore minus tokens returned *)
  e_log : list logev;           (* ghost *)
}.
Global Instance etaEst : Settable est :=
  settable! Est <e_mk; e_g; e_next; e_pending; e_avail; e_jobs; e_acq; e_acquiring; e_aborted;
                 e_allok; e_queue; e_wait; e_end; e_net; e_log>.

(** What the outside world contributes to starting a target or a command: a choice for the
    preparation of the commands, the exit codes of the commands handled at once, and whether
    CreateProcess works (commandexecutor.cpp:81-89, 213-254). *)
Record choice := Choice { ch_prep : nat; ch_codes : list N; ch_launch : bool }.

(** What may happen next: targetexecutor.cpp:119, 224, jobclient.cpp:89, commandexecutor.cpp:99. *)
Inductive event :=
| EvStart (ch : choice)                     (* the next queued startProcesses *)
| EvTake                                    (* jobclientacquirehelper.cpp:38-44: acquire returned *)
| EvAcquired (ch : choice)                  (* jobclient.cpp:89-93 onHelperAcquired *)
| EvExit (k : nat) (code : N) (ch : choice) (* the process of executor k ended *)
| EvGone (k : nat).                         (* it ended while it was not watched *)

(** The history is extended; not in the code, it stands for what targetexecutor.cpp:119-267 does. *)
Definition addLog (l : list logev) (s : est) : est := s <| e_log ::= fun x => x ++ l |>.
(** The end of jom, targetexecutor.cpp:149-153, 191-201. *)
Definition ended (e : ending) (s : est) : est := s <| e_end := Some e |>.
(** The work of an executor of m_processes, targetexecutor.h:69-79. *)
Definition jobOf (k : nat) (s : est) : option job :=
  List.find (fun j => Nat.eqb (j_exec j) k) (e_jobs s).
(** An executor is given back, targetexecutor.cpp:224-267. *)
Definition dropJob (k : nat) (s : est) : est :=
  s <| e_jobs ::= List.filter (fun j => negb (Nat.eqb (j_exec j) k)) |>.
(** An executor gets work, targetexecutor.cpp:156-173. *)
Definition putJob (j : job) (s : est) : est :=
  s <| e_jobs ::= map (fun j' => if Nat.eqb (j_exec j') (j_exec j) then j else j') |>.

(** jomprocess.cpp:441-443 with commandexecutor.cpp:102-103: the exit code that is compared. A process
    exit code is a DWORD, m_exitCode an int. *)
Definition effectiveCode (code : N) : N :=
  if (code =? 62097) || (2147483648 <=? code) then 2 else code.

(** jomprocess.cpp:413-418: this exit code cannot be told from a running process. *)
Definition stillActive : N := 259.

Section Build.
(** [xp]: macro expansion used for inference rules. [prep mk t n]: the command list of target t after
    expandFileNameMacros and createTempFiles (commandexecutor.cpp:81-83), where n stands for everything
    the outside world decides there; [None]: an exception is thrown. [kind]: what
    executeCurrentCommandLine does with a command. [w]: the outside world. *)
Context (xp : qstr -> option qstr) (prep : mkfile -> tid -> nat -> option (list command))
        (kind : command -> ckind) (w : world) (o : bopts).

(** commandexecutor.cpp:99-125, 154-255: run the commands from the current one on until a process is
    started or the target is finished. *)
Inductive runres :=
| RDone (failed : bool) (log : list logev)
| RProc (rest : list command) (log : list logev)
| RFatal (log : list logev).
Definition prependLog (l : list logev) (r : runres) : runres :=
  match r with
  | RDone f l' => RDone f (l ++ l')
  | RProc c l' => RProc c (l ++ l')
  | RFatal l' => RFatal (l ++ l')
  end.
Fixpoint runCmds (t : tid) (cmds : list command) (codes : list N) (launch : bool) : option runres :=
  match cmds with
  | [] => match codes with [] => Some (RDone false []) | _ => None end
  | c :: cmds' =>
    match kind c with
    | KProcess =>
      match codes with
      | [] => Some (if launch then RProc cmds [LCmd t c] else RFatal [])
      | _ => None
      end
    | KBuiltin allowed =>
      match codes with
      | [] => None
      | k :: codes' =>
        if existsb (N.eqb k) allowed then
          if c_max c <? k
          then match codes' with
               | [] => Some (RDone true [LCmd t c; LExit t c k])
               | _ => None
               end
          else option_map (prependLog [LCmd t c; LExit t c k]) (runCmds t cmds' codes' launch)
        else None
      end
    end
  end.

(** targetexecutor.cpp:191-201 finishBuild; QCoreApplication::exit ends the event loop. *)
Definition finishBuild (code : N) (s : est) : est :=
  ended (EExit (if (code =? 0) && negb (e_allok s) && o_keep o then 1 else code)) s.

(** m_state == Running, the test at jomprocess.cpp:448. *)
Definition procRunning (j : job) : bool :=
  match j_state j with JWatched | JHung => true | JUnwatched | JDead => false end.

(** targetexecutor.cpp:175-189: continue with the executors from k on: those whose process is not
    running need not be waited for. [n] counts the executors left. *)
Fixpoint waitFrom (n k : nat) (s : est) : est :=
  match n with
  | O => match e_acquiring s with
         | AIdle => finishBuild 2 (s <| e_wait := None |>)
         | _ => s <| e_wait := Some WJob |>
         end
  | S n' =>
    match jobOf k s with
    | Some j => if procRunning j then s <| e_wait := Some (WProc k) |> else waitFrom n' (S k) s
    | None => waitFrom n' (S k) s
    end
  end.

(** targetexecutor.cpp:224-267 onChildFinished (the output buffering of 243-254 is in Output.v, the file
    time cache of 236 in FileCache.v). The queued call of 266 is never handled when 257-264 were
    executed. *)
Definition childFinished (k : nat) (t : tid) (failed : bool) (s : est) : est :=
  let s := addLog [LEnd t failed] s in
  let s := if failed then s <| e_allok := false |> else s in
  let marked :=
    if failed && o_keep o then
      match g_nodes (e_g s) !! t with
      | None => None
      | Some _ => Some (markParents (S (size (g_nodes (e_g s)))) t (e_g s))
      end
    else Some (Some (e_g s)) in
  match marked with
  | None => ended ECrash s
  | Some None => ended EDiverge s
  | Some (Some g) =>
    let s := s <| e_g := removeLeaf t g |> in
    let s := match e_acq s with
             | O => s
             | S a => s <| e_acq := a |> <| e_net ::= fun z => (z - 1)%Z |>
             end in
    let s := dropJob k s <| e_avail ::= fun l => l ++ [k] |> in
    if failed && negb (o_keep o) then
      let s := s <| e_aborted := true |> <| e_g ::= clearGraph |> <| e_pending := [] |> in
      waitFrom (o_jobs o) 0 s
    else s <| e_queue ::= S |>
  end.

(** targetexecutor.cpp:156-173 buildNextTarget with commandexecutor.cpp:71-90 start. Simplification: the
    job keeps its own list of remaining commands instead of an index into the target's list; the list
    of a target is not changed while its commands are running. *)
Definition buildNextTarget (ch : choice) (s : est) : option est :=
  if e_aborted s then Some s
  else
    match e_avail s, e_next s with
    | k :: avail, Some t =>
      match mk_targets (e_mk s) !! t with
      | None => Some (ended ECrash s)
      | Some b =>
        if isNil (b_cmds b)
        then Some ((childFinished k t false (addLog [LStart t []] s <| e_avail := avail |>))
                     <| e_next := None |> <| e_queue ::= S |>)
        else
          match prep (e_mk s) t (ch_prep ch) with
          | None => Some (ended EError (s <| e_aborted := true |>))
          | Some [] => Some (ended ECrash s)
          | Some cmds =>
            let s := addLog [LStart t cmds]
                       (s <| e_avail := avail |> <| e_mk ::= fun mk => setBlock mk t (setCmds cmds b) |>) in
            match runCmds t cmds (ch_codes ch) (ch_launch ch) with
            | None => None
            | Some (RFatal l) => Some (ended ECrash (addLog l s))
            | Some (RDone failed l) =>
              Some (childFinished k t failed (addLog l s) <| e_next := None |> <| e_queue ::= S |>)
            | Some (RProc rest l) =>
              Some (addLog l s <| e_jobs ::= fun js => js ++ [Job k t rest JWatched] |>
                      <| e_next := None |> <| e_queue ::= S |>)
            end
          end
      end
    | _, _ => Some (ended ECrash s)
    end.

(** targetexecutor.cpp:203-222 findNextTarget. *)
Fixpoint findNextTarget (fuel : nat) (mk : mkfile) (g : graph) (log : list logev)
  : outcome (option tid * mkfile * graph * list logev) :=
  match fuel with
  | O => Diverges
  | S fuel' =>
    match findAvailableTarget xp o w mk g with
    | Ok (None, mk1, g1, ups) => Ok (None, mk1, g1, log ++ map (fun p => LUpToDate (fst p) (snd p)) ups)
    | Ok (Some t, mk1, g1, ups) =>
      let log1 := log ++ map (fun p => LUpToDate (fst p) (snd p)) ups in
      let cmds := match mk_targets mk1 !! t with Some b => b_cmds b | None => [] end in
      if isNil cmds then findNextTarget fuel' mk1 (removeLeaf t g1) (log1 ++ [LNoCmds t mk1])
      else if o_keep o && bool_decide (stateOf g1 t = Unbuildable)
      then findNextTarget fuel' mk1 (removeLeaf t g1) (log1 ++ [LUnbuildable t])
      else Ok (Some t, mk1, g1, log1)
    | Throws => Throws
    | Exits c => Exits c
    | Diverges => Diverges
    | Crashes => Crashes
    end
  end.

(** makefile.cpp:577-586 invalidateTimeStamps. *)
Definition invalidateTimeStamps (mk : mkfile) : mkfile :=
  Mkfile ((fun b => Block (b_name b) (b_deps b) (b_cmds b) (b_rules b) 0 false (b_acs b)) <$> mk_targets mk)
         (mk_first mk) (mk_dir mk) (mk_tick mk).

(** Build the graph for a root and note it in the history (targetexecutor.cpp:203-222, dependencygraph.cpp:68-83). *)
Definition newRoot (t : tid) (s : est) : est :=
  match buildGraph (w (mk_tick (e_mk s))) (e_mk s) (e_g s) t with
  | Ok g => addLog [LRoot t (e_mk s)] (s <| e_g := g |>)
              <| e_mk ::= fun mk => Mkfile (mk_targets mk) (mk_first mk) (mk_dir mk) (S (mk_tick mk)) |>
  | Exits c => ended (EExit c) s
  | Throws => ended EError (s <| e_aborted := true |>)
  | Diverges => ended EDiverge s
  | Crashes => ended ECrash s
  end.

(** numberOfRunningProcesses (targetexecutor.cpp:269-272) is the number of busy executors. *)
Definition noneRunning (s : est) : bool := Nat.eqb (length (e_avail s)) (o_jobs o).

(** targetexecutor.cpp:119-154 startProcesses. *)
Definition startProcesses (ch : choice) (s : est) : option est :=
  if e_aborted s || negb (bool_decide (e_acquiring s = AIdle)) || isNil (e_avail s) then Some s
  else
    let found := match e_next s with
                 | Some t => Ok (Some t, e_mk s, e_g s, [])
                 | None => findNextTarget (S (S (size (g_nodes (e_g s))))) (e_mk s) (e_g s) []
                 end in
    match found with
    | Throws => Some (ended EError (s <| e_aborted := true |>))
    | Exits c => Some (ended (EExit c) s)
    | Diverges => Some (ended EDiverge s)
    | Crashes => Some (ended ECrash s)
    | Ok (next, mk, g, log) =>
      let s := addLog log (s <| e_next := next |> <| e_mk := mk |> <| e_g := g |>) in
      match next with
      | Some t =>
        if noneRunning s then buildNextTarget ch s
        else Some (s <| e_acq ::= S |> <| e_acquiring := ARequested |>)
      | None =>
        if noneRunning s then
          match e_pending s with
          | [] => Some (finishBuild 0 s)
          | None :: _ => Some (ended ECrash s)
          | Some t :: pending =>
            let s1 := newRoot t (s <| e_g ::= clearGraph |> <| e_mk ::= invalidateTimeStamps |>
                                   <| e_pending := pending |>) in
            Some (if e_end s1 then s1 else s1 <| e_queue ::= S |>)
          end
        else Some s
      end
    end.

(** jomprocess.cpp:411-444 and commandexecutor.cpp:99-125: a process ended and this was noticed. *)
Definition processExit (k : nat) (code : N) (ch : choice) (j : job) (s : est) : option est :=
  match j_cmds j with
  | [] => Some (ended ECrash s)
  | c :: rest =>
    let t := j_target j in
    let s := addLog [LExit t c code] s in
    if c_max c <? effectiveCode code then
      match ch_codes ch with
      | [] => Some (childFinished k t true s)
      | _ => None
      end
    else
      match runCmds t rest (ch_codes ch) (ch_launch ch) with
      | None => None
      | Some (RFatal l) => Some (ended ECrash (addLog l s))
      | Some (RDone failed l) =>
        let s' := childFinished k t failed (addLog l s) in
        Some (match e_end s', e_wait s with
              | None, Some (WProc k') =>
                if failed && negb (o_keep o) then s'
                else if Nat.eqb k k' then waitFrom (o_jobs o - S k') (S k') s' else s'
              | _, _ => s'
              end)
      | Some (RProc rest' l) =>
        let waiting := match e_wait s with Some (WProc k') => Nat.eqb k k' | _ => false end in
        let s' := putJob (Job k t rest' (if waiting then JUnwatched else JWatched)) (addLog l s) in
        Some (if waiting then waitFrom (o_jobs o - S k) (S k) s' else s')
      end
  end.

(** One step; [None]: the event cannot happen now (targetexecutor.cpp:119-267). *)
Definition step (s : est) (e : event) : option est :=
  match e_end s with
  | Some _ => None
  | None =>
    match e with
    | EvStart ch =>
      match e_queue s with
      | O => None
      | S q => startProcesses ch (s <| e_queue := q |>)
      end
    | EvTake =>
      match e_acquiring s with
      | ARequested => Some (s <| e_acquiring := ATaken |> <| e_net ::= fun z => (z + 1)%Z |>)
      | _ => None
      end
    | EvAcquired ch =>
      match e_acquiring s with
      | ATaken =>
        match buildNextTarget ch (s <| e_acquiring := AIdle |>) with
        | None => None
        | Some s' =>
          match e_end s', e_wait s with
          | None, Some WJob => Some (finishBuild 2 (s' <| e_net ::= fun z => (z - 1)%Z |>))
          | _, _ => Some s'
          end
        end
      | _ => None
      end
    | EvExit k code ch =>
      match jobOf k s with
      | Some j =>
        if decide (j_state j = JWatched) then
          if code =? stillActive then Some (putJob (Job k (j_target j) (j_cmds j) JHung) s)
          else processExit k code ch j s
        else None
      | None => None
      end
    | EvGone k =>
      match jobOf k s with
      | Some j => match j_state j with
                  | JUnwatched => Some (putJob (Job k (j_target j) (j_cmds j) JDead) s)
                  | _ => None
                  end
      | None => None
      end
    end
  end.

(** targetexecutor.cpp:39-117 constructor and apply, and main.cpp:216-218, which queues one more call of
    startProcesses. [Throws]: apply throws and main returns 2 (main.cpp:226-229). finishBuild at 90 and
    112 has no effect: QCoreApplication::exit does nothing before exec. *)
Definition initState (mk : mkfile) (pending : list (option tid)) (queue : nat) : est :=
  Est mk emptyGraph None pending (seq 0 (o_jobs o)) [] 0 AIdle false true queue None None 0 [].
Definition apply (mk : mkfile) (names : list qstr) : outcome est :=
  let start (t : option tid) (rest : list (option tid)) :=
    match t with
    | None => Crashes
    | Some t =>
      let s := newRoot t (initState mk rest 1) in
      match e_end s with
      | Some (EExit c) => Exits c
      | Some EError => Throws
      | Some ECrash => Crashes
      | Some EDiverge => Diverges
      | None =>
        if o_dump o then
          match dumpNode (S (size (g_nodes (e_g s)))) (e_g s) 0 t with
          | Some _ => Ok s
          | None => Diverges
          end
        else Ok (s <| e_queue := 2%nat |>)
      end
    end in
  match names with
  | [] => if decide (mk_targets mk = ∅) then Ok (initState mk [] 1) else start (mk_first mk) []
  | n :: ns => match mk_find mk n with
               | None => Throws
               | Some t => start (Some t) (map (mk_find mk) ns)
               end
  end.

(** Executions (targetexecutor.cpp:119-267). *)
Fixpoint run (s : est) (es : list event) : option est :=
  match es with
  | [] => Some s
  | e :: es' => match step s e with Some s' => run s' es' | None => None end
  end.
End Build.
