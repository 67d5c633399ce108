(** Specification vocabulary for builds (properties C01-C08, C39, C40): what a dependency is, and how to
    read the history of a build. *)
From Coq Require Import Relations.
From stdpp Require Import prelude gmap.
From Verif Require Import Base Data Graph Exec.

(** Target [t] lists, in makefile [mk], a name that refers to target [d]. *)
Definition dependsOn (mk : mkfile) (t d : tid) : Prop :=
  exists b name, mk_targets mk !! t = Some b /\ name ∈ b_deps b /\ resolveDep mk name = Some d.

(** ... directly or through other targets. *)
Definition dependsTrans (mk : mkfile) : tid -> tid -> Prop := clos_trans_1n tid (dependsOn mk).

(** [t] is the root or something the root depends on. *)
Definition neededFor (mk : mkfile) (root t : tid) : Prop := t = root \/ dependsTrans mk root t.

Definition acyclicFrom (mk : mkfile) (root : tid) : Prop :=
  forall t, neededFor mk root t -> not (dependsTrans mk t t).

(** The history of a build consists of one pass for each requested target. *)
Record pass := Pass { p_root : tid; p_mk : mkfile; p_log : list logev }.
Fixpoint addToLast (e : logev) (ps : list pass) : list pass :=
  match ps with
  | [] => []
  | [p] => [Pass (p_root p) (p_mk p) (p_log p ++ [e])]
  | p :: ps' => p :: addToLast e ps'
  end.
Definition passes (log : list logev) : list pass :=
  fold_left (fun ps e => match e with
                         | LRoot r mk => ps ++ [Pass r mk []]
                         | _ => addToLast e ps
                         end) log [].

(** Target [d] has been dealt with by the events [evs]. *)
Definition dealtWith (evs : list logev) (d : tid) : Prop :=
  (exists failed, LEnd d failed ∈ evs) \/ (exists mk, LUpToDate d mk ∈ evs)
  \/ (exists mk, LNoCmds d mk ∈ evs) \/ LUnbuildable d ∈ evs.

(** ... and without failure. *)
Definition dealtWithOk (evs : list logev) (d : tid) : Prop :=
  LEnd d false ∈ evs \/ (exists mk, LUpToDate d mk ∈ evs) \/ (exists mk, LNoCmds d mk ∈ evs).

Definition started (evs : list logev) (t : tid) : Prop := exists cmds, LStart t cmds ∈ evs.
Definition failed (evs : list logev) (t : tid) : Prop := LEnd t true ∈ evs.

(** The targets of which a command is running after the given history. *)
Definition cmdsRunning (log : list logev) : list tid :=
  fold_left (fun l e => match e with
                        | LCmd t _ => t :: l
                        | LExit t _ _ => removeOne t l
                        | _ => l
                        end) log [].

(** The exit code a command counts with: a crashed process counts as exit code 2. A process has crashed
    if its exit code is 0xf291 or negative as a 32-bit number. *)
Definition seenCode (kind : command -> ckind) (c : command) (code : N) : N :=
  match kind c with
  | KProcess => if decide (code = 62097%N \/ (2 ^ 31 <= code)%N) then 2%N else code
  | KBuiltin _ => code
  end.

(** [ranTo t cmds evs st]: the events [evs] show the commands [cmds] of target t being run one after the
    other as far as [st] says. *)
Inductive tstatus :=
| Running (rest : list command)   (* the first of these is running *)
| Stopped (rest : list command)   (* none is running; these have not been started *)
| Finished (failed : bool).
Inductive ranTo (kind : command -> ckind) (t : tid) : list command -> list logev -> tstatus -> Prop :=
| rt_end : ranTo kind t [] [] (Finished false)
| rt_idle c cs : ranTo kind t (c :: cs) [] (Stopped (c :: cs))
| rt_run c cs : ranTo kind t (c :: cs) [LCmd t c] (Running (c :: cs))
| rt_fail c cs code : (c_max c < seenCode kind c code)%N ->
    ranTo kind t (c :: cs) [LCmd t c; LExit t c code] (Finished true)
| rt_ok c cs code evs st : (seenCode kind c code <= c_max c)%N -> ranTo kind t cs evs st ->
    ranTo kind t (c :: cs) (LCmd t c :: LExit t c code :: evs) st.

(** The events that are about the commands of target t. *)
Definition aboutCmds (t : tid) (e : logev) : bool :=
  match e with
  | LCmd t' _ | LExit t' _ _ => bool_decide (t' = t)
  | _ => false
  end.
Definition cmdEventsOf (t : tid) (evs : list logev) : list logev := List.filter (aboutCmds t) evs.

(** The targets that are to be built: those named on the command line, or the first one; None: there is
    no such target. *)
Definition requested (mk : mkfile) (names : list qstr) : list (option tid) :=
  match names with
  | [] => if decide (mk_targets mk = ∅) then [] else [mk_first mk]
  | _ => map (mk_find mk) names
  end.

(** The targets of the passes of a history. *)
Definition rootsOf (log : list logev) : list (option tid) := map (fun p => Some (p_root p)) (passes log).

(** A needed target lists a name that neither is a target nor exists as a file. *)
Definition missingDep (sn : snap) (mk : mkfile) (root : tid) : Prop :=
  exists x b name, neededFor mk root x /\ mk_targets mk !! x = Some b /\ name ∈ b_deps b
    /\ resolveDep mk name = None /\ sn_stat sn name = None.

(** jom was started for the given makefile and target names, and the events [es] have led to [s]. *)
Definition buildRun xp prep kind w o mk names (es : list event) (s : est) : Prop :=
  exists s0, apply w o mk names = Ok s0 /\ run xp prep kind w o s0 es = Some s.

(** What the option parser and the makefile parser guarantee: at least one job, and the first target is
    one of the targets. *)
Definition startable (o : bopts) (mk : mkfile) : Prop :=
  0 < o_jobs o /\ forall t, mk_first mk = Some t -> is_Some (mk_targets mk !! t).

(** The operating system refused to start a process. *)
Definition launchFails (e : event) : Prop :=
  match e with EvStart ch | EvAcquired ch | EvExit _ _ ch => ch_launch ch = false | _ => False end.
