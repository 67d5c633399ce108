(** The whole program up to the event loop: main.cpp, makefilefactory.cpp, application.cpp. *)
From Coq Require Import Ascii String.
From stdpp Require Import prelude gmap.
From RecordUpdate Require Import RecordUpdate.
From Verif Require Import Base Data Infer UpToDate Graph Exec Macro Env Opts LineReader PPLex Preproc Front FileMacros MkParse CmdExec.
Local Open Scope N_scope.

(** What jom finds: its arguments (qApp->arguments().mid(1)), the lines of QProcess::systemEnvironment(), command
    files, the number of processors, applicationFilePath and currentPath in native spelling, which files can be
    opened for standard error, the files for the preprocessor, QDirIterator and QFileInfo::isRelative for wildcards,
    the order in which the two hash tables of the parser yield their keys (parser.cpp:129, 704), whether the
    semaphore can be created (jobserver.cpp:58) and opened (jobclient.cpp:65), the variable ComSpec, the directory for
    temporary files, the process id as text. *)
Record outside := Outside {
  u_args : list qstr; u_env : list qstr; u_cfiles : cfiles; u_cpus : N; u_app : qstr; u_cwd : qstr;
  u_stderrOk : qstr -> bool; u_fs : fsenv; u_glob : qstr -> qstr -> list qstr; u_isRel : qstr -> bool;
  u_extOrder : list qstr -> list qstr; u_syncOrder : list (qstr * list qstr) -> list (qstr * list qstr);
  u_serverOk : bool; u_clientOk : bool; u_comspec : qstr; u_temp : qstr; u_pid : qstr }.

(** makefilefactory.cpp:45-52 setEnvironment. *)
Definition readSystemEnvironment (lines : list qstr) : env :=
  fold_left (fun m l => match indexOfChar 61 l with Some i => envInsert (qleft i l) (drop (S i) l) m | None => m end) lines [].
(** makefilefactory.cpp:106-107: a macro table with this environment. *)
Definition freshTable (e : env) : mtable := Mtable ∅ (list_to_map (map (fun kv => (foldCase (fst kv), kv)) e)).
(** makefilefactory.cpp:62-67 readEnvironment. *)
Fixpoint readEnvironment (e : env) (ro : bool) (t : mtable) : mres mtable :=
  match e with
  | [] => MOk t
  | (k, v) :: e' => match defineEnvironment k v ro t with MOk t' => readEnvironment e' ro t' | MThrow => MThrow end
  end.

(** makefilefactory.cpp:72-94 isComplexPathName (the first character is not looked at) and
    encloseInDoubleQuotesIfNeeded. *)
Definition encloseIfNeeded (path : qstr) : qstr :=
  if existsb isSpace (drop 1 path) then [34] ++ path ++ [34] else path.
(** makefilefactory.cpp:138-161: the predefined macros in order. *)
Definition predefined (app cwd : qstr) : list (qstr * qstr) :=
  [(s2q "MAKE", encloseIfNeeded app); (s2q "MAKEDIR", encloseIfNeeded cwd);
   (s2q "AS", s2q "ml"); (s2q "ASFLAGS", []); (s2q "BC", s2q "bc"); (s2q "BCFLAGS", []); (s2q "CC", s2q "cl"); (s2q "CCFLAGS", []);
   (s2q "COBOL", s2q "cobol"); (s2q "COBOLFLAGS", []); (s2q "CPP", s2q "cl"); (s2q "CPPFLAGS", []); (s2q "CXX", s2q "cl"); (s2q "CXXFLAGS", []);
   (s2q "FOR", s2q "fl"); (s2q "FORFLAGS", []); (s2q "PASCAL", s2q "pl"); (s2q "PASCALFLAGS", []); (s2q "RC", s2q "rc"); (s2q "RCFLAGS", [])].
Fixpoint predefine (l : list (qstr * qstr)) (t : mtable) : mres mtable :=
  match l with
  | [] => MOk t
  | (k, v) :: l' => match predefineValue k v t with MOk t' => predefine l' t' | MThrow => MThrow end
  end.

(** What MakefileFactory::apply gives to main: the makefile, whether parallel execution is disabled, the macros (main.cpp:151-231). *)
Record parsed := Parsed { pd_mk : mkfile; pd_serial : bool; pd_macros : mtable }.

(** makefilefactory.cpp:164-172 with parser.cpp:53-157. [n], [fuel]: bounds for the loops of the parser and the
    preprocessor; [POut] if they are too small. *)
Definition readMakefile (u : outside) (n fuel : nat) (o : copts) (file : qstr) (targets : list qstr) (t : mtable) : pres parsed :=
  match openFile (u_fs u) file (PP t [] [] [] lexInit [] []) with
  | Err e => PErr (EPre e)
  | Ub => PUb
  | Out => POut
  | Got p =>
    let+ st := parseFile (ppNext (u_fs u) fuel) ppTab (u_glob u) (u_isRel u) n fuel (fs_dir (u_fs u) file)
                 (o_suppressMessages o) (o_stopOnErrors o) p in
    match finishParse (u_extOrder u (map r_toExt (s_rules st))) (s_suffixes st) (s_rules st) (u_syncOrder u (s_sync st)) (s_mk st) targets with
    | Ok (mk, _) => POk (Parsed mk (s_serial st) (pp_macros (s_rd st)))
    | Throws => PErr ESyntax
    | Diverges => POut
    | _ => PUb
    end
  end.

(** How main gets on: it returns; it is undefined what happens; it has not got this far within the bounds; it has
    called MakefileFactory::apply with success (main.cpp:151-231). *)
Inductive mainres (A : Type) := MReturns (code : N) | MUndefined | MNotEnded | MGoesOn (a : A).
Arguments MReturns {A} _. Arguments MUndefined {A}. Arguments MNotEnded {A}. Arguments MGoesOn {A} _.

(** main.cpp:154-191 with makefilefactory.cpp:96-174 MakefileFactory::apply. An exception of the macro table outside of
    the try block (makefilefactory.cpp:111, 137-161) is caught in main (main.cpp:226-229). *)
Definition mainParse (u : outside) (n fuel : nat) : mainres (cmdline * parsed) :=
  let e := readSystemEnvironment (u_env u) in
  let args := commandLineArguments (u_args u) (envValue (s2q "JOMFLAGS") e) (envValue (s2q "MAKEFLAGS") e) in
  match readCommandLine (u_cfiles u) (u_cpus u) (freshTable e) args with
  | CFalse | CExit => MReturns 128
  | CThrow => MReturns 2
  | COk cl =>
    let o := c_opts cl in
    if o_usage o || o_version o then MReturns 0
    else if match o_stderr o with Some ((_ :: _) as f) => negb (u_stderrOk u f) | _ => false end then MReturns 2
    else
      match readEnvironment e (o_overrideEnv o) (c_macros cl) with
      | MThrow => MReturns 2
      | MOk t1 =>
        match (if o_ignorePredefined o then MOk t1 else predefine (predefined (u_app u) (u_cwd u)) t1) with
        | MThrow => MReturns 2
        | MOk t2 =>
          match readMakefile u n fuel o (c_makefile cl) (c_targets cl) t2 with
          | POk p => MGoesOn (cl, p)
          | PErr _ => MReturns 2
          | PUb => MUndefined
          | POut => MNotEnded
          end
        end
      end
  end.

(** application.cpp:37-40 isSubJOM. *)
Definition isSubJom (e : env) : bool := envContains (s2q "_JOMSRVKEY_") e.
(** A variable in the environment of the macro table (processenvironment.h:35-69). *)
Definition tableVariable (t : mtable) (name : qstr) : qstr :=
  match mt_env t !! foldCase name with Some (_, v) => v | None => [] end.
(** main.cpp:115-149 initJobServer: the number of jobs of the new server, if one is created. QString::toInt with a
    positive result is the same as toUInt with one below 2^31. *)
Definition newServer (u : outside) (o : copts) (t : mtable) : option N :=
  if isSubJom (readSystemEnvironment (u_env u)) then
    let inherited := default (Opts.o_jobs o) (jobCount (tableVariable t (s2q "_JOMJOBCOUNT_"))) in
    if o_jobsSet o && negb (Opts.o_jobs o =? inherited) then Some (Opts.o_jobs o) else None
  else Some (Opts.o_jobs o).

(** main.cpp:208-213, options.h: what the executor is told. [serial]: isParallelExecutionDisabled. *)
Definition buildOptions (o : copts) (serial : bool) : bopts :=
  Bopts (o_buildAll o) (o_keepGoing o) (Opts.o_batch o) (if serial then 1%nat else N.to_nat (Opts.o_jobs o)) (o_dumpGraph o).

(** A build that has begun. [bd_server]: the size of the job server it has created (main.cpp:151-231). *)
Record building := Building {
  bd_cl : cmdline; bd_parsed : parsed; bd_server : option N; bd_opts : bopts; bd_state : est }.

(** targetexecutor.cpp:75-82 with jobclient.cpp:59-69: the client needs a server. *)
Definition clientOk (u : outside) (server : option N) (t : mtable) : bool :=
  u_clientOk u && match server with Some _ => true | None => negb (isEmpty (tableVariable t (s2q "_JOMSRVKEY_"))) end.

(** main.cpp:154-218: everything up to app.exec(). mf.activeTargets() are the targets of the command line; the one the
    parser adds (parser.cpp:122-124) stays in the parser. Printing is left out. *)
Definition mainStart (u : outside) (n fuel : nat) (w : world) : mainres building :=
  match mainParse u n fuel with
  | MReturns c => MReturns c
  | MUndefined => MUndefined
  | MNotEnded => MNotEnded
  | MGoesOn (cl, p) =>
    let o := c_opts cl in
    let server := newServer u o (pd_macros p) in
    if match server with Some _ => negb (u_serverOk u) | None => false end then MReturns 3
    else if negb (clientOk u server (pd_macros p)) then MReturns 2
    else
      let bo := buildOptions o (pd_serial p) in
      match apply w bo (pd_mk p) (c_targets cl) with
      | Ok s => MGoesOn (Building cl p server bo s)
      | Throws => MReturns 2
      | Exits c => MReturns c
      | Diverges => MNotEnded
      | Crashes => MUndefined
      end
  end.

(** ** What the executors do, as Exec.v asks for it *)

(** makefile.cpp (applyInferenceRule) uses the macro table as it is after parsing. *)
Definition expandWithTable (t : mtable) (s : qstr) : option qstr :=
  match expandMacros (mt_macros t) false s with Macro.XOk r => Some r | _ => None end.
(** commandexecutor.cpp:154-255: which commands are processes; cd can fail with exit code 1, the others succeed. *)
Definition kindOf (dryRun : bool) (comspec : qstr) (c : command) : ckind :=
  match classify dryRun comspec (c_line c) with
  | ASkip | ASet _ => KBuiltin [0]
  | ACd _ => KBuiltin [0; 1]
  | AStart _ _ => KProcess
  end.
(** What the outside shows while a target is prepared: the file times for $? (makefile.cpp:350-352), the answers
    for createTempFiles, the executor. *)
Record moment := Moment { mo_times : qstr -> N; mo_world : xworld; mo_exec : xst }.
(** commandexecutor.cpp:81-83: expandFileNameMacros, cleanupTempFiles and createTempFiles; the new commands stay in the
    target. Simplification: an expansion that does not end (C24) counts as the crash of an empty list. *)
Definition prepare (o : xopts) (fuel : nat) (at_ : nat -> moment) (mk : mkfile) (t : tid) (n : nat) : option (list command) :=
  match mk_targets mk !! t with
  | None => Some []
  | Some b =>
    match startCommands (b_name b) (b_deps b) (mo_times (at_ n)) fuel (b_cmds b) with
    | Some (FOk cs) =>
      match createTempFiles o (mo_world (at_ n)) fuel cs (cleanupTempFiles (mo_exec (at_ n) <| x_target := b_name b |>)) with
      | CmdExec.XOk (cs', _) => Some cs'
      | XThrow _ => None
      | XNone => Some []
      end
    | Some FThrow => None
    | _ => Some []
    end
  end.

(** commandexecutor.cpp:159-173, 276-299: the options and names the executors use. *)
Definition executorOptions (u : outside) (cl : cmdline) : xopts :=
  let o := c_opts cl in
  Xopts (o_dryRun o) (o_suppressCommands o) (o_dumpInline o) (u_comspec u) (u_cwd u) (u_temp u) (u_pid u) (toNative (fs_abs (u_fs u) (c_makefile cl))).

(** An execution of jom: main, then the events (main.cpp:151-231). *)
Definition jomRun (u : outside) (n fuel : nat) (w : world) (at_ : nat -> moment) (es : list event) (b : building) (s : est) : Prop :=
  mainStart u n fuel w = MGoesOn b /\
  let xo := executorOptions u (bd_cl b) in
  run (expandWithTable (pd_macros (bd_parsed b))) (prepare xo fuel at_) (kindOf (xo_dryRun xo) (xo_comspec xo)) w (bd_opts b) (bd_state b) es = Some s.
