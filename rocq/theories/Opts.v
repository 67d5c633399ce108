(** The command line: options.cpp, and main.cpp:99-113 for MAKEFLAGS. *)
From Coq Require Import Ascii String.
From stdpp Require Import prelude gmap.
From RecordUpdate Require Import RecordSet.
Import RecordSetNotations.
From Verif Require Import Base Macro SplitCmd.
Local Open Scope N_scope.

(** options.h:44-68 Options and options.h:77-83 GlobalOptions (the global g_options is kept in the
    same record; fullAppPath is not set here and left out). *)
Record copts := Copts {
  o_buildAll : bool;            (* buildAllTargets *)
  o_buildIfEqual : bool;        (* buildIfTimeStampsAreEqual *)
  o_showLogo : bool;
  o_suppressMessages : bool;    (* suppressOutputMessages *)
  o_overrideEnv : bool;         (* overrideEnvVarMacros *)
  o_displayIncludes : bool;     (* displayIncludeFileNames *)
  o_dryRun : bool;
  o_stopOnErrors : bool;
  o_keepGoing : bool;           (* buildUnrelatedTargetsOnError *)
  o_checkOnly : bool;           (* checkTimeStampsButDoNotBuild *)
  o_touch : bool;               (* changeTimeStampsButDoNotBuild *)
  o_ignorePredefined : bool;    (* ignorePredefinedRulesAndMacros *)
  o_suppressCommands : bool;    (* suppressExecutedCommandsDisplay *)
  o_printDir : bool;            (* printWorkingDir *)
  o_batch : bool;               (* batchModeEnabled *)
  o_dumpInline : bool;          (* dumpInlineFiles *)
  o_dumpGraph : bool;           (* dumpDependencyGraph *)
  o_dumpDot : bool;             (* dumpDependencyGraphDot *)
  o_displayMakeInfo : bool;     (* displayMakeInformation *)
  o_usage : bool;               (* showUsageAndExit *)
  o_buildInfo : bool;           (* displayBuildInfo *)
  o_debug : bool;               (* debugMode *)
  o_version : bool;             (* showVersionAndExit *)
  o_stderr : option qstr;       (* stderrFile, None: null *)
  o_jobs : N;                   (* g_options.maxNumberOfJobs, never below 1 when read *)
  o_jobsSet : bool              (* g_options.isMaxNumberOfJobsSet *)
}.

Global Instance eta_copts : Settable _ := settable! Copts
  <o_buildAll; o_buildIfEqual; o_showLogo; o_suppressMessages; o_overrideEnv; o_displayIncludes;
   o_dryRun; o_stopOnErrors; o_keepGoing; o_checkOnly; o_touch; o_ignorePredefined;
   o_suppressCommands; o_printDir; o_batch; o_dumpInline; o_dumpGraph; o_dumpDot; o_displayMakeInfo;
   o_usage; o_buildInfo; o_debug; o_version; o_stderr; o_jobs; o_jobsSet>.

(** options.cpp:41-72, the constructors; [cpus] is QThread::idealThreadCount(). *)
Definition defaultOpts (cpus : N) : copts :=
  Copts false false true false false false false true false false false false false false true
        false false false false false false false false None cpus false.

(** What handleCommandLineOption works on, options.cpp:189: the options, [arguments], [makefile]
    (None: null) and [makeflags]. *)
Record ostate := Ostate {
  s_opts : copts;
  s_rest : list qstr;
  s_makefile : option qstr;
  s_flags : qstr
}.

Global Instance eta_ostate : Settable _ := settable! Ostate <s_opts; s_rest; s_makefile; s_flags>.

(** options.cpp:192-217: a long option name at the front of [arg] is taken off (at most one in a
    turn of the loop). *)
Definition longOption (arg : qstr) (st : ostate) : qstr * ostate :=
  let upperArg := toUpper arg in
  if Nat.ltb 1 (List.length arg) then
    if startsWith (s2q "NOLOGO") upperArg then
      (drop 6 arg, st <| s_flags ::= fun f => f ++ [76] |> <| s_opts; o_showLogo := false |>)
    else if startsWith (s2q "DUMPGRAPHDOT") upperArg then
      (drop 12 arg, st <| s_opts; o_dumpGraph := true |> <| s_opts; o_dumpDot := true |>
                       <| s_opts; o_showLogo := false |>)
    else if startsWith (s2q "DUMPGRAPH") upperArg then
      (drop 9 arg, st <| s_opts; o_dumpGraph := true |> <| s_opts; o_showLogo := false |>)
    else if startsWith (s2q "DEBUG") upperArg then
      (drop 5 arg, st <| s_opts; o_debug := true |>)
    else if startsWith (s2q "ERRORREPORT") upperArg then (drop 11 arg, st)
    else if startsWith (s2q "VERSION") upperArg then
      (drop 7 arg, st <| s_opts; o_version := true |>)
    else (arg, st)
  else (arg, st).

(** QChar::toUpper followed by toLatin1, options.cpp:226. Only the ASCII letters matter for the
    switch. Simplification as in Base.v: the two characters above 255 whose upper case is an ASCII
    letter (dotless i and long s) are treated as caseless. *)
Definition upLatin1 (c : qchar) : qchar := if (97 <=? c) && (c <=? 122) then c - 32 else c.

(** Leading decimal digits, options.cpp:288-293. *)
Fixpoint leadingDigits (s : qstr) : qstr :=
  match s with c :: s' => if isDigit c then c :: leadingDigits s' else [] | [] => [] end.

(** The number a string of digits denotes (options.cpp:189-357). *)
Definition digitsValue (s : qstr) : N := fold_left (fun n c => n * 10 + (c - 48)) s 0.

(** A leading plus sign, which QString::toUInt skips (options.cpp:297). *)
Definition stripPlus (t : qstr) : qstr := match t with 43 :: t' => t' | _ => t end.

(** QString::toUInt in base 10, as used in options.cpp:297: blanks around it are skipped, a plus sign is allowed, and the value
    must fit 32 bits; [None] for not ok. *)
Definition toUInt (s : qstr) : option N :=
  let d := stripPlus (trimmed s) in
  match d with
  | [] => None
  | _ => if forallb isDigit d && (digitsValue d <? 2 ^ 32) then Some (digitsValue d) else None
  end.

(** options.cpp:296-305 with the conversion to int of 297 (a value of 2^31 or more becomes
    negative, hence less than 1). *)
Definition jobCount (s : qstr) : option N :=
  match toUInt s with
  | Some n => if (1 <=? n) && (n <? 2 ^ 31) then Some n else None
  | None => None
  end.

(** options.cpp:253-277, 311-343: the letters that set one option and take no argument. *)
Definition simpleOption (l : qchar) (o : copts) : option copts :=
  if l =? ch "A" then Some (o <| o_buildAll := true |>)
  else if l =? ch "B" then Some (o <| o_buildIfEqual := true |>)
  else if l =? ch "C" then Some (o <| o_suppressMessages := true |>)
  else if l =? ch "D" then Some (o <| o_buildInfo := true |>)
  else if l =? ch "E" then Some (o <| o_overrideEnv := true |>)
  else if l =? ch "G" then Some (o <| o_displayIncludes := true |>)
  else if (l =? ch "H") || (l =? ch "?") then Some (o <| o_usage := true |>)
  else if l =? ch "I" then Some (o <| o_stopOnErrors := false |>)
  else if l =? ch "K" then Some (o <| o_keepGoing := true |>)
  else if l =? ch "L" then Some (o <| o_showLogo := false |>)
  else if l =? ch "N" then Some (o <| o_dryRun := true |>)
  else if l =? ch "P" then Some (o <| o_displayMakeInfo := true |>)
  else if l =? ch "Q" then Some (o <| o_checkOnly := true |>)
  else if l =? ch "R" then Some (o <| o_ignorePredefined := true |>)
  else if l =? ch "S" then Some (o <| o_suppressCommands := true |>)
  else if l =? ch "T" then Some (o <| o_touch := true |>)
  else if l =? ch "U" then Some (o <| o_dumpInline := true |>)
  else if l =? ch "W" then Some (o <| o_printDir := true |>)
  else if l =? ch "Y" then Some (o <| o_batch := false |>)
  else None.

(** options.cpp:222-351: the letter at the front of [arg] (which is [c :: arg]). [None] is the
    return value false. The access makeflags.at(count-1) of line 307 is in range, since the letter
    itself is in makeflags. *)
Definition letterOption (c : qchar) (arg : qstr) (st : ostate) : option (qstr * ostate) :=
  let st := if containsChar c (s_flags st) then st else st <| s_flags ::= fun f => f ++ [c] |> in
  let l := upLatin1 c in
  if l =? ch "F" then
    let st := st <| s_flags ::= qchop 1 |> in
    match arg with
    | [] => match s_rest st with
            | [] => None
            | a :: r => Some ([], st <| s_makefile := Some a |> <| s_rest := r |>)
            end
    | _ => Some ([], st <| s_makefile := Some arg |>)
    end
  else if l =? ch "X" then
    let st := st <| s_flags ::= qchop 1 |> in
    match arg with
    | [] => match s_rest st with
            | [] => None
            | a :: r => Some ([], st <| s_opts; o_stderr := Some a |> <| s_rest := r |>)
            end
    | _ => Some ([], st <| s_opts; o_stderr := Some arg |>)
    end
  else if l =? ch "J" then
    match (match arg with
           | [] => match s_rest st with
                   | [] => None
                   | a :: r => Some (a, [], st <| s_rest := r |>)
                   end
           | _ => Some (leadingDigits arg, drop (List.length (leadingDigits arg)) arg, st)
           end) with
    | None => None
    | Some (nJobsStr, arg, st) =>
      match jobCount nJobsStr with
      | None => None
      | Some n =>
        let st := st <| s_opts; o_jobs := n |> <| s_opts; o_jobsSet := true |> in
        Some (arg, if upLatin1 (List.last (s_flags st) 0) =? ch "J"
                   then st <| s_flags ::= fun f => f ++ nJobsStr |> else st)
      end
    end
  else match simpleOption l (s_opts st) with
       | Some o => Some (arg, st <| s_opts := o |>)
       | None => None
       end.

(** options.cpp:189-355 handleCommandLineOption. Each turn of the loop takes at least one character
    off [arg], so its length bounds the number of turns. *)
Fixpoint optionLoop (n : nat) (arg : qstr) (st : ostate) : option ostate :=
  match arg, n with
  | [], _ => Some st
  | _, O => None
  | _, S n =>
    let (arg, st) := longOption arg st in
    match arg with
    | [] => Some st
    | c :: arg => match letterOption c arg st with
                  | None => None
                  | Some (arg, st) => optionLoop n arg st
                  end
    end
  end.
Definition handleOption (arg : qstr) (st : ostate) : option ostate := optionLoop (List.length arg) arg st.

(** How reading the command line ends: with the collected values, with the return value false
    (options.cpp:88, 101), with exit(128) (options.cpp:108) or with an exception of the macro table. *)
Inductive cres (A : Type) := COk (a : A) | CFalse | CExit | CThrow.
Arguments COk {A} _.
Arguments CFalse {A}.
Arguments CExit {A}.
Arguments CThrow {A}.

(** The locals and outputs of readCommandLineArguments, options.cpp:83-91. *)
Record rstate := Rstate {
  r_o : ostate;
  r_targets : list qstr;
  r_macros : mtable;
  r_explicit : list qstr
}.

(** options.cpp:103-119: a macro definition. The removal in line 117 is of a name that is not in the
    set. *)
Definition macroArgument (name value : qstr) (st : rstate) : cres rstate :=
  if isMacroNameValid name then
    match (if containsStr name (r_explicit st) then MOk (r_macros st)
           else defineCommandLine name value SrcCommandLine (r_macros st)) with
    | MThrow => CThrow
    | MOk t1 =>
      let ex := if containsStr name (r_explicit st) then r_explicit st else name :: r_explicit st in
      let upperName := toUpper name in
      if negb (qeqb upperName name) && negb (containsStr upperName ex) then
        match defineCommandLine upperName value SrcCommandLineImplicit t1 with
        | MThrow => CThrow
        | MOk t2 => COk (Rstate (r_o st) (r_targets st) t2 ex)
        end
      else COk (Rstate (r_o st) (r_targets st) t1 ex)
    end
  else CExit.

(** options.cpp:93-125, one argument. For the empty argument arg.at(0) is out of range; Qt then
    reads the terminating zero (in a build without assertions), which is neither of the two. *)
Definition oneArgument (arg : qstr) (st : rstate) : cres rstate :=
  match arg with
  | c :: rest =>
    if (c =? ch "-") || (c =? ch "/") then
      match handleOption (trimmed rest) (r_o st) with
      | Some o => COk (Rstate o (r_targets st) (r_macros st) (r_explicit st))
      | None => CFalse
      end
    else
      match indexOfChar 61 arg with
      | Some idx => macroArgument (trimmed (qleft idx arg)) (trimLeft (drop (S idx) arg)) st
      | None =>
        let a := trimmed arg in
        COk (Rstate (r_o st) (if containsStr a (r_targets st) then r_targets st else r_targets st ++ [a])
                    (r_macros st) (r_explicit st))
      end
  | [] => COk (Rstate (r_o st) (if containsStr [] (r_targets st) then r_targets st else r_targets st ++ [[]])
                      (r_macros st) (r_explicit st))
  end.

(** options.cpp:92-126: the loop over the arguments; each turn takes at least one. *)
Fixpoint argumentLoop (n : nat) (st : rstate) : cres rstate :=
  match s_rest (r_o st), n with
  | [], _ => COk st
  | _, O => CFalse
  | arg :: rest, S n =>
    match oneArgument arg (Rstate (r_o st <| s_rest := rest |>) (r_targets st) (r_macros st) (r_explicit st)) with
    | COk st => argumentLoop n st
    | e => e
    end
  end.

(** Contents of a command file as lines (with their line ends), [None] if it cannot be read (options.cpp:138-187). *)
Definition cfiles := qstr -> option (list qstr).

(** options.cpp:140-184: the arguments that stay and what the command files give. Simplification:
    fileName.at(1) for the argument consisting of an at sign alone is out of range and reads the
    terminating zero, see [oneArgument]. *)
Fixpoint commandFiles (fs : cfiles) (args : list qstr) (new : list qstr) : option (list qstr * list qstr) :=
  match args with
  | [] => Some ([], new)
  | a :: args =>
    if startsWith [64] a then
      let f := if startsWith [34] (drop 1 a) && endsWith [34] a then drop 2 (qchop 1 a) else drop 1 a in
      match fs f with
      | None => None
      | Some lines =>
        let new := filter (fun x => startsWith [64] x = false) (new ++ concat (map splitCommandLine lines)) in
        commandFiles fs args new
      end
    else match commandFiles fs args new with
         | Some (keep, new) => Some (a :: keep, new)
         | None => None
         end
  end.

(** options.cpp:138-187 expandCommandFiles. *)
Definition expandCommandFiles (fs : cfiles) (args : list qstr) : option (list qstr) :=
  match commandFiles fs args [] with Some (keep, new) => Some (keep ++ new) | None => None end.

(** What readCommandLineArguments gives back: the options, [makefile], [targets], [macroTable]; and
    the local [makeflags] (options.cpp:83-136). *)
Record cmdline := Cmdline {
  c_opts : copts;
  c_makefile : qstr;
  c_targets : list qstr;
  c_macros : mtable;
  c_flags : qstr
}.

(** options.cpp:83-136 readCommandLineArguments, [mt] the macro table handed in, [cpus] the number
    of processors. *)
Definition readCommandLine (fs : cfiles) (cpus : N) (mt : mtable) (args : list qstr) : cres cmdline :=
  match expandCommandFiles fs args with
  | None => CFalse
  | Some args =>
    match argumentLoop (List.length args) (Rstate (Ostate (defaultOpts cpus) args None []) [] mt []) with
    | COk st =>
      let o := s_opts (r_o st) in
      let o := if negb (o_stopOnErrors o) && o_keepGoing o then o <| o_keepGoing := false |> else o in
      match setMacroValue (s2q "MAKEFLAGS") (s_flags (r_o st)) (r_macros st) with
      | MOk t => COk (Cmdline o (default (s2q "Makefile") (s_makefile (r_o st))) (r_targets st) t (s_flags (r_o st)))
      | MThrow => CThrow
      end
    | CFalse => CFalse
    | CExit => CExit
    | CThrow => CThrow
    end
  end.

(** main.cpp:108-110: a dash in front is dropped. *)
Definition stripDash (f : qstr) : qstr := match f with 45 :: f' => f' | _ => f end.

(** main.cpp:99-113 getCommandLineArguments: [args] are the arguments given, [jomflags] and
    [makeflags] the two environment variables (empty if not set). *)
Definition commandLineArguments (args : list qstr) (jomflags makeflags : qstr) : list qstr :=
  let f := match jomflags with [] => makeflags | _ => jomflags end in
  let f := stripDash f in
  match f with [] => args | _ => (ch "/" :: f) :: args end.
