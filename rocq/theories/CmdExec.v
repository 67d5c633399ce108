(** One command executor: commandexecutor.cpp. *)
From Coq Require Import Ascii String.
From stdpp Require Import prelude gmap.
From RecordUpdate Require Import RecordSet.
Import RecordSetNotations.
From Verif Require Import Base Data Env.
Local Open Scope N_scope.

(** commandexecutor.cpp:138-143 commandLineStartsWithCommand. *)
Definition startsWithCommand (str cmd : qstr) : bool :=
  match drop (List.length cmd) str with
  | c :: _ => isSpace c && startsWith_ci cmd str
  | [] => false
  end.

(** commandexecutor.cpp:145-152 startsWithShellBuiltin: one of the words, then white space. *)
Definition shellBuiltins : list qstr := map s2q [
  "assoc"; "break"; "call"; "chdir"; "cd"; "cls"; "color"; "copy"; "del"; "dir"; "echo"; "endlocal"; "erase"; "exit";
  "for"; "ftype"; "goto"; "if"; "md"; "move"; "path"; "pause"; "popd"; "prompt"; "pushd"; "ren"; "rename"; "setlocal";
  "shift"; "time"; "title"; "type"; "ver"; "verify"; "vol"]%string.
Definition startsWithShellBuiltin (line : qstr) : bool := existsb (startsWithCommand line) shellBuiltins.

(** commandexecutor.cpp:171-172: the regular expression for shell comments. *)
Definition isShellComment (line : qstr) : bool := startsWith [58] line || startsWithCommand line (s2q "rem").

(** commandexecutor.cpp:345-349 isSimpleCommandLine. *)
Definition isSimpleCommandLine (line : qstr) : bool :=
  negb (existsb (fun c => (c =? ch "|") || (c =? ch ">") || (c =? ch "<") || (c =? ch "&")) line).

(** commandexecutor.cpp:193-198: what is assigned to what by a set command. *)
Definition assignment (line : qstr) : option (qstr * qstr) :=
  let s := trimmed (drop 4 line) in
  match indexOfChar (ch "=") s with
  | Some i => Some (take i s, drop (S i) s)
  | None => None
  end.

(** What is done with a command line: nothing; a change of directory; a set command (line 195 finds an
    equals sign or not); a process, with the line to try directly if any, and the line for the shell (commandexecutor.cpp:168-255). *)
Inductive action :=
| ASkip
| ACd (line : qstr)
| ASet (a : option (qstr * qstr))
| AStart (direct : option qstr) (shell : qstr).

(** commandexecutor.cpp:234-248: the loop never moves on, so one double quote counts as three. *)
Definition shellLine (comspec line : qstr) : qstr :=
  let line := if containsChar 34 line then [34] ++ line ++ [34] else line in
  (match comspec with [] => s2q "cmd.exe" | _ => comspec end) ++ s2q " /C " ++ line.

(** commandexecutor.cpp:168-255 executeCurrentCommandLine behind the echo: the decisions. *)
Definition classify (dryRun : bool) (comspec commandLine : qstr) : action :=
  let line := replaceAll (s2q "%%") (s2q "%") commandLine in
  if dryRun || isShellComment line then ASkip
  else if isSimpleCommandLine line then
    if startsWithCommand line (s2q "cd") then ACd line
    else if startsWithCommand line (s2q "set") then ASet (assignment line)
    else AStart (if startsWithShellBuiltin line then None else Some line) (shellLine comspec line)
  else AStart None (shellLine comspec line).

(** What an executor does to the outside, in order. [FSet] is a variable set, with
    the signal environmentChanged (commandexecutor.cpp:154-321). *)
Inductive effect :=
| FPrint (err : bool) (text : qstr)
| FStart (line cwd block : qstr)
| FSet (name value : qstr)
| FWrite (file content : qstr)
| FRemove (file : qstr)
| FFinish (failed : bool)
| FFatal.

(** The options that matter here (options.h:47-74), the environment variable ComSpec, the names of the
    current directory and of the temporary one, jom's process id, the makefile's native absolute path. *)
Record xopts := Xopts {
  xo_dryRun : bool;
  xo_quiet : bool;
  xo_dump : bool;
  xo_comspec : qstr;
  xo_cwd : qstr;
  xo_temp : qstr;
  xo_pid : qstr;
  xo_makefile : qstr;
}.

(** What the outside answers: whether CreateProcess can start a line (in a directory, with an
    environment block); for an existing path its absolute one (QFileInfo); whether a file can be
    opened for writing; the text of the n-th tick count asked for (commandexecutor.cpp:213-251, 264-284, 378-389). *)
Record xworld := Xworld {
  xw_runs : qstr -> qstr -> qstr -> bool;
  xw_path : qstr -> option qstr;
  xw_open : qstr -> bool;
  xw_tick : nat -> qstr;
}.

(** commandexecutor.h:79-94 members; [x_cmds] are the commands from m_currentCommandIdx on. The files of
    the outside are part of the state as far as they are written and removed here. *)
Record xst := Xst {
  x_target : qstr;
  x_cmds : list command;
  x_env : env;
  x_penv : penv;
  x_cwd : qstr;
  x_next : qstr;
  x_active : bool;
  x_temps : list (qstr * bool);
  x_files : gmap qstr qstr;
  x_ticks : nat;
  x_out : list effect;
}.
#[export] Instance eta_xst : Settable _ := settable! Xst
  <x_target; x_cmds; x_env; x_penv; x_cwd; x_next; x_active; x_temps; x_files; x_ticks; x_out>.

(** The history, oldest first (commandexecutor.cpp:154-343). *)
Definition emit (f : effect) (s : xst) : xst := s <| x_out ::= fun l => l ++ [f] |>.

(** commandexecutor.cpp:127-131 finishExecution. *)
Definition finishExecution (failed : bool) (s : xst) : xst := emit (FFinish failed) (s <| x_active := false |>).

(** commandexecutor.cpp:393-396 setEnvironment with jomprocess.cpp:277-281. *)
Definition setEnvironment (e : env) (s : xst) : xst := s <| x_env := e |> <| x_penv := pathAfter (x_penv s) e |>.

(** commandexecutor.cpp:351-391 exec_cd: the new state and whether it succeeded. *)
Definition exec_cd (o : xopts) (w : xworld) (line : qstr) (s : xst) : xst * bool :=
  let args := trimmed (drop 3 line) in
  match args with
  | [] =>
    let cwd := match x_cwd s with [] => xo_cwd o | c => c end in
    (emit (FPrint false [10]) (emit (FPrint false (toNative cwd)) s), true)
  | _ =>
    let args2 := if startsWith_ci (s2q "/d") args then trimmed (drop 3 args) else args in
    match args2 with
    | [] => (s, true)
    | _ =>
      let args3 := removeDoubleQuotes args2 in
      match xw_path w args3 with
      | None => (emit (FPrint true (s2q "Couldn't change working directory to " ++ args3 ++ s2q "." ++ [10])) s, false)
      | Some p => (s <| x_next := p |>, true)
      end
    end
  end.

(** Decimal notation of a number (QByteArray::number) (commandexecutor.cpp:112). *)
Fixpoint decimalFuel (fuel : nat) (n : N) : qstr :=
  match fuel with
  | O => []
  | S f => (if n <? 10 then [] else decimalFuel f (n / 10)) ++ [48 + n mod 10]
  end.
(** commandexecutor.cpp:112. *)
Definition decimalText (n : N) : qstr := decimalFuel (S (N.size_nat n)) n.

(** commandexecutor.cpp:106-114: the message about a failed command. *)
Definition errorText (o : xopts) (s : xst) (code : N) : qstr :=
  s2q "jom: " ++ xo_makefile o ++ s2q " [" ++ x_target s ++ s2q "] Error " ++ decimalText code ++ [10].

(** commandexecutor.cpp:159-166: the echo. *)
Definition echo (o : xopts) (c : command) (s : xst) : xst :=
  if xo_dryRun o || (negb (c_silent c) && negb (xo_quiet o))
  then emit (FPrint false ([9] ++ c_line c ++ [10])) s else s.

(** commandexecutor.cpp:179-182. *)
Definition takeDirectory (s : xst) : xst :=
  match x_next s with [] => s | d => s <| x_cwd := d |> <| x_next := [] |> end.

(** commandexecutor.cpp:213-254: starts the process; both ways may fail. Simplification: when the shell
    cannot be started the calls of onProcessError and onProcessFinished that precede qFatal (253-254)
    are left out. jomprocess.cpp:381-385: the working directory is made native. *)
Definition startProcess (w : xworld) (direct : option qstr) (shell : qstr) (s : xst) : xst :=
  let block := createEnvBlock (x_penv s) (x_env s) in
  let dir := toNative (x_cwd s) in
  let s := s <| x_cwd := dir |> in
  if match direct with Some l => xw_runs w l dir block | None => false end
  then emit (FStart (default [] direct) dir block) s
  else if xw_runs w shell dir block then emit (FStart shell dir block) s
  else emit FFatal s.

(** commandexecutor.cpp:99-125 onProcessFinished (an abnormal exit counts as code 2, 102-103), and
    154-255 executeCurrentCommandLine, which call each other until a process runs or all is done.
    [runCommands cs s] executes the first of the commands [cs] and what follows from it. *)
Fixpoint runCommands (o : xopts) (w : xworld) (cs : list command) (s : xst) : xst :=
  match cs with
  | [] => finishExecution false s
  | c :: cs' =>
    let s := echo o c (s <| x_cmds := cs |>) in
    match classify (xo_dryRun o) (xo_comspec o) (c_line c) with
    | ASkip => runCommands o w cs' s
    | ACd line =>
      let '(s, ok) := exec_cd o w line (takeDirectory s) in
      if ok then runCommands o w cs' s
      else if c_max c <? 1 then finishExecution true (emit (FPrint true (errorText o s 1)) s)
      else runCommands o w cs' s
    | ASet a =>
      let s := takeDirectory s in
      let s := match a with
               | Some (k, v) => let e := envInsert k v (x_env s) in emit (FSet k v) (setEnvironment e s)
               | None => s
               end in
      runCommands o w cs' s
    | AStart direct shell => startProcess w direct shell (takeDirectory s)
    end
  end.

(** commandexecutor.cpp:99-125 for a process that has ended. *)
Definition processFinished (o : xopts) (w : xworld) (code : N) (s : xst) : xst :=
  match x_cmds s with
  | [] => s
  | c :: cs =>
    if c_max c <? code then finishExecution true (emit (FPrint true (errorText o s code)) s)
    else runCommands o w cs s
  end.

(** commandexecutor.cpp:265-273: the name of a nameless inline file; the loop ends at the first name of
    no existing file. [None] if [fuel] tick counts were not enough. *)
Fixpoint tempName (o : xopts) (w : xworld) (fuel : nat) (s : xst) : option (qstr * nat) :=
  match fuel with
  | O => None
  | S f =>
    let n := xo_temp o ++ fileNameFromFilePath (x_target s) ++ [46] ++ xo_pid o ++ [46] ++ xw_tick w (x_ticks s) ++ s2q ".jom" in
    let s := s <| x_ticks ::= S |> in
    match x_files s !! n with
    | Some _ => tempName o w f s
    | None => Some (n, x_ticks s)
    end
  end.

(** commandexecutor.cpp:299-303: blanks make quotes necessary. *)
Definition quoted (n : qstr) : qstr := if containsChar 32 n || containsChar 9 n then [34] ++ n ++ [34] else n.

(** commandexecutor.cpp:305-307: only an occurrence behind the first character counts. *)
Definition putName (line n : qstr) : qstr :=
  match indexOf (s2q "<<") line with
  | Some (S i) => qreplaceAt (S i) 2 (quoted (toNative n)) line
  | _ => line
  end.

(** The result of creating files: an exception if a file cannot be opened (280-284); [XNone] for
    executions that cannot be, see [tempName] (commandexecutor.cpp:257-312). *)
Inductive xres (A : Type) := XOk (a : A) | XThrow (s : xst) | XNone.
Arguments XOk {_} a. Arguments XThrow {_} s. Arguments XNone {_}.

(** commandexecutor.cpp:264-309: one inline file of a command line. Simplification: the text is written
    as it is, toLocal8Bit (286, 296) is left out. *)
Definition createTempFile (o : xopts) (w : xworld) (fuel : nat) (f : inlineFile) (line : qstr) (s : xst) : xres (qstr * xst) :=
  match (match if_name f with [] => tempName o w fuel s | n => Some (n, x_ticks s) end) with
  | None => XNone
  | Some (n, k) =>
    let s := s <| x_ticks := k |> in
    if xw_open w n then
      let s := if xo_dump o then
          emit (FPrint false (s2q "---end of inline file---" ++ [10])) (emit (FPrint false (if_content f))
            (emit (FPrint false (s2q "---" ++ [10])) (emit (FPrint false n) (emit (FPrint false (s2q "---")) s)))) else s in
      let s := emit (FWrite n (if_content f)) (s <| x_files ::= <[n := if_content f]> |>) in
      XOk (putName line n, s <| x_temps ::= fun l => l ++ [(n, if_keep f)] |>)
    else XThrow s
  end.

(** commandexecutor.cpp:263-310: the inline files of one command. *)
Fixpoint createForCommand (o : xopts) (w : xworld) (fuel : nat) (fs : list inlineFile) (line : qstr) (s : xst) : xres (qstr * xst) :=
  match fs with
  | [] => XOk (line, s)
  | f :: fs' =>
    match createTempFile o w fuel f line s with
    | XOk (line', s') => createForCommand o w fuel fs' line' s'
    | XThrow s' => XThrow s'
    | XNone => XNone
    end
  end.

(** commandexecutor.cpp:257-312 createTempFiles: the commands with the names put in. *)
Fixpoint createTempFiles (o : xopts) (w : xworld) (fuel : nat) (cs : list command) (s : xst) : xres (list command * xst) :=
  match cs with
  | [] => XOk ([], s)
  | c :: cs' =>
    match createForCommand o w fuel (c_inline c) (c_line c) s with
    | XOk (line, s') =>
      match createTempFiles o w fuel cs' s' with
      | XOk (cs2, s2) => XOk (Command line (c_inline c) (c_max c) (c_silent c) (c_single c) :: cs2, s2)
      | XThrow s2 => XThrow s2
      | XNone => XNone
      end
    | XThrow s' => XThrow s'
    | XNone => XNone
    end
  end.

(** commandexecutor.cpp:314-321 cleanupTempFiles: from the last one on. *)
Definition removeTemp (t : qstr * bool) (s : xst) : xst :=
  if snd t then s else emit (FRemove (fst t)) (s <| x_files ::= delete (fst t) |>).
Definition cleanupTempFiles (s : xst) : xst :=
  fold_right removeTemp (s <| x_temps := [] |>) (x_temps s).

(** commandexecutor.cpp:71-90 start; [cs] are the commands after expandFileNameMacros (line 81). *)
Definition xstart (o : xopts) (w : xworld) (fuel : nat) (target : qstr) (cs : list command) (s : xst) : xres xst :=
  let s := s <| x_target := target |> <| x_active := true |> in
  match cs with
  | [] => XOk (finishExecution false s)
  | _ =>
    match createTempFiles o w fuel cs (cleanupTempFiles s) with
    | XOk (cs', s') => XOk (runCommands o w cs' (s' <| x_next := [] |> <| x_cwd := [] |>))
    | XThrow s' => XThrow s'
    | XNone => XNone
    end
  end.
