(** What an executor shows to the outside while it runs the commands of a target. *)
From Coq Require Import Ascii String.
From stdpp Require Import prelude gmap.
From Verif Require Import Base Data Env CmdExec CmdExecSpec MacroSpec MkLineSpec.
Local Open Scope N_scope.

(** The line begins with the word [w] (in any case) and white space; [r] is what follows. *)
Definition word (w line r : qstr) : Prop := exists v s, line = v ++ s :: r /\ foldCase v = w /\ isSpace s = true.
Definition isComment (line : qstr) : Prop := (exists r, line = ch ":" :: r) \/ exists r, word (s2q "rem") line r.
(** Nothing that only a shell understands. *)
Definition plainLine (line : qstr) : Prop := forall c, c ∈ line -> c ∉ s2q "|<>&".
Definition shellWords : list qstr := map s2q [
  "assoc"; "break"; "call"; "chdir"; "cd"; "cls"; "color"; "copy"; "del"; "dir"; "echo"; "endlocal"; "erase"; "exit";
  "for"; "ftype"; "goto"; "if"; "md"; "move"; "path"; "pause"; "popd"; "prompt"; "pushd"; "ren"; "rename"; "setlocal";
  "shift"; "time"; "title"; "type"; "ver"; "verify"; "vol"]%string.
Definition shellWord (line : qstr) : Prop := exists w r, w ∈ shellWords /\ word w line r.

(** [line] is executed by the process with the command line [l]: directly, or by the shell [comspec] if a shell is necessary or the
    direct way is not possible. *)
Inductive startsAs (comspec line : qstr) : qstr -> Prop :=
| sa_direct : plainLine line -> ~ shellWord line -> startsAs comspec line line
| sa_shell w d b q : ~ plainLine line \/ shellWord line \/ xw_runs w line d b = false ->
    (34 ∈ line /\ q = [34] ++ line ++ [34]) \/ (34 ∉ line /\ q = line) ->
    startsAs comspec line ((if decide (comspec = []) then s2q "cmd.exe" else comspec) ++ s2q " /C " ++ q).

(** The argument [a] of a cd command, [r] being what follows the word: with /d it begins behind the character after it. *)
Definition cdArgument (r a : qstr) : Prop :=
  exists t, trims r t /\ t <> [] /\ ((exists x y, t = x ++ y /\ foldCase x = s2q "/d" /\ trims (drop 1 y) a) \/
                          ((forall x y, t = x ++ y -> foldCase x <> s2q "/d") /\ a = t)).

(** The message about the failure of a command. *)
Definition failure (o : xopts) (target : qstr) (code : N) : effect :=
  FPrint true (s2q "jom: " ++ xo_makefile o ++ s2q " [" ++ target ++ s2q "] Error " ++ decimalText code ++ [10]).
Definition noSuchDir (a : qstr) : effect := FPrint true (s2q "Couldn't change working directory to " ++ a ++ s2q "." ++ [10]).
Definition shown (o : xopts) (c : command) : list effect :=
  if xo_dryRun o || (negb (c_silent c) && negb (xo_quiet o)) then [printed (c_line c)] else [].
(** In a command %% stands for %. *)
Definition percents (line line' : qstr) : Prop := substituted (s2q "%%") (s2q "%") line line'.

(** A command that is neither cd nor set, or one for a shell. *)
Definition isProcess (line : qstr) : Prop := plainLine line -> forall r, ~ word (s2q "cd") line r /\ ~ word (s2q "set") line r.

(** What is shown for one command line in the directory [d]; [k] are the possibilities for what follows, in a directory. The
    environment of processes is C35. *)
Inductive acts (o : xopts) (target : qstr) (k : qstr -> list effect -> Prop) (d : qstr) (c : command) (line : qstr) : list effect -> Prop :=
| a_show l r : plainLine line -> word (s2q "cd") line r -> trims r [] -> k d l ->
    acts o target k d c line ([FPrint false (toNative (if decide (d = []) then xo_cwd o else d)); FPrint false [10]] ++ l)
| a_stay l r : plainLine line -> word (s2q "cd") line r -> cdArgument r [] -> k d l -> acts o target k d c line l
| a_go w p l r a : plainLine line -> word (s2q "cd") line r -> cdArgument r a -> a <> [] -> xw_path w (removeDoubleQuotes a) = Some p ->
    k p l -> acts o target k d c line l
| a_nodir w l r a : plainLine line -> word (s2q "cd") line r -> cdArgument r a -> a <> [] -> xw_path w (removeDoubleQuotes a) = None ->
    1 <= c_max c -> k d l -> acts o target k d c line (noSuchDir (removeDoubleQuotes a) :: l)
| a_nodirFails w r a : plainLine line -> word (s2q "cd") line r -> cdArgument r a -> a <> [] -> xw_path w (removeDoubleQuotes a) = None ->
    c_max c < 1 -> acts o target k d c line [noSuchDir (removeDoubleQuotes a); failure o target 1; FFinish true]
| a_set l r n v : plainLine line -> word (s2q "set") line r -> trims r (n ++ ch "=" :: v) -> ch "=" ∉ n -> k d l ->
    acts o target k d c line (FSet n v :: l)
| a_setNone l r t : plainLine line -> word (s2q "set") line r -> trims r t -> ch "=" ∉ t -> k d l -> acts o target k d c line l
| a_runs p b : isProcess line -> startsAs (xo_comspec o) line p -> acts o target k d c line [FStart p (toNative d) b]
| a_fails p b code : isProcess line -> startsAs (xo_comspec o) line p -> c_max c < code ->
    acts o target k d c line [FStart p (toNative d) b; failure o target code; FFinish true]
| a_ends p b code l : isProcess line -> startsAs (xo_comspec o) line p -> code <= c_max c -> k d l ->
    acts o target k d c line (FStart p (toNative d) b :: l)
| a_fatal w b p : isProcess line -> startsAs (xo_comspec o) line p -> xw_runs w p (toNative d) b = false -> acts o target k d c line [FFatal].

(** What is shown for the commands [cs] of [target], from the beginning up to some moment; [d] is the directory for the next process,
    empty for the one jom was started in. *)
Inductive story (o : xopts) (target : qstr) : qstr -> list command -> list effect -> Prop :=
| s_end d : story o target d [] [FFinish false]
| s_skip d c cs line l : percents (c_line c) line -> xo_dryRun o = true \/ isComment line -> story o target d cs l ->
    story o target d (c :: cs) (shown o c ++ l)
| s_act d c cs line l : percents (c_line c) line -> xo_dryRun o = false -> ~ isComment line ->
    acts o target (fun d' l' => story o target d' cs l') d c line l -> story o target d (c :: cs) (shown o c ++ l).

(** The life of an executor with one target: the process running ends with some exit code, and again. After qFatal there is nothing. *)
Inductive life (o : xopts) (x0 : xst) : xst -> Prop :=
| lf_start : life o x0 x0
| lf_exit w code x : life o x0 x -> x_active x = true -> FFatal ∉ x_out x -> (forall a, xw_path w a <> Some []) -> life o x0 (processFinished o w code x).
