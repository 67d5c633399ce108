(** Temporary files at the end of jom: main.cpp:86-97 and 200-219, targetexecutor.cpp:64-67 and 274-283, commandexecutor.cpp:66-69. *)
From stdpp Require Import prelude gmap.
From RecordUpdate Require Import RecordSet.
Import RecordSetNotations.
From Verif Require Import Base Data Env CmdExec CmdSys.
Local Open Scope N_scope.

(** targetexecutor.cpp:274-283 removeTempFiles: the executors one after the other, each with
    commandexecutor.cpp:314-321 cleanupTempFiles. [files] are the files of the outside. The results: the
    executors, the files, what was done. *)
Fixpoint cleanupFrom (i : nat) (files : gmap qstr qstr) (l : list xst) : list xst * gmap qstr qstr * list (nat * effect) :=
  match l with
  | [] => ([], files, [])
  | x :: l' =>
    let x' := cleanupTempFiles (x <| x_out := [] |> <| x_files := files |>) in
    let '(r, files', tr) := cleanupFrom (S i) (x_files x') l' in
    (x' :: r, files', map (fun f => (i, f)) (x_out x') ++ tr)
  end.

(** How jom may end once there are executors: main returns, with or without an exception (main.cpp:208-219);
    the handler of Ctrl-C (main.cpp:86-97); exit(2) for a dependent that does not exist
    (dependencygraph.cpp:196-202); qFatal when the shell cannot be started (commandexecutor.cpp:253-254). *)
Inductive ending := Returns | CtrlC | ExitCalled | Aborted.

(** The last things done, and the files left. When main returns, the TargetExecutor of main.cpp:203 is
    destroyed and with it its children, the executors (QObject), which clean up (commandexecutor.cpp:66-69);
    the handler calls removeTempFiles (main.cpp:92-93). exit and abort destroy no object of main.
    Simplification: the handler runs in a thread of its own; here it finds the executors between two events.
    See [halfCreated] for a moment in between. *)
Definition atEnd (d : ending) (files : gmap qstr qstr) (s : xsys) : list (nat * effect) * gmap qstr qstr :=
  match d with
  | Returns | CtrlC => let '(_, files', tr) := cleanupFrom 0 files (xs_execs s) in (xs_trace s ++ tr, files')
  | ExitCalled | Aborted => (xs_trace s, files)
  end.

(** commandexecutor.cpp:264-298: the moment in createTempFiles when a file has been written and closed but is
    not yet in m_tempFiles (309). *)
Definition halfCreated (o : xopts) (w : xworld) (fuel : nat) (f : inlineFile) (s : xst) : option xst :=
  match createTempFile o w fuel f [] s with
  | XOk (_, s') => Some (s' <| x_temps := x_temps s |>)
  | _ => None
  end.
