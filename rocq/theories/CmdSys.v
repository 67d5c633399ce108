(** Several command executors: what targetexecutor.cpp:38-62 connects. *)
From stdpp Require Import prelude gmap.
From RecordUpdate Require Import RecordSet.
Import RecordSetNotations.
From Verif Require Import Base Data Env CmdExec.
Local Open Scope N_scope.

(** The executors of m_processes, and all they did so far in order, with the index of who did it (targetexecutor.cpp:39-62). *)
Record xsys := Xsys { xs_execs : list xst; xs_trace : list (nat * effect) }.

(** What may happen to executor i: a target is handed to it, its process ends with an exit code (commandexecutor.cpp:71, 99). *)
Inductive xevent := XStart (i : nat) (target : qstr) (cs : list command) | XExit (i : nat) (code : N).
(** The executor of an event, commandexecutor.cpp:71, 99. *)
Definition execOf (e : xevent) : nat := match e with XStart i _ _ => i | XExit i _ => i end.

(** One event at one executor. An executor only gets the event if it can: [XStart] when it is not
    active, [XExit] when it is (commandexecutor.cpp:71-125). *)
Definition execEvent (o : xopts) (w : xworld) (fuel : nat) (e : xevent) (x : xst) : option xst :=
  match e with
  | XStart _ t cs =>
    if x_active x then None
    else match xstart o w fuel t cs x with XOk x' => Some x' | XThrow x' => Some x' | XNone => None end
  | XExit _ code => if x_active x then Some (processFinished o w code x) else None
  end.

(** Effects that emit environmentChanged, commandexecutor.cpp:202. *)
Definition isSet (f : effect) : bool := match f with FSet _ _ => true | _ => false end.

(** targetexecutor.cpp:52-57: the environment is handed to every other executor when it changes; files
    and jom's own environment are the same for all. Simplification: within one event the others get it
    at the end; none of them does anything in between. *)
Definition share (changed : bool) (x' x : xst) : xst :=
  let x := x <| x_files := x_files x' |> <| x_penv := x_penv x' |> <| x_ticks := x_ticks x' |> in
  if changed then x <| x_env := x_env x' |> else x.

(** One event of the whole. Between events processes and others may change files: [files] (targetexecutor.cpp:39-62). *)
Definition sysEvent (o : xopts) (w : xworld) (fuel : nat) (files : gmap qstr qstr) (e : xevent) (s : xsys) : option xsys :=
  match xs_execs s !! execOf e with
  | None => None
  | Some x =>
    match execEvent o w fuel e (x <| x_out := [] |> <| x_files := files |>) with
    | None => None
    | Some x' =>
      Some (Xsys (<[execOf e := x']> (map (share (existsb isSet (x_out x')) x') (xs_execs s)))
                 (xs_trace s ++ map (fun f => (execOf e, f)) (x_out x')))
    end
  end.

(** targetexecutor.cpp:38-62 and commandexecutor.cpp:42-62: [n] executors with one environment. *)
Definition sysStart (n : nat) (e : env) (p : penv) : xsys :=
  Xsys (replicate n (Xst [] [] e (pathAfter p e) [] [] false [] ∅ 0 [])) [].

(** Sequences of events; the outside may answer differently every time (targetexecutor.cpp:39-62). *)
Inductive sysRun (o : xopts) : xsys -> xsys -> Prop :=
| sr_refl s : sysRun o s s
| sr_step s w fuel files e s1 s2 : sysEvent o w fuel files e s = Some s1 -> sysRun o s1 s2 -> sysRun o s s2.
