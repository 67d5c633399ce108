(** Specification of what /D shows (C57): one line for each decision about a target. *)
From stdpp Require Import prelude gmap.
From Verif Require Import Base Data Infer UpToDate UpToDateSpec Graph Exec Display.
Local Open Scope N_scope.

(** The events of a history in which it is decided what becomes of a target; for one that is up to date,
    also the makefile as it was then. *)
Definition decision (e : logev) : option (tid * option mkfile) :=
  match e with
  | LUpToDate t m => Some (t, Some m)
  | LNoCmds t _ | LUnbuildable t | LStart t _ => Some (t, None)
  | _ => None
  end.
Definition decisions (log : list logev) : list (tid * option mkfile) := omap decision log.

(** ... and the target that is waiting for a job token. *)
Definition waiting (next : option tid) : list (tid * option mkfile) :=
  match next with Some t => [(t, None)] | None => [] end.

(** The line shown for a decision. An up-to-date target is shown with the time of its file. Any other
    target is marked with an asterisk; with /A the mark tells whether it would have been up to date, and
    the time is then that of the file, otherwise none. *)
Definition lineFor (all : bool) (w : world) (d : tid * option mkfile) (l : shown) : Prop :=
  sh_target l = fst d /\
  match snd d with
  | Some m => sh_upToDate l = true /\ exists b, mk_targets m !! fst d = Some b
      /\ fileSeen (w (mk_tick m)) b /\ sh_time l = fileTime (w (mk_tick m)) b
  | None =>
    if all then exists m, sh_upToDate l = fst (isTargetUpToDate w m (fst d))
      /\ forall b, mk_targets m !! fst d = Some b -> fileSeen (w (mk_tick m)) b ->
         sh_time l = if sh_upToDate l then fileTime (w (mk_tick m)) b else 0
    else sh_upToDate l = false
  end.

(** The build goes on, or jom ends it itself. *)
Definition regular (e : option ending) : Prop :=
  match e with None | Some (EExit _) => True | _ => False end.
