(** Small concrete makefiles and builds, used by the examples beside the theorems. *)
From Coq Require Import Ascii String.
From stdpp Require Import prelude gmap.
From Verif Require Import Base Data Infer UpToDate Graph Exec ExecSpec.
Local Open Scope N_scope.

Definition exCmd (s : string) (m : N) : command := Command (s2q s) [] m false false.
Definition exBlock (n : string) (deps : list string) (cmds : list command) : tid * block :=
  (s2q n, Block (s2q n) (map s2q deps) cmds [] 0 false ACSEnabled).
Definition exMk (bs : list (tid * block)) : mkfile :=
  Mkfile (list_to_map bs) (head (map fst bs)) [46] 0.

(** A world in which the listed files exist for ever. *)
Definition exWorld (files : list (string * N)) : world := fun _ =>
  let look (n : qstr) : option N := option_map snd (List.find (fun p => qeqb (s2q (fst p)) n) files) in
  Snap look (fun n => match look n with Some _ => true | None => false end) 100.
Definition exOpts (keep : bool) (n : nat) : bopts := Bopts false keep true n false.
Definition exXp (s : qstr) : option qstr := Some s.
Definition exPrep (mk : mkfile) (t : tid) (n : nat) : option (list command) := option_map b_cmds (mk_targets mk !! t).
Definition exKind (c : command) : ckind := if qeqb (c_line c) (s2q "builtin") then KBuiltin [0; 1] else KProcess.
Definition go : choice := Choice 0 [] true.

Definition exRun (w : world) (o : bopts) (mk : mkfile) (names : list qstr) (es : list event) : option est :=
  match apply w o mk names with
  | Ok s0 => run exXp exPrep exKind w o s0 es
  | _ => None
  end.
Definition exFinal w o mk names es : est := default (initState o mk [] 0) (exRun w o mk names es).
Definition isSome {A} (x : option A) : bool := match x with Some _ => true | None => false end.
Lemma exRun_build w o mk names es : isSome (exRun w o mk names es) = true ->
  buildRun exXp exPrep exKind w o mk names es (exFinal w o mk names es).
Proof.
  unfold exFinal, exRun, buildRun. destruct (apply w o mk names) as [s0| | | |]; try done.
  intros H. exists s0. split; [done|]. by destruct (run exXp exPrep exKind w o s0 es).
Qed.

(** A readable form of the history. *)
Fixpoint q2s (q : qstr) : string :=
  match q with [] => EmptyString | c :: q' => String (ascii_of_N c) (q2s q') end.
Definition brief (e : logev) : string * string * string :=
  match e with
  | LRoot t _ => ("root", q2s t, "")
  | LUpToDate t _ => ("up to date", q2s t, "")
  | LNoCmds t _ => ("no commands", q2s t, "")
  | LUnbuildable t => ("unbuildable", q2s t, "")
  | LStart t _ => ("start", q2s t, "")
  | LCmd t c => ("run", q2s t, q2s (c_line c))
  | LExit t c n => (if (n =? 0)%N then "ok" else "bad", q2s t, q2s (c_line c))
  | LEnd t f => (if f then "failed" else "done", q2s t, "")
  end%string.

(** all: a b / a: c src / b: c / c *)
Definition diamond : mkfile := exMk
  [exBlock "all" ["a"; "b"]%string [exCmd "link" 0];
   exBlock "a" ["c"; "src"]%string [exCmd "cla" 0];
   exBlock "b" ["c"]%string [exCmd "clb" 0; exCmd "builtin" 0; exCmd "clb2" 0];
   exBlock "c" []%string [exCmd "gen" 0]].
Definition exW : world := exWorld [("src"%string, 3)].
Definition T (s : string) : tid := s2q s.

Lemma diamond_startable keep n : (0 < n)%nat -> startable (exOpts keep n) diamond.
Proof. intros H. split; [exact H|]. intros t [= <-]. vm_compute. eauto. Qed.

(** Two jobs; a and b overlap. *)
Definition diamondEvents : list event :=
  [EvStart go; EvStart go; EvStart go; EvExit 0 0 go; EvStart go; EvStart go; EvTake; EvAcquired go;
   EvExit 1 0 (Choice 0 [] true); EvExit 0 0 (Choice 0 [0] true)].
Definition diamondDone : list event :=
  diamondEvents ++ [EvStart go; EvExit 0 0 go; EvStart go; EvStart go; EvExit 1 0 go; EvStart go].

(** With /K: a fails, b is still built, all is given up. *)
Definition diamondFail : list event :=
  [EvStart go; EvStart go; EvStart go; EvExit 0 0 go; EvStart go; EvStart go; EvTake; EvAcquired go;
   EvExit 1 1 go; EvExit 0 0 (Choice 0 [0] true); EvStart go; EvExit 0 0 go; EvStart go].

(** all: x y, where x has two commands *)
Definition fork : mkfile := exMk
  [exBlock "all" ["x"; "y"]%string [exCmd "link" 0];
   exBlock "x" []%string [exCmd "x1" 0; exCmd "x2" 0];
   exBlock "y" []%string [exCmd "y1" 0]].
Lemma fork_startable keep n : (0 < n)%nat -> startable (exOpts keep n) fork.
Proof. intros H. split; [exact H|]. intros t [= <-]. vm_compute. eauto. Qed.
Definition forkStart : list event := [EvStart go; EvStart go; EvTake; EvAcquired go].
