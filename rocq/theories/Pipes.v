(** The names of the pipes jom makes for the processes it starts: jomprocess.cpp:283-345. *)
From stdpp Require Import prelude gmap.
Local Open Scope N_scope.

(** A pipe is one of jom's, with its number, or one of another program (jomprocess.cpp:303-310). *)
Inductive owner := Own (k : nat) | Other (k : nat).
Global Instance owner_dec : EqDecision owner. Proof. solve_decision. Defined.

(** The named pipes there are: for a name, whose pipe it is and whether nobody has connected to it yet. A name is the number that
    is written into it (jomprocess.cpp:294-297: different numbers give different names). Simplification: a pipe has one
    instance (306), those of other programs too. *)
Notation pworld := (gmap N (owner * bool)).

(** What CreateNamedPipe answers (jomprocess.cpp:303-320): the pipe, ERROR_PIPE_BUSY, or another error. [fails]: Windows cannot make a
    pipe for another reason. *)
Inductive created := CPipe (w : pworld) | CBusy | CError.
Definition createNamedPipe (fails : bool) (name : N) (k : nat) (w : pworld) : created :=
  if fails then CError else match w !! name with Some _ => CBusy | None => CPipe (<[name := (Own k, true)]> w) end.

(** What CreateFile answers (jomprocess.cpp:325-331): the other end of the pipe of that name, if nobody has connected to it. *)
Definition createFile (name : N) (w : pworld) : option (owner * pworld) :=
  match w !! name with Some (o, true) => Some (o, <[name := (o, false)]> w) | _ => None end.

(** One attempt (jomprocess.cpp:293-321): the random number, whether Windows fails, and the pipes there are when CreateNamedPipe is called. *)
Record attempt := Attempt { t_random : N; t_fails : bool; t_before : pworld }.

(** jomprocess.cpp:289-321: the attempts. The result: the name and jom's new end with the pipes there are then, the name without such an end after the last
    attempt, or nothing: the function returned false (316-319). *)
Inductive tried := TMade (name : N) (w : pworld) | TBusy (name : N) | TFailed.
Fixpoint tryNames (k : nat) (last : N) (ts : list attempt) : tried :=
  match ts with
  | [] => TBusy last
  | t :: ts' =>
    match createNamedPipe (t_fails t) (t_random t) k (t_before t) with
    | CPipe w => TMade (t_random t) w
    | CError => TFailed
    | CBusy => tryNames k (t_random t) ts'
    end
  end.

(** jomprocess.cpp:285-345 setupPipe for pipe number [k]: the value of hRead ([None]: INVALID_HANDLE_VALUE) and the pipe hWrite belongs to, or false.
    [w2] gives the pipes there are when CreateFile is called, after those there were before (other programs may have done something in between).
    [ts]: at most 1000 attempts (292, 321). *)
Definition setupPipe (k : nat) (ts : list attempt) (w2 : pworld) : option (option nat * owner) :=
  match tryNames k 0 ts with
  | TFailed => None
  | TMade name _ => match createFile name w2 with Some (o, _) => Some (Some k, o) | None => None end
  | TBusy name => match createFile name w2 with Some (o, _) => Some (None, o) | None => None end
  end.
