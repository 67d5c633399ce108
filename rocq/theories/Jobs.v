(** Several jom processes sharing one job server: jobserver.cpp, jobclient.cpp and main.cpp:115-149.

    The semaphore is created with N-1 tokens by the first process (jobserver.cpp:56); a jom process that
    runs as a command of another one finds its name in the environment and uses the same semaphore
    (main.cpp:118-137, jobclient.cpp:59-69). *)
From stdpp Require Import prelude gmap.
From RecordUpdate Require Import RecordUpdate.
From Verif Require Import Base Data Infer UpToDate Graph Exec ExecSpec.
Local Open Scope nat_scope.

(** Everything one jom process is given: see Exec.v (jobserver.cpp:46-63). *)
Record cfg := Cfg { k_xp : qstr -> option qstr; k_prep : mkfile -> tid -> nat -> option (list command);
                    k_kind : command -> ckind; k_w : world; k_o : bopts }.

(** A jom process; [i_parent]: it runs as (part of) the command of that executor of that process (main.cpp:115-149). *)
Record inst := Inst { i_cfg : cfg; i_parent : option (nat * nat); i_s : est }.
(** main.cpp:115-149, jobserver.cpp:46-63. *)
Record mst := Mst { m_sem : Z; m_insts : list inst }.

(** What may happen in one of the processes, or to them: main.cpp:151-231. *)
Inductive mevent :=
| MOwn (i : nat) (e : event)                                    (* an event of process i *)
| MSpawn (i k : nat) (c : cfg) (mk : mkfile) (names : list qstr). (* the command of executor k of process i starts jom *)

(** A process that has not ended, main.cpp:151-231. *)
Definition alive (p : inst) : bool := match e_end (i_s p) with None => true | Some _ => false end.
(** The running commands that are jom processes (main.cpp:115-149). *)
Definition kids (m : mst) : list (nat * nat) := omap i_parent (List.filter alive (m_insts m)).

(** The event is the end of the command of this executor (commandexecutor.cpp:99-125). *)
Definition endsCmd (e : event) : option nat :=
  match e with EvExit k _ _ | EvGone k => Some k | _ => None end.

(** The event is the taking of a token (jobclient.cpp:79-98). *)
Definition takes (e : event) : bool := match e with EvTake => true | _ => false end.

(** A command that is a jom process does not end before that process. A command starts one jom process at
    a time. Taking a token needs one (QSystemSemaphore::acquire); [e_net] tells how many tokens the
    process takes from or gives to the semaphore (Exec.v) (jobclient.cpp:79-107, targetexecutor.cpp:119-267). *)
Definition mstep (m : mst) (ev : mevent) : option mst :=
  match ev with
  | MOwn i e =>
    match m_insts m !! i with
    | None => None
    | Some p =>
      let c := i_cfg p in
      match step (k_xp c) (k_prep c) (k_kind c) (k_w c) (k_o c) (i_s p) e with
      | None => None
      | Some s' =>
        if takes e && (m_sem m <=? 0)%Z then None
        else if (match endsCmd e with Some k => bool_decide ((i, k) ∈ kids m) | None => false end) then None
        else Some (Mst (m_sem m - (e_net s' - e_net (i_s p)))%Z (<[i := Inst c (i_parent p) s']> (m_insts m)))
      end
    end
  | MSpawn i k c mk names =>
    match m_insts m !! i with
    | None => None
    | Some p =>
      match jobOf k (i_s p) with
      | None => None
      | Some j =>
        if decide ((i, k) ∈ kids m) then None
        else match apply (k_w c) (k_o c) mk names with
             | Ok s0 => Some (Mst (m_sem m) (m_insts m ++ [Inst c (Some (i, k)) s0]))
             | _ => None
             end
      end
    end
  end.
(** jobclient.cpp:79-107, targetexecutor.cpp:119-267. *)
Fixpoint mrun (m : mst) (evs : list mevent) : option mst :=
  match evs with
  | [] => Some m
  | ev :: evs' => match mstep m ev with Some m' => mrun m' evs' | None => None end
  end.

(** jobserver.cpp:47-64 start, main.cpp:139-146: the first jom process. *)
Definition mstart (n : nat) (c : cfg) (mk : mkfile) (names : list qstr) : option mst :=
  match apply (k_w c) (k_o c) mk names with
  | Ok s0 => Some (Mst (Z.of_nat n - 1) [Inst c None s0])
  | _ => None
  end.
