(** Concrete executions of Output.v, computed: used for examples and counterexamples only. *)
From stdpp Require Import prelude.
From RecordUpdate Require Import RecordSet.
Import RecordSetNotations.
From Verif Require Import Output OutputSpec OutputProofs.
Local Open Scope N_scope.

(** One constructor for each kind of step of Output.v. *)
Inductive act := ACode | ATime (t : N) | AWrite (e : nat) (c : chan) (d : bytes) | ARead (e : nat) (c : chan) (k : nat)
  | AOwn (e : nat) (c : chan) (d : bytes) | AProcStart (e : nat) | AProcEnd (e : nat) | ATake | AGive (e : nat) | AQuit.

(** Output.v exec1 as a function. *)
Definition doCode (s : st) : option (list label * st) :=
  match code s with
  | IPrint e :: rest =>
      match nextChan (procs s e) with
      | Some c => match c_buffers (chanOf c (procs s e)) with
                  | mkItem t d :: buf => Some ([LPrint e c d t (Flushed (flushes s))],
                                               s <| procs ::= upd e (withChan c (fun ch => ch <| c_buffers := buf |>)) |>)
                  | [] => None
                  end
      | None => Some ([], s <| code := rest |> <| flushes ::= S |>)
      end
  | ISetBuffered e b :: rest =>
      if decide (p_buffered (procs s e) = b) then Some ([], s <| code := rest |>)
      else Some ([LMode e b], s <| procs ::= upd e (fun p => p <| p_locked := true |> <| p_buffered := b |>) |>
             <| code := (if b then [] else [IPrint e]) ++ IUnlock e :: rest |>)
  | IUnlock e :: rest => Some ([], s <| procs ::= upd e (fun p => p <| p_locked := false |>) |> <| code := rest |>)
  | IDestroy e :: rest => Some ([LDrop e (c_pipe (p_out (procs s e))) (c_pipe (p_err (procs s e)))],
          s <| procs ::= upd e closePipes |> <| code := rest |>)
  | [] => None
  end.
Definition idle (s : st) : bool := match code s with [] => negb (quitting s) | _ => false end.
(** Output.v step as a function. *)
Definition doStep (n : nat) (a : act) (s : st) : option (list label * st) :=
  match a with
  | ACode => doCode s
  | ATime t => if now s <=? t then Some ([], s <| now := t |>) else None
  | AWrite e c d => if p_running (procs s e) && negb (bool_decide (d = [])) then
      Some ([LWrite e c d], s <| procs ::= upd e (withChan c (fun ch => ch <| c_pipe ::= (fun x => x ++ d) |>)) |>) else None
  | ARead e c k =>
      let p := procs s e in let d := take k (c_pipe (chanOf c p)) in let rest := drop k (c_pipe (chanOf c p)) in
      if p_running p && negb (p_locked p) && negb (bool_decide (d = [])) then
        if p_buffered p then Some ([LRead e c d (now s)],
           s <| procs ::= upd e (withChan c (fun ch => mkChannel rest (c_buffers ch ++ [mkItem (now s) d]))) |>)
        else Some ([LRead e c d (now s); LPrint e c d (now s) Direct],
           s <| procs ::= upd e (withChan c (fun ch => ch <| c_pipe := rest |>)) |>)
      else None
  | AOwn e c d => let p := procs s e in
      if idle s && p_active p && negb (p_running p) then
        if p_buffered p then Some ([LOwn e c d (now s)],
           s <| procs ::= upd e (withChan c (fun ch => ch <| c_buffers ::= (fun x => x ++ [mkItem (now s) d]) |>)) |>)
        else Some ([LOwn e c d (now s); LPrint e c d (now s) Direct], s)
      else None
  | AProcStart e => let p := procs s e in
      if idle s && p_active p && negb (p_running p) then
        Some ([LProcStart e], s <| procs ::= upd e (fun p => p <| p_running := true |>) |>) else None
  | AProcEnd e => if idle s && p_running (procs s e) then
      Some ([LProcEnd e; LDrop e (c_pipe (p_out (procs s e))) (c_pipe (p_err (procs s e)))],
           s <| procs ::= upd e closePipes |> <| code := [IPrint e] |>) else None
  | ATake => match avail s with
             | e :: rest => if idle s then Some ([LTake e], s <| avail := rest |> <| procs ::= upd e (fun p => p <| p_active := true |>) |>) else None
             | [] => None
             end
  | AGive e => let p := procs s e in
      if idle s && p_active p && negb (p_running p) then
        let ps := upd e (fun p => p <| p_active := false |>) (procs s) in
        Some ([LGive e], s <| procs := ps |> <| avail ::= (fun x => x ++ [e]) |> <| code := passOn n e ps (avail s ++ [e]) |>)
      else None
  | AQuit => if idle s then Some ([LQuit], s <| quitting := true |> <| code := flat_map (fun e => [IDestroy e; IPrint e]) (seq 0 n) |>) else None
  end.
Fixpoint doRun (n : nat) (l : list act) (s : st) : option (list label * st) :=
  match l with
  | [] => Some ([], s)
  | a :: l => match doStep n a s with
              | Some (ls, s1) => match doRun n l s1 with Some (ls', s2) => Some (ls ++ ls', s2) | None => None end
              | None => None
              end
  end.

Lemma idle_spec s : idle s = true -> code s = [] /\ quitting s = false.
Proof. unfold idle. destruct (code s); [|done]. by destruct (quitting s). Qed.
Lemma doCode_sound s l s' : doCode s = Some (l, s') -> exec1 s l s'.
Proof.
  unfold doCode. intros H. destruct (code s) as [|[e|e b|e|e] rest] eqn:Ec; [done|..].
  - destruct (nextChan (procs s e)) as [c|] eqn:En.
    + destruct (c_buffers (chanOf c (procs s e))) as [|[t d] buf] eqn:Eb; [done|]. simplify_eq. by eapply x_print.
    + simplify_eq. by eapply x_printed.
  - case_decide; simplify_eq; [by eapply x_same|by eapply x_set].
  - simplify_eq. by eapply x_unlock.
  - simplify_eq. by eapply x_destroy.
Qed.
Lemma doStep_sound n a s l s' : doStep n a s = Some (l, s') -> step n s l s'.
Proof.
  destruct a as [|t|e c d|e c k|e c d|e|e| |e|]; cbn; intros H.
  - by apply s_code, doCode_sound.
  - destruct (now s <=? t) eqn:E; simplify_eq. apply s_time. by apply N.leb_le.
  - destruct (p_running (procs s e)) eqn:E1; [|done]. cbn in H. case_bool_decide; cbn in H; simplify_eq. by apply s_write.
  - destruct (p_running (procs s e)) eqn:E1; [|done]. destruct (p_locked (procs s e)) eqn:E2; [done|]. cbn in H.
    case_bool_decide; cbn in H; [done|]. destruct (p_buffered (procs s e)) eqn:E3; simplify_eq.
    + eapply (s_read_buffered n s e c _ (drop k (c_pipe (chanOf c (procs s e))))); try done. by rewrite take_drop.
    + eapply (s_read_direct n s e c _ (drop k (c_pipe (chanOf c (procs s e))))); try done. by rewrite take_drop.
  - destruct (idle s) eqn:Ei; [|done]. apply idle_spec in Ei as [??]. destruct (p_active (procs s e)) eqn:E1; [|done].
    destruct (p_running (procs s e)) eqn:E2; [done|]. cbn in H. destruct (p_buffered (procs s e)) eqn:E3; simplify_eq.
    + by apply s_own_buffered.
    + by apply s_own_direct.
  - destruct (idle s) eqn:Ei; [|done]. apply idle_spec in Ei as [??]. destruct (p_active (procs s e)) eqn:E1; [|done].
    destruct (p_running (procs s e)) eqn:E2; [done|]. cbn in H. simplify_eq. by apply s_procStart.
  - destruct (idle s) eqn:Ei; [|done]. apply idle_spec in Ei as [??]. destruct (p_running (procs s e)) eqn:E2; [|done].
    cbn in H. simplify_eq. by apply s_procEnd.
  - destruct (avail s) as [|e rest] eqn:Ea; [done|]. destruct (idle s) eqn:Ei; [|done]. apply idle_spec in Ei as [??]. simplify_eq. by apply s_take.
  - destruct (idle s) eqn:Ei; [|done]. apply idle_spec in Ei as [??]. destruct (p_active (procs s e)) eqn:E1; [|done].
    destruct (p_running (procs s e)) eqn:E2; [done|]. cbn in H. simplify_eq. by apply s_give.
  - destruct (idle s) eqn:Ei; [|done]. apply idle_spec in Ei as [??]. simplify_eq. by apply s_quit.
Qed.
Lemma doRun_sound n l s ls s' : doRun n l s = Some (ls, s') -> run n s ls s'.
Proof.
  revert s ls. induction l as [|a l IH]; intros s ls H; cbn in H; [simplify_eq; constructor|].
  destruct (doStep n a s) as [[l1 s1]|] eqn:E1; [|done]. destruct (doRun n l s1) as [[l2 s2]|] eqn:E2; [|done]. simplify_eq.
  eapply run_step; [by eapply doStep_sound|by apply IH].
Qed.

(** The labels and the state a list of actions leads to. *)
Definition labelsOf (n : nat) (l : list act) (s : st) : list label := match doRun n l s with Some (ls, _) => ls | None => [] end.
Definition endOf (n : nat) (l : list act) (s : st) : st := match doRun n l s with Some (_, s') => s' | None => s end.
Definition possible (n : nat) (l : list act) (s : st) : bool := match doRun n l s with Some _ => true | None => false end.
Lemma run_of n l s : possible n l s = true -> run n s (labelsOf n l s) (endOf n l s).
Proof.
  unfold possible, labelsOf, endOf. destruct (doRun n l s) as [[ls s']|] eqn:E; [|done]. intros _. by eapply doRun_sound.
Qed.
Lemma step_of n a s l : possible n [a] s = true -> labelsOf n [a] s = l -> step n s l (endOf n [a] s).
Proof.
  unfold possible, labelsOf, endOf. cbn. destruct (doStep n a s) as [[ls s']|] eqn:E; [|done]. intros _ <-.
  rewrite (right_id_L [] (++)). by eapply doStep_sound.
Qed.
