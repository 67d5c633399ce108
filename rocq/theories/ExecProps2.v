(** Properties C07, C12 and C39-C42 of builds. *)
From Coq Require Import Relations Ascii String.
From stdpp Require Import prelude gmap.
From RecordUpdate Require Import RecordUpdate.
From Verif Require Import Base Data Infer UpToDate Graph Exec ExecSpec BuildProofs SchedInv PruneProofs ExecProofs TermProofs ExecFacts ExecEx ExecProps.
(** *** C07 *)

(** No build goes on for ever: there is no infinite sequence of events after any start. (In particular
    finitely many commands are started; that each of them ends and each token request is granted is the
    assumption that the corresponding events happen.) *)
Theorem C07_terminates xp prep kind w o mk names es s :
  startable o mk -> buildRun xp prep kind w o mk names es s ->
  forall (f : nat -> est) (ev : nat -> event), f 0 = s ->
  not (forall n, step xp prep kind w o (f n) (ev n) = Some (f (S n))).
Proof.
  intros [Hj Hf] (s0 & Ha & Hr) f ev H0 Hs.
  destruct (build_good xp prep kind w o mk names es s (conj Hj Hf) ltac:(by exists s0)) as [[_ HI]|[[x Hx] _]].
  - by eapply no_infinite.
  - specialize (Hs 0). rewrite H0 in Hs. unfold step in Hs. by rewrite Hx in Hs.
Qed.
Print Assumptions C07_terminates.

(** As long as jom has not ended, something it waits for can happen - provided that no process exits with
    code 259 (see C07_refuted). The hypothesis about [kind] says that commands handled by jom itself
    have some exit code. *)
Theorem C07_never_stuck_partial xp prep kind w o mk names es s :
  startable o mk -> buildRun xp prep kind w o mk names es s ->
  (forall c codes, kind c = KBuiltin codes -> codes <> []) ->
  (forall k ch, EvExit k stillActive ch ∉ es) ->
  e_end s = None ->
  exists e s', (forall k, e <> EvGone k) /\ step xp prep kind w o s e = Some s'.
Proof.
  intros [Hj Hf] (s0 & Ha & Hr) Hk H259 He.
  destruct (build_good xp prep kind w o mk names es s (conj Hj Hf) ltac:(by exists s0)) as [[_ HI]|[[x Hx] _]]; [|congruence].
  assert (notHung s) as Hh.
  { eapply run_nh; [|exact H259|exact Hr]. intros j Hin. exfalso.
    destruct (apply_good kind w o mk names s0 Hj Hf Ha) as [[F|(pre & r & mk0 & evs & C & _)] _].
    - destruct F as (_ & F & _). rewrite F in Hin. by apply elem_of_nil in Hin.
    - assert (e_jobs s0 = []) as E; [|rewrite E in Hin; by apply elem_of_nil in Hin].
      by eapply apply_jobs. }
  destruct (progress xp prep kind w o _ Hk s HI Hh He) as (e & s' & Ha' & Hs). exists e, s'. split; [|done].
  intros k ->. done.
Qed.
Print Assumptions C07_never_stuck_partial.

(** A process that exits with code 259 (STILL_ACTIVE) is taken for a running one for ever: here every
    event that was waited for has happened, jom has not ended, and no event is possible. *)
Definition hangEvents : list event := [EvStart go; EvExit 0 259 go; EvStart go; EvTake; EvAcquired go; EvStart go; EvExit 1 0 go; EvStart go; EvStart go].
Theorem C07_refuted : exists mk es s, startable (exOpts false 2) mk
  /\ buildRun exXp exPrep exKind exW (exOpts false 2) mk [] es s
  /\ e_end s = None /\ e_queue s = 0 /\ e_acquiring s = AIdle
  /\ forall e, step exXp exPrep exKind exW (exOpts false 2) s e = None.
Proof.
  assert (exists s, buildRun exXp exPrep exKind exW (exOpts false 2) fork [] hangEvents s
    /\ (e_end s = None /\ e_queue s = 0 /\ e_acquiring s = AIdle)
    /\ exists j, e_jobs s = [j] /\ j_exec j = 0 /\ j_state j = JHung) as (s & Hr & (H1 & H2 & H3) & j & Hj & Hj1 & Hj2).
  { exists (exFinal exW (exOpts false 2) fork [] hangEvents). split; [apply exRun_build; vm_compute; done|].
    split; [vm_compute; done|]. eexists. split; [vm_compute; reflexivity|]. done. }
  exists fork, hangEvents, s. split; [apply fork_startable; lia|]. do 4 (split; [done|]).
  assert (forall k, jobOf k s = None \/ jobOf k s = Some j) as Hjob.
  { intros k. unfold jobOf. rewrite Hj. cbn. destruct (j_exec j =? k)%nat; auto. }
  intros e. unfold step. rewrite H1. destruct e as [ch| |ch|k code ch|k]; rewrite ?H2, ?H3; try done.
  - destruct (Hjob k) as [->| ->]; [done|]. by rewrite decide_False by (rewrite Hj2; done).
  - destruct (Hjob k) as [->| ->]; [done|]. by rewrite Hj2.
Qed.
Print Assumptions C07_refuted.

Example C07_case :
  let s := exFinal exW (exOpts false 2) diamond [] diamondEvents in
  buildRun exXp exPrep exKind exW (exOpts false 2) diamond [] diamondEvents s /\ e_end s = None
  /\ (forall c codes, exKind c = KBuiltin codes -> codes <> []) /\ (forall k ch, EvExit k stillActive ch ∉ diamondEvents)
  /\ isSome (exRun exW (exOpts false 2) diamond [] (diamondEvents ++ [EvStart go])) = true.
Proof.
  cbv zeta. split; [apply exRun_build; vm_compute; done|]. split; [vm_compute; done|]. split; [|split; [|vm_compute; done]].
  - intros c codes. unfold exKind. destruct (qeqb _ _); [by intros [= <-]|done].
  - intros k ch H. repeat (apply elem_of_cons in H as [H|H]; [discriminate H|]). by apply elem_of_nil in H.
Qed.

(** *** C12 *)

(** The commands of a started target are run in order, each only after the one before it has ended with a
    tolerated exit code; the target ends as failed exactly if the last command run exceeded its maximum,
    and successfully exactly if all of them have been run. [ranTo] (ExecSpec.v) spells this out; exit
    codes of crashed processes count as 2. *)
Theorem C12_in_order xp prep kind w o mk names es s :
  startable o mk -> buildRun xp prep kind w o mk names es s ->
  forall p pre t cmds post, p ∈ passes (e_log s) -> p_log p = pre ++ LStart t cmds :: post ->
  cmdEventsOf t pre = []
  /\ exists st, ranTo kind t cmds (cmdEventsOf t post) st /\ forall f, st = Finished f <-> LEnd t f ∈ post.
Proof.
  intros Hs Hr p pre t cmds post Hp E. destruct (li_good _ _ _ _ _ (build_LI _ _ _ _ _ _ _ _ _ Hs Hr) p Hp) as [HP [js HT]].
  by eapply start_trace.
Qed.
Print Assumptions C12_in_order.

(** No command is run outside of this. *)
Theorem C12_only_started xp prep kind w o mk names es s :
  startable o mk -> buildRun xp prep kind w o mk names es s ->
  forall p pre t c post, p ∈ passes (e_log s) -> p_log p = pre ++ LCmd t c :: post ->
  exists cmds, LStart t cmds ∈ pre /\ c ∈ cmds.
Proof.
  intros Hs Hr p pre t c post Hp E. destruct (li_good _ _ _ _ _ (build_LI _ _ _ _ _ _ _ _ _ Hs Hr) p Hp) as [HP [js HT]].
  destruct (cmd_started kind p js HT _ t _ _ E (aboutCmds_cmd t c)) as (pre1 & cmds & mid & -> & _).
  exists cmds. split; [apply elem_of_app; right; by left|].
  rewrite <- app_assoc in E. cbn in E. destruct (start_trace kind w o p js HP HT _ _ _ _ E) as (_ & st & Hrt & _).
  eapply ranTo_mem; [exact Hrt|]. rewrite cmdEventsOf_app, cmdEventsOf_cons, aboutCmds_cmd. apply elem_of_app. right. by left.
Qed.
Print Assumptions C12_only_started.

(** b runs clb, builtin, clb2; "clb" tolerates nothing, so exit code 5 would have ended it. *)
Example C12_case :
  let s := exFinal exW (exOpts true 2) diamond [] diamondFail in
  buildRun exXp exPrep exKind exW (exOpts true 2) diamond [] diamondFail s
  /\ map brief (cmdEventsOf (T "b") (e_log s)) =
     [("run", "b", "clb"); ("ok", "b", "clb"); ("run", "b", "builtin"); ("ok", "b", "builtin"); ("run", "b", "clb2"); ("ok", "b", "clb2")]%string
  /\ map brief (cmdEventsOf (T "a") (e_log s)) = [("run", "a", "cla"); ("bad", "a", "cla")]%string.
Proof. cbv zeta. split; [apply exRun_build; vm_compute; done|]. vm_compute. done. Qed.

(** *** C39 *)

(** With /DUMPGRAPH everything is built all the same. *)
Definition dumpOpts : bopts := Bopts false false true 1 true.
Definition dumpEvents : list event := [EvStart go; EvExit 0 0 go; EvStart go; EvExit 0 0 go].
Theorem C39_refuted : exists mk es s, startable dumpOpts mk /\ o_dump dumpOpts = true
  /\ buildRun exXp exPrep exKind exW dumpOpts mk [] es s
  /\ LCmd (T "c") (exCmd "gen" 0) ∈ e_log s.
Proof.
  exists diamond, dumpEvents, (exFinal exW dumpOpts diamond [] dumpEvents).
  split; [split; [cbn; lia|]; intros t [= <-]; vm_compute; eauto|]. split; [done|]. split; [apply exRun_build; vm_compute; done|].
  vm_compute. repeat first [apply elem_of_list_here|apply elem_of_list_further].
Qed.
Print Assumptions C39_refuted.

(** *** C40 *)

(** The passes are for the requested targets, in the given order; all of them when jom ends with exit code
    0 or 1. Each but the last pass was completed. *)
Theorem C40_all_requested_in_order xp prep kind w o mk names es s :
  startable o mk -> buildRun xp prep kind w o mk names es s ->
  rootsOf (e_log s) `prefix_of` requested mk names
  /\ (forall code, e_end s = Some (EExit code) -> code <> 2%N -> rootsOf (e_log s) = requested mk names)
  /\ (forall p, p ∈ removelast (passes (e_log s)) -> acyclicFrom (p_mk p) (p_root p) ->
      forall x, neededFor (p_mk p) (p_root p) x -> dealtWith (p_log p) x).
Proof.
  intros Hs Hr. pose proof (build_LI _ _ _ _ _ _ _ _ _ Hs Hr) as L. split_and!.
  - apply (li_roots _ _ _ _ _ L).
  - intros code He Hc. by apply (C05_unrelated_built _ _ _ _ _ _ _ _ _ _ Hs Hr He Hc).
  - intros p Hp. by apply (li_done _ _ _ _ _ L p Hp).
Qed.
Print Assumptions C40_all_requested_in_order.

(** ... and if it ends with exit code 2 without a failure, that is because of a missing dependent of the
    next one. *)
Theorem C40_exit_two xp prep kind w o mk names es s :
  startable o mk -> buildRun xp prep kind w o mk names es s -> e_end s = Some (EExit 2) ->
  (o_keep o = false /\ exists t, LEnd t true ∈ e_log s)
  \/ exists n root rest, missingDep (w n) (e_mk s) root /\ rootsOf (e_log s) ++ Some root :: rest = requested mk names.
Proof.
  intros Hs Hr He.
  destruct (build_ends _ _ _ _ _ _ _ _ _ Hs Hr ltac:(eauto)) as [E _ _ Hrt Hd _ Ha|E Hx _|n root rest E Hm Hrt' _ _ _ _|E _ Hk2 Hf _ _|E _|p E Hk' _ _]; rewrite He in E; try done.
  - by destruct (e_allok s).
  - right. by exists n, root, rest.
  - by left.
Qed.
Print Assumptions C40_exit_two.

(** Nothing is known about the times of the targets when a pass but the first begins. *)
Theorem C40_states_forgotten xp prep kind w o mk names es s :
  startable o mk -> buildRun xp prep kind w o mk names es s ->
  forall p, p ∈ tail (passes (e_log s)) ->
  forall t b, mk_targets (p_mk p) !! t = Some b -> b_exists b = false /\ b_time b = 0%N.
Proof. intros Hs Hr. exact (li_fresh _ _ _ _ _ (build_LI _ _ _ _ _ _ _ _ _ Hs Hr)). Qed.
Print Assumptions C40_states_forgotten.

Definition twoEvents : list event := [EvStart go; EvExit 0 0 go; EvStart go; EvStart go].
Example C40_case :
  let s := exFinal exW (exOpts false 1) diamond [T "c"; T "b"] twoEvents in
  buildRun exXp exPrep exKind exW (exOpts false 1) diamond [T "c"; T "b"] twoEvents s
  /\ requested diamond [T "c"; T "b"] = [Some (T "c"); Some (T "b")]
  /\ map brief (e_log s) =
     [("root", "c", ""); ("start", "c", ""); ("run", "c", "gen"); ("ok", "c", "gen"); ("done", "c", "");
      ("root", "b", ""); ("start", "c", ""); ("run", "c", "gen")]%string.
Proof. cbv zeta. split; [apply exRun_build; vm_compute; done|]. vm_compute. done. Qed.

(** *** C41 *)

(** If the first requested target needs a file that is neither there nor a target, jom ends with exit code
    2 before doing anything; otherwise the build begins. *)
Theorem C41_missing_dependent w o mk names t rest :
  startable o mk -> o_dump o = false -> requested mk names = Some t :: rest ->
  (missingDep (w (mk_tick mk)) mk t -> apply w o mk names = Exits 2)
  /\ (not (missingDep (w (mk_tick mk)) mk t) -> exists s0, apply w o mk names = Ok s0).
Proof.
  intros [Hj Hf] Hd Hreq.
  assert (is_Some (mk_targets mk !! t)) as Ht.
  { destruct names as [|n ns]; cbn in Hreq.
    - destruct (decide _); [done|]. injection Hreq as Hreq _. by apply Hf.
    - injection Hreq as Hreq _. by eapply find_in. }
  pose proof (buildGraph_spec (w (mk_tick mk)) mk emptyGraph t eq_refl eq_refl Ht) as Hb.
  assert (forall pend, match buildGraph (w (mk_tick mk)) mk emptyGraph t with
    | Ok _ => e_end (newRoot w t (initState o mk pend 1)) = None
    | Exits c => e_end (newRoot w t (initState o mk pend 1)) = Some (EExit c)
    | _ => True end) as Hn.
  { intros pend. unfold newRoot. change (e_mk (initState o mk pend 1)) with mk. change (e_g (initState o mk pend 1)) with emptyGraph.
    by destruct (buildGraph (w (mk_tick mk)) mk emptyGraph t). }
  assert (exists pend, apply w o mk names =
    match e_end (newRoot w t (initState o mk pend 1)) with
    | Some (EExit c) => Exits c | Some EError => Throws | Some ECrash => Crashes | Some EDiverge => Diverges
    | None => Ok (newRoot w t (initState o mk pend 1) <| e_queue := 2 |>) end) as [pend Ha].
  { unfold apply. destruct names as [|n ns]; cbn [requested] in Hreq.
    - destruct (decide (mk_targets mk = ∅)); [done|]. injection Hreq as Hreq _. rewrite Hreq. exists []. by rewrite Hd.
    - cbn in Hreq. injection Hreq as Hreq _. rewrite Hreq. eexists. rewrite Hd. reflexivity. }
  rewrite Ha. specialize (Hn pend).
  destruct (buildGraph (w (mk_tick mk)) mk emptyGraph t) as [g| |c| |]; try done.
  - rewrite Hn. destruct Hb as [Hb _]. split; [intros Hm; by destruct (bl_files _ _ _ _ Hb)|eauto].
  - rewrite Hn. destruct Hb as [-> Hm]. split; [done|]. intros Hnm. by destruct Hnm.
Qed.
Print Assumptions C41_missing_dependent.

(** In diamond, a needs the file src. *)
Example C41_case :
  apply (exWorld []) (exOpts false 2) diamond [] = Exits 2
  /\ missingDep (exWorld [] 0) diamond (T "all") /\ requested diamond [] = [Some (T "all")].
Proof.
  split; [vm_compute; done|]. split; [|vm_compute; done].
  eexists (T "a"), _, (T "src"). split; [right; apply Relation_Operators.t1n_step; eexists _, (T "a"); split; [vm_compute; reflexivity|]|].
  - split; [apply elem_of_list_here|vm_compute; done].
  - split; [vm_compute; reflexivity|]. split; [apply elem_of_list_further, elem_of_list_here|]. vm_compute. done.
Qed.

(** *** C42 *)

(** jom never runs into undefined behaviour or qFatal while building, except for three reasons: a name on
    the command line after the first is not a target, the preparation of a target's commands leaves
    none, or the operating system does not start a process. (TargetExecutor on its own; the parser excludes the first
    reason, see C42_crash_reasons_program in FrontProps.v.) *)
Theorem C42_crash_reasons xp prep kind w o mk names es s :
  startable o mk -> buildRun xp prep kind w o mk names es s -> e_end s = Some ECrash ->
  None ∈ requested mk names \/ (exists t n b, mk_targets (e_mk s) !! t = Some b /\ b_cmds b <> [] /\ prep (e_mk s) t n = Some []) \/ exists e, e ∈ es /\ launchFails e.
Proof.
  intros Hs Hr He.
  destruct (build_ends _ _ _ _ _ _ _ _ _ Hs Hr ltac:(eauto)) as [E _ _ Hrt Hd _ Ha|E Hx _|n root rest E Hm Hrt' _ _ _ _|E _ Hk2 Hf _ _|E Hc|p E Hk' _ _]; rewrite He in E; try done.
Qed.
Print Assumptions C42_crash_reasons.

(** It never recurses without end, except with /K after a failure when the dependencies are cyclic. *)
Theorem C42_endless_recursion xp prep kind w o mk names es s :
  startable o mk -> buildRun xp prep kind w o mk names es s -> e_end s = Some EDiverge ->
  o_keep o = true /\ exists p, p ∈ passes (e_log s) /\ not (acyclicFrom (p_mk p) (p_root p)).
Proof.
  intros Hs Hr He.
  destruct (build_ends _ _ _ _ _ _ _ _ _ Hs Hr ltac:(eauto)) as [E _ _ Hrt Hd _ Ha|E Hx _|n root rest E Hm Hrt' _ _ _ _|E _ Hk2 Hf _ _|E Hc|p E Hk' Hp Hac]; rewrite He in E; try done.
  split; [done|]. by exists p.
Qed.
Print Assumptions C42_endless_recursion.

(** Exceptions come from the preparation of commands or from inference rules only. *)
Theorem C42_exception_reasons xp prep kind w o mk names es s :
  startable o mk -> buildRun xp prep kind w o mk names es s -> e_end s = Some EError ->
  (exists t n b, mk_targets (e_mk s) !! t = Some b /\ b_cmds b <> [] /\ prep (e_mk s) t n = None) \/ (exists sn m ts, applyInferenceRules xp o sn m ts = None).
Proof.
  intros Hs Hr He.
  destruct (build_ends _ _ _ _ _ _ _ _ _ Hs Hr ltac:(eauto)) as [E _ _ Hrt Hd _ Ha|E Hx Hy|n root rest E Hm Hrt' _ _ _ _|E _ Hk2 Hf _ _|E Hc|p E Hk' Hp Hac]; rewrite He in E; try done.
Qed.
Print Assumptions C42_exception_reasons.

(** A second name that is not a target is dereferenced as a null pointer once the first is built.
    TargetExecutor::apply checks the first name only; what saves the program is the check in
    parser.cpp:111-117. *)
Definition crashEvents : list event := [EvStart go; EvExit 0 0 go; EvStart go].
Theorem C42_unknown_name_crashes : exists mk names es s, startable (exOpts false 1) mk
  /\ buildRun exXp exPrep exKind exW (exOpts false 1) mk names es s /\ e_end s = Some ECrash /\ None ∈ requested mk names.
Proof.
  exists diamond, [T "c"; T "nope"], crashEvents, (exFinal exW (exOpts false 1) diamond [T "c"; T "nope"] crashEvents).
  split; [apply diamond_startable; lia|]. split; [apply exRun_build; vm_compute; done|]. split; [vm_compute; done|].
  vm_compute. apply elem_of_list_further, elem_of_list_here.
Qed.
Print Assumptions C42_unknown_name_crashes.
