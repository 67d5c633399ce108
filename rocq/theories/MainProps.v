(** Whole runs of jom: C46, C49, and what C01-C06, C42 say about them. *)
From Coq Require Import Ascii String.
From stdpp Require Import prelude gmap.
From RecordUpdate Require Import RecordUpdate.
From Verif Require Import Base Data Infer UpToDate Graph Exec ExecSpec BuildProofs ExecProofs ExecFacts ExecEx ExecProps ExecProps2 Macro Env Opts OptsSpec OptsFlagsProofs LineReader Preproc
  Front FrontSpec FrontProofs FrontProps FileMacros MkParse RulesSpec RulesProofs CmdExec Main MainSpec MainProofs MainEx.
Local Open Scope N_scope.

(** ** C46 *)
(** With .NOTPARALLEL among the targets of a rule at most one command runs at any time, otherwise at most as many as the last /J
    says, or as there are processors. *)
Theorem C46_at_most u n fuel w at_ es b s : 0 < u_cpus u -> jomRun u n fuel w at_ es b s ->
  exists is ms ts rs, says u is ms ts /\ madeFrom rs b /\
  Data.o_jobs (bd_opts b) = (if decide (notParallel rs) then 1%nat else N.to_nat (lastOf OptsSpec.jobsOf is (u_cpus u))) /\
  forall sofar, sofar `prefix_of` e_log s -> (length (cmdsRunning sofar) <= Data.o_jobs (bd_opts b))%nat.
Proof.
  intros Hc H. destruct (jomRun_build _ _ _ _ _ _ _ _ Hc H) as (is & ms & ts & rs & H1 & H2 & _ & _ & H4 & H5 & H6).
  exists is, ms, ts, rs. split_and!; [done|done|by rewrite H4|]. intros sofar Hs. by apply (C02_at_most_N _ _ _ _ _ _ _ _ _ H5 H6).
Qed.
Print Assumptions C46_at_most.

(** Two targets that could run at the same time; -j4 makes a job server for four, but one job is run. *)
Definition serialMk := ["all: aa bb"; "aa: "; "	one"; "bb:"; "	two"; ".NOTPARALLEL:"]%string.
Definition serialRun : list event := [EvStart go; EvExit 0 0 go; EvStart go; EvExit 0 0 go; EvStart go].
Example C46_at_most_ex :
  jomRun (exOut ["-j4"]%string serialMk) 200 2000 exNoFiles exAt serialRun (exBuilding (exOut ["-j4"]%string serialMk) exNoFiles serialRun) (exState (exOut ["-j4"]%string serialMk) exNoFiles serialRun)
  /\ Data.o_jobs (bd_opts (exBuilding (exOut ["-j4"]%string serialMk) exNoFiles serialRun)) = 1%nat
  /\ bd_server (exBuilding (exOut ["-j4"]%string serialMk) exNoFiles serialRun) = Some 4
  /\ e_end (exState (exOut ["-j4"]%string serialMk) exNoFiles serialRun) = Some (EExit 0).
Proof. split; [apply exJom_ok; by vm_compute|]. by vm_compute. Qed.

(** ** C49 *)
(** The exit codes there are. *)
Lemma build_codes xp prep kind w o mk names es s e code : startable o mk -> buildRun xp prep kind w o mk names es s -> e_end s = Some e -> exitCode e = Some code ->
  (code = 0 /\ e = EExit 0) \/
  (code = 1 /\ ((o_keep o = true /\ exists t, LEnd t true ∈ e_log s) \/ e = EError)) \/
  (code = 2 /\ ((o_keep o = false /\ exists t, LEnd t true ∈ e_log s) \/
    exists n root rest, missingDep (w n) (e_mk s) root /\ rootsOf (e_log s) ++ Some root :: rest = requested mk names)).
Proof.
  intros Hs Hr He Hx. destruct (build_ends _ _ _ _ _ _ _ _ _ Hs Hr ltac:(eauto)) as [E _ _ _ _ Ha Hb|E _ _|m root rest E H1 H2 _ _ _ _|E _ H1 H2 _ _|E _|p E _ _ _];
    rewrite He in E; injection E as ->; cbn in Hx; try done; injection Hx as <-.
  - destruct (e_allok s); [by left|]. right. left. split; [done|]. left. split; [by apply Ha|by apply Hb].
  - right. left. split; [done|by right].
  - right. right. split; [done|]. right. by exists m, root, rest.
  - right. right. split; [done|]. by left.
Qed.
Lemma main_codes u n fuel w code : 0 < u_cpus u -> mainStart u n fuel w = MReturns code ->
  (code = 128 /\ ~ exists is ms ts, says u is ms ts) \/
  (code = 0 /\ exists is ms ts, says u is ms ts /\ (has (ch "H") is || has (ch "?") is || hasLong LVersion is) = true) \/
  (code = 3 /\ u_serverOk u = false /\ exists is ms ts cl p, says u is ms ts /\ mainParse u n fuel = MGoesOn (cl, p)) \/
  code = 2.
Proof.
  intros Hcpu. unfold mainStart. destruct (mainParse u n fuel) as [c| | |[cl p]] eqn:E; try done.
  - intros [= ->]. unfold mainParse in E. fold (argumentsOf u) in E.
    destruct (readCommandLine _ _ _ _) as [cl| | |] eqn:E1.
    + destruct (o_usage (c_opts cl) || o_version (c_opts cl)) eqn:E2.
      * injection E as <-. right. left. split; [done|]. apply readCommandLine_iff in E1 as (args' & is & ms & ts & t & H1 & H2 & _ & _ & H3 & _).
        exists is, ms, ts. split; [by exists args'|]. rewrite H3 in E2. exact E2.
      * assert (G : forall (x : mainres (cmdline * parsed)), x = MReturns code ->
          (x = MReturns 2 \/ x = MUndefined \/ x = MNotEnded \/ exists p, x = MGoesOn (cl, p)) -> code = 2).
        { intros x -> [G|[G|[G|[p G]]]]; congruence. }
        right. right. right. eapply G; [exact E|]. destruct (match o_stderr _ with Some _ => _ | None => _ end); [by left|].
        destruct (readEnvironment _ _ _); [|by left]. destruct (if o_ignorePredefined _ then _ else _); [|by left].
        destruct (readMakefile _ _ _ _ _ _ _) as [p| | |]; [|by left|by right; left|by right; right; left].
        right. right. right. by exists p.
    + injection E as <-. left. split; [done|]. intros (is & ms & ts & args' & H1 & H2).
      destruct (readCommandLine_accepted _ (u_cpus u) (freshTable (readSystemEnvironment (u_env u))) _ _ _ _ _ H1 H2) as [?|[? ?]]; congruence.
    + injection E as <-. left. split; [done|]. intros (is & ms & ts & args' & H1 & H2).
      destruct (readCommandLine_accepted _ (u_cpus u) (freshTable (readSystemEnvironment (u_env u))) _ _ _ _ _ H1 H2) as [?|[? ?]]; congruence.
    + injection E as <-. by right; right; right.
  - cbv zeta. destruct (match newServer _ _ _ with Some _ => _ | None => _ end) eqn:E1.
    { intros [= <-]. right. right. left. split_and!; [done|by destruct (newServer _ _ _); [apply negb_true_iff in E1|]|].
      pose proof (mainParse_ok _ _ _ _ _ E) as ((args & is & ms & ts & H1 & H2 & _) & _). exists is, ms, ts, cl, p. split; [by exists args|done]. }
    destruct (negb (clientOk _ _ _)) eqn:E2; [intros [= <-]; by right; right; right|].
    destruct (apply _ _ _ _) as [s0| |c| |] eqn:E3; try done; intros [= <-]; [by right; right; right|]. right. right. right.
    apply (mainParse_build _ _ _ _ _ Hcpu) in E as (is & ms & ts & rs & _ & _ & _ & _ & _ & H6 & H7).
    pose proof (apply_outcome w _ _ (c_targets cl) H6 H7) as HO. rewrite E3 in HO. by destruct HO as [-> _].
Qed.
(** What an exit code means: 128 - the arguments are not a command line; 0 - help or the version is asked for, or
    everything requested has been dealt with and nothing failed; 1 - /K and something failed, or an exception; 2 - main
    gives up before the build, or something failed without /K, or a dependent of a later target is missing; 3 - no job
    server. *)
Theorem C49_meaning u n fuel w at_ code : 0 < u_cpus u -> jomEnds u n fuel w at_ code ->
  (code = 128 /\ ~ exists is ms ts, says u is ms ts) \/
  (code = 0 /\ exists is ms ts, says u is ms ts /\ (has (ch "H") is || has (ch "?") is || hasLong LVersion is) = true) \/
  (code = 0 /\ exists es b s, jomRun u n fuel w at_ es b s /\ rootsOf (e_log s) = requested (pd_mk (bd_parsed b)) (c_targets (bd_cl b)) /\
     (forall t, LEnd t true ∉ e_log s) /\ cmdsRunning (e_log s) = [] /\
     forall p x, p ∈ passes (e_log s) -> acyclicFrom (p_mk p) (ExecSpec.p_root p) -> neededFor (p_mk p) (ExecSpec.p_root p) x -> dealtWithOk (p_log p) x) \/
  (code = 1 /\ exists es b s, jomRun u n fuel w at_ es b s /\
     ((o_keep (bd_opts b) = true /\ exists t, LEnd t true ∈ e_log s) \/ e_end s = Some EError)) \/
  (code = 2 /\ (mainStart u n fuel w = MReturns 2 \/ exists es b s, jomRun u n fuel w at_ es b s /\
     ((o_keep (bd_opts b) = false /\ exists t, LEnd t true ∈ e_log s) \/
      exists m root rest, missingDep (w m) (e_mk s) root /\
        rootsOf (e_log s) ++ Some root :: rest = requested (pd_mk (bd_parsed b)) (c_targets (bd_cl b))))) \/
  (code = 3 /\ u_serverOk u = false /\ exists is ms ts cl p, says u is ms ts /\ mainParse u n fuel = MGoesOn (cl, p)).
Proof.
  intros Hc [H|(es & b & s & e & H & He & Hx)].
  - destruct (main_codes _ _ _ _ _ Hc H) as [[-> ?]|[[-> ?]|[[-> ?]| ->]]]; [by left|by right; left|by do 5 right|].
    do 4 right. left. split; [done|]. by left.
  - destruct (jomRun_build _ _ _ _ _ _ _ _ Hc H) as (is & ms & ts & rs & _ & _ & _ & _ & _ & H5 & H6).
    destruct (build_codes _ _ _ _ _ _ _ _ _ _ _ H5 H6 He Hx) as [[-> ->]|[[-> Hy]|[-> Hy]]].
    + do 2 right. left. split; [done|]. exists es, b, s. destruct (C06_exit_zero _ _ _ _ _ _ _ _ _ H5 H6 He) as (G1 & G2 & G3 & G4).
      by split_and!.
    + do 3 right. left. split; [done|]. exists es, b, s. split; [done|]. rewrite He. destruct Hy as [?| ->]; [by left|by right].
    + do 4 right. left. split; [done|]. right. exists es, b, s. split; [done|]. exact Hy.
Qed.
Print Assumptions C49_meaning.

(** A bad command line is never taken for a good one, and the other way round. *)
Theorem C49_usage u n fuel w at_ : 0 < u_cpus u ->
  (forall is ms ts, says u is ms ts -> ~ jomEnds u n fuel w at_ 128) /\
  ((~ exists is ms ts, says u is ms ts) -> mainStart u n fuel w = MReturns 128 \/ mainStart u n fuel w = MReturns 2).
Proof.
  intros Hc. split.
  - intros is ms ts Hs He. destruct (C49_meaning _ _ _ _ _ _ Hc He) as [[_ H]|[[? _]|[[? _]|[[? _]|[[? _]|[? _]]]]]]; try done. apply H. by exists is, ms, ts.
  - intros Hn. unfold mainStart. destruct (mainParse u n fuel) as [c| | |[cl p]] eqn:E.
    + unfold mainParse in E. fold (argumentsOf u) in E. destruct (readCommandLine _ _ _ _) as [cl| | |] eqn:E1; [|injection E as <-; by auto..].
      exfalso. apply Hn. apply readCommandLine_iff in E1 as (args' & is & ms & ts & t & H1 & H2 & _). exists is, ms, ts. by exists args'.
    + exfalso. apply Hn. unfold mainParse in E. fold (argumentsOf u) in E. destruct (readCommandLine _ _ _ _) as [cl| | |] eqn:E1; [|done..].
      apply readCommandLine_iff in E1 as (args' & is & ms & ts & t & H1 & H2 & _). exists is, ms, ts. by exists args'.
    + exfalso. apply Hn. unfold mainParse in E. fold (argumentsOf u) in E. destruct (readCommandLine _ _ _ _) as [cl| | |] eqn:E1; [|done..].
      apply readCommandLine_iff in E1 as (args' & is & ms & ts & t & H1 & H2 & _). exists is, ms, ts. by exists args'.
    + exfalso. apply Hn. apply mainParse_ok in E as ((args & is & ms & ts & H1 & H2 & _) & _). exists is, ms, ts. by exists args.
Qed.
Print Assumptions C49_usage.

Lemma parsed_says u n fuel : match mainParse u n fuel with MGoesOn _ => True | _ => False end -> exists is ms ts, says u is ms ts.
Proof.
  destruct (mainParse u n fuel) as [| | |[cl p]] eqn:E; try done. intros _.
  apply mainParse_ok in E as ((args & is & ms & ts & H1 & H2 & _) & _). exists is, ms, ts. by exists args.
Qed.
(** One case for each code. *)
Definition twoMk := ["all: aa bb"; "aa: "; "	one"; "bb:"; "	two"; "cc: nix"; "	three"]%string.
Definition out2 (args : list string) : outside := exOut args twoMk.
Definition oneFails : list event := [EvStart go; EvStart go; EvTake; EvAcquired go; EvExit 0 5 go; EvExit 1 0 go].
Definition oneFailsK : list event := [EvStart go; EvStart go; EvTake; EvAcquired go; EvExit 0 5 go; EvExit 1 0 go; EvStart go].
Definition twoWork : list event := [EvStart go; EvStart go; EvTake; EvAcquired go; EvExit 1 0 go; EvExit 0 0 go; EvStart go].
Example C49_meaning_ex :
  jomEnds (out2 ["/k"; "/Zz"]%string) 200 2000 exNoFiles exAt 128 /\
  jomEnds (out2 ["/k"; "/?"]%string) 200 2000 exNoFiles exAt 0 /\
  jomEnds (out2 ["-j2"]%string) 200 2000 exNoFiles exAt 0 /\
  jomEnds (out2 ["-j2"; "/K"]%string) 200 2000 exNoFiles exAt 1 /\
  jomEnds (out2 ["-j2"]%string) 200 2000 exNoFiles exAt 2 /\
  jomEnds (out2 ["cc"]%string) 200 2000 exNoFiles exAt 2 /\
  jomEnds (exOut [] ["!ERROR"]%string) 200 2000 exNoFiles exAt 2 /\
  let u := out2 [] in
  jomEnds (Outside (u_args u) (u_env u) (u_cfiles u) (u_cpus u) (u_app u) (u_cwd u) (u_stderrOk u) (u_fs u) (u_glob u) (u_isRel u) (u_extOrder u) (u_syncOrder u)
    false (u_clientOk u) (u_comspec u) (u_temp u) (u_pid u)) 200 2000 exNoFiles exAt 3.
Proof.
  split; [apply returns_ends; by vm_compute|]. split; [apply returns_ends; by vm_compute|].
  split; [apply (exJom_ends _ _ twoWork (EExit 0)); by vm_compute|].
  split; [apply (exJom_ends _ _ oneFailsK (EExit 1)); by vm_compute|].
  split; [apply (exJom_ends _ _ oneFails (EExit 2)); by vm_compute|].
  split; [apply returns_ends; by vm_compute|]. split; [apply returns_ends; by vm_compute|].
  apply returns_ends; by vm_compute.
Qed.
(** cd to a directory that is not there: jom itself fails, no process has been started. *)
Definition cdFails : list event := [EvStart (Choice 0 [1] true)].
Example C49_cd_ex : jomEnds (exOut [] ["aa:"; "	cd nowhere"]%string) 200 2000 exNoFiles exAt 2.
Proof. apply (exJom_ends _ _ cdFails (EExit 2)); by vm_compute. Qed.
Example C49_usage_ex : (exists is ms ts, says (out2 ["-j2"; "/K"]%string) is ms ts) /\ ~ exists is ms ts, says (out2 ["/k"; "/Zz"]%string) is ms ts.
Proof.
  split.
  - apply (parsed_says _ 200 2000). by vm_compute.
  - assert (H : 0 < u_cpus (out2 ["/k"; "/Zz"]%string)) by done.
    destruct (C49_meaning _ 200 2000 exNoFiles exAt _ H (proj1 C49_meaning_ex)) as [[_ ?]|[[? _]|[[? _]|[[? _]|[[? _]|[? _]]]]]]; done.
Qed.

(** ** C31 for the whole program *)
(** What the command line says reaches the build and the executors: /N, /S and /U, /A, /K unless /I, /Y, the targets. *)
Theorem C31_told u n fuel w b : 0 < u_cpus u -> mainStart u n fuel w = MGoesOn b -> exists is ms ts, says u is ms ts /\
  let x := executorOptions u (bd_cl b) in
  xo_dryRun x = has (ch "N") is /\ xo_quiet x = has (ch "S") is /\ xo_dump x = has (ch "U") is /\
  o_all (bd_opts b) = has (ch "A") is /\ o_keep (bd_opts b) = has (ch "K") is && negb (has (ch "I") is) /\
  Data.o_batch (bd_opts b) = negb (has (ch "Y") is) /\ c_targets (bd_cl b) = firsts ts.
Proof.
  intros Hc H. destruct (mainStart_ok _ _ _ _ _ Hc H) as (is & ms & ts & rs & Hs & _ & Ht & Ho & Hb & _). exists is, ms, ts. split; [done|].
  unfold executorOptions. cbv zeta. rewrite Ho, Hb. split_and!; done.
Qed.
Print Assumptions C31_told.
Example C31_told_ex : let u := out2 ["/su"; "/K"; "/Y"; "cc"; "all"]%string in
  (match mainStart u 200 2000 (exWorld [("nix"%string, 3)]) with
   | MGoesOn b => let x := executorOptions u (bd_cl b) in Some (xo_dryRun x, xo_quiet x, xo_dump x, o_all (bd_opts b), o_keep (bd_opts b), Data.o_batch (bd_opts b), c_targets (bd_cl b))
   | _ => None end) = Some (false, true, true, false, true, false, [s2q "cc"; s2q "all"]).
Proof. by vm_compute. Qed.

(** ** C42 for the whole program *)
Lemma names_known exts sfx irules sync mk0 active mk names xp prep kind w o es s : plain mk0 -> hasFirst mk0 ->
  finishParse exts sfx irules sync mk0 active = Ok (mk, names) -> buildRun xp prep kind w o mk active es s -> ~ None ∈ requested mk active.
Proof.
  intros Hp Hf HF Hr Hno. pose proof (finishParse_finished _ _ _ _ _ _ _ _ Hp Hf HF) as [F D _].
  destruct (decide (mk_targets mk0 = ∅)) as [E0|Hne].
  { unfold finishParse in HF. rewrite decide_True in HF by done. injection HF as <- _. destruct active as [|n ns].
    - unfold requested in Hno. rewrite decide_True in Hno by done. by apply elem_of_nil in Hno.
    - destruct Hr as (s0 & Ha & _). unfold apply in Ha. unfold mk_find in Ha. by rewrite E0, !lookup_empty in Ha. }
  destruct active as [|n ns].
  - unfold requested in Hno. destruct (decide _); [by apply elem_of_nil in Hno|]. destruct (Hf Hne) as (t & b & Ht & _).
    rewrite (F _ Ht) in Hno. by apply elem_of_list_singleton in Hno.
  - destruct (all_or_not mk0 (n :: ns)) as [Hall|(m & Hm & Em)]; [|by rewrite (finish_throws _ _ _ _ _ _ m) in HF].
    unfold requested in Hno. apply elem_of_list_fmap in Hno as (m & Em & Hm). specialize (Hall m Hm). unfold mk_find in *.
    destruct (mk_targets mk !! toLower m) eqn:E1; [done|].
    destruct (mk_targets mk0 !! toLower m) eqn:E2; [destruct (D (toLower m)) as [? Hx]; [by eexists|discriminate (eq_trans (eq_sym E1) Hx)]|].
    destruct (mk_targets mk !! replaceChar 47 92 (toLower m)) eqn:E3; [done|].
    destruct (mk_targets mk0 !! replaceChar 47 92 (toLower m)) eqn:E4; [destruct (D (replaceChar 47 92 (toLower m))) as [? Hx]; [by eexists|discriminate (eq_trans (eq_sym E3) Hx)]|].
    by destruct Hall.
Qed.
(** A build crashes only if the system does not start a process, or if all the commands of a target are
    marked with ! and the lists they repeat over are empty. (In the model also if an expansion has not ended within
    [fuel].) *)
Theorem C42_crash_program u n fuel w at_ es b s : 0 < u_cpus u -> jomRun u n fuel w at_ es b s -> e_end s = Some ECrash ->
  (exists e, e ∈ es /\ launchFails e) \/
  exists t m bl, mk_targets (e_mk s) !! t = Some bl /\ b_cmds bl <> [] /\
    (startCommands (b_name bl) (b_deps bl) (mo_times (at_ m)) fuel (b_cmds bl) = Some FCrash \/
     startCommands (b_name bl) (b_deps bl) (mo_times (at_ m)) fuel (b_cmds bl) = None \/
     exists cs, startCommands (b_name bl) (b_deps bl) (mo_times (at_ m)) fuel (b_cmds bl) = Some (FOk cs) /\
       createTempFiles (executorOptions u (bd_cl b)) (mo_world (at_ m)) fuel cs (cleanupTempFiles (mo_exec (at_ m) <| x_target := b_name bl |>)) = XNone).
Proof.
  intros Hc H He.
  destruct (jomRun_build _ _ _ _ _ _ _ _ Hc H) as (is & ms & ts & rs & _ & HM & _ & _ & _ & H5 & H6).
  destruct HM as (HN & fuel' & dir & mk & sync & exts & sfx & irules & sync' & names & HA & HF).
  destruct (applyRules_table _ _ _ _ _ _ HN HA) as (T1 & T2 & _).
  assert (HX : (exists t m bl, mk_targets (e_mk s) !! t = Some bl /\ b_cmds bl <> [] /\ prepare (executorOptions u (bd_cl b)) fuel at_ (e_mk s) t m = Some []) \/
               exists e, e ∈ es /\ launchFails e).
  { destruct (C42_crash_reasons _ _ _ _ _ _ _ _ _ H5 H6 He) as [Hno|[?|?]]; [|by left|by right]. exfalso.
    exact (names_known _ _ _ _ _ _ _ _ _ _ _ _ _ _ _ T1 T2 HF H6 Hno). }
  destruct HX as [(t & m & bl & Hb & Hne & HP)|?]; [|by left]. right. exists t, m, bl. split_and!; [done|done|].
  unfold prepare in HP. rewrite Hb in HP.
  destruct (startCommands _ _ _ _ _) as [[cs| |]|] eqn:E; [|done|by left|by right; left].
  right. right. exists cs. split; [done|]. destruct (createTempFiles _ _ _ _ _) as [[cs' x]|x|] eqn:E2; [|done|done]. injection HP as ->. exfalso.
  destruct (b_cmds bl) as [|c l]; [done|]. unfold startCommands in E. destruct (expandCommands _ _ _ _ _) as [[[|c' l']| |]|] eqn:E3; try done.
  injection E as <-. cbn [createTempFiles] in E2. destruct (createForCommand _ _ _ _ _ _) as [[line x1]|x1|]; try done.
  by destruct (createTempFiles _ _ _ l' _) as [[cs2 x2]|x2|].
Qed.
Print Assumptions C42_crash_program.


(** A target without dependents whose only command has the modifier !. *)
Definition bangMk := ["aa:"; "	!one $?"]%string.
Example C42_crash_program_ex :
  jomRun (exOut [] bangMk) 200 2000 exNoFiles exAt [EvStart go] (exBuilding (exOut [] bangMk) exNoFiles [EvStart go]) (exState (exOut [] bangMk) exNoFiles [EvStart go])
  /\ e_end (exState (exOut [] bangMk) exNoFiles [EvStart go]) = Some ECrash.
Proof. split; [apply exJom_ok; by vm_compute|]. by vm_compute. Qed.

(** ** C37 for the whole program *)
(** With /N no process is started and so none ends, nothing fails, and the job server is not asked for anything: a dry run is
    startProcesses again and again. *)
Theorem C37_program u n fuel w at_ es b s : 0 < u_cpus u -> jomRun u n fuel w at_ es b s -> exists is ms ts, says u is ms ts /\
  (has (ch "N") is = true ->
   e_jobs s = [] /\ e_net s = 0%Z /\ Forall (fun e => exists c, e = EvStart c) es /\
   (forall t, LEnd t true ∉ e_log s) /\ (forall t c code, LExit t c code ∈ e_log s -> code = 0)).
Proof.
  intros Hc [HM HR]. destruct (mainStart_ok _ _ _ _ _ Hc HM) as (is & ms & ts & rs & Hs & _ & _ & Ho & _ & _ & H7).
  exists is, ms, ts. split; [done|]. intros HN.
  cbv zeta in HR. cbn [executorOptions xo_dryRun xo_comspec] in HR. rewrite Ho in HR. cbn [settings o_dryRun] in HR. rewrite HN in HR.
  assert (Hk : forall c, kindOf true (u_comspec u) c = KBuiltin [0]).
  { by intros c. }
  apply (apply_dry _ _ ) in H7.
  destruct (run_dry _ _ _ _ _ Hk _ _ _ H7 HR) as [[D1 D2 D3 D4 D5 [D6 D7]] HE].
  rewrite Forall_forall in D4. split_and!; [done|done|done| |].
  - intros t Ht. by specialize (D4 _ Ht).
  - intros t c code Hin. exact (D4 _ Hin).
Qed.
Print Assumptions C37_program.
Definition dryRun : list event := let c := Choice 0 [0] true in [EvStart c; EvStart c; EvStart go].
Example C37_program_ex :
  jomRun (out2 ["/N"; "-j2"]%string) 200 2000 exNoFiles exAt dryRun (exBuilding (out2 ["/N"; "-j2"]%string) exNoFiles dryRun) (exState (out2 ["/N"; "-j2"]%string) exNoFiles dryRun)
  /\ e_end (exState (out2 ["/N"; "-j2"]%string) exNoFiles dryRun) = Some (EExit 0)
  /\ length (List.filter (fun e => match e with LExit _ _ _ => true | _ => false end) (e_log (exState (out2 ["/N"; "-j2"]%string) exNoFiles dryRun))) = 2%nat.
Proof. split; [apply exJom_ok; by vm_compute|]. by vm_compute. Qed.

