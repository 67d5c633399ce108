(** C01-C07, C12, C39-C42: builds. Throughout, [xp], [prep], [kind] and [w] are arbitrary, so the theorems
    hold for all macro definitions, command preparations, commands and file system histories, and
    [es] is an arbitrary sequence of events, so they hold for all schedules. *)
From Coq Require Import Relations Ascii String.
From stdpp Require Import prelude gmap.
From Verif Require Import Base Data Infer UpToDate Graph Exec ExecSpec BuildProofs SchedInv PruneProofs ExecProofs TermProofs ExecFacts ExecEx.

(** *** C01 *)

(** When a command of a target is started, everything the target depends on has been dealt with, and no
    command of it is running or will be run later. *)
Theorem C01_dependents_first xp prep kind w o mk names es s :
  startable o mk -> buildRun xp prep kind w o mk names es s ->
  forall p pre t c post, p ∈ passes (e_log s) -> p_log p = pre ++ LCmd t c :: post ->
  neededFor (p_mk p) (p_root p) t
  /\ forall d, dependsTrans (p_mk p) t d -> dealtWith pre d /\ cmdEventsOf d post = [].
Proof.
  intros Hs Hr p pre t c post Hp E. destruct (li_good _ _ _ _ _ (build_LI _ _ _ _ _ _ _ _ _ Hs Hr) p Hp) as [HP [js HT]].
  by eapply cmd_after_deps.
Qed.
Print Assumptions C01_dependents_first.

(** What it means to have been dealt with. *)
Theorem C01_dealt_with_means xp prep kind w o mk names es s :
  startable o mk -> buildRun xp prep kind w o mk names es s ->
  forall p pre e post, p ∈ passes (e_log s) -> p_log p = pre ++ e :: post ->
  match e with
  | LUpToDate t m => fst (isTargetUpToDate w m t) = true
  | LNoCmds t m => forall b, mk_targets m !! t = Some b -> b_cmds b = []
  | LUnbuildable t => o_keep o = true /\ exists d, dependsTrans (p_mk p) t d /\ failed pre d
  | LEnd t f => exists cmds, LStart t cmds ∈ pre /\ ranTo kind t cmds (cmdEventsOf t pre) (Finished f)
  | _ => True
  end.
Proof.
  intros Hs Hr p pre e post Hp E. destruct (li_good _ _ _ _ _ (build_LI _ _ _ _ _ _ _ _ _ Hs Hr) p Hp) as [HP [js HT]].
  destruct e; try done.
  - by destruct (pp_upd _ _ _ _ _ HP _ _ _ _ E).
  - by destruct (pp_nocmd _ _ _ _ _ HP _ _ _ _ E).
  - by destruct (pp_unb _ _ _ _ _ HP _ _ _ E) as (? & ? & _).
  - by eapply end_trace.
Qed.
Print Assumptions C01_dealt_with_means.

Lemma diamond_dep t d b name : mk_targets diamond !! t = Some b -> name ∈ b_deps b -> resolveDep diamond name = Some d -> dependsOn diamond t d.
Proof. intros. by exists b, name. Qed.

Example C01_case :
  let s := exFinal exW (exOpts false 2) diamond [] diamondDone in
  buildRun exXp exPrep exKind exW (exOpts false 2) diamond [] diamondDone s
  /\ (exists p pre post, p ∈ passes (e_log s) /\ p_log p = pre ++ LCmd (T "all") (exCmd "link" 0) :: post
        /\ length pre = 17 /\ p_mk p = diamond)
  /\ dependsTrans diamond (T "all") (T "c") /\ dependsTrans diamond (T "all") (T "b").
Proof.
  cbv zeta. split; [apply exRun_build; vm_compute; done|]. split.
  - eexists (Pass _ _ _), _, _. split; [vm_compute; apply elem_of_list_here|]. split; [|split].
    + cbn [p_log]. vm_compute.
      match goal with |- [?e1;?e2;?e3;?e4;?e5;?e6;?e7;?e8;?e9;?e10;?e11;?e12;?e13;?e14;?e15;?e16;?e17;?e18;?e19;?e20] = _ =>
        apply (eq_refl ([e1;e2;e3;e4;e5;e6;e7;e8;e9;e10;e11;e12;e13;e14;e15;e16;e17] ++ e18 :: [e19;e20])) end.
    + reflexivity.
    + vm_compute. reflexivity.
  - assert (dependsOn diamond (T "all") (T "b")) as H1.
    { eapply (diamond_dep _ _ _ (T "b")); [vm_compute; reflexivity|cbn; apply elem_of_list_further, elem_of_list_here|vm_compute; reflexivity]. }
    assert (dependsOn diamond (T "b") (T "c")) as H2.
    { eapply (diamond_dep _ _ _ (T "c")); [vm_compute; reflexivity|cbn; apply elem_of_list_here|vm_compute; reflexivity]. }
    split; [eapply Relation_Operators.t1n_trans; [exact H1|by apply Relation_Operators.t1n_step]|by apply Relation_Operators.t1n_step].
Qed.

(** *** C02 *)

(** At every moment the commands of at most N targets are running, and of no target two. *)
Theorem C02_at_most_N xp prep kind w o mk names es s :
  startable o mk -> buildRun xp prep kind w o mk names es s ->
  forall sofar, sofar `prefix_of` e_log s -> NoDup (cmdsRunning sofar) /\ length (cmdsRunning sofar) <= o_jobs o.
Proof.
  intros Hs Hr. exact (li_bound _ _ _ _ _ (build_LI _ _ _ _ _ _ _ _ _ Hs Hr)).
Qed.
Print Assumptions C02_at_most_N.

Example C02_case :
  let s := exFinal exW (exOpts false 2) diamond [] diamondEvents in
  buildRun exXp exPrep exKind exW (exOpts false 2) diamond [] diamondEvents s
  /\ cmdsRunning (take 9 (e_log s)) = [T "b"; T "a"].
Proof. cbv zeta. split; [apply exRun_build; vm_compute; done|]. vm_compute. reflexivity. Qed.

(** *** C03 *)

(** Within one pass, a target is started at most once, and not after it was found up to date, without
    commands or unbuildable. *)
Theorem C03_at_most_once xp prep kind w o mk names es s :
  startable o mk -> buildRun xp prep kind w o mk names es s ->
  forall p pre t cmds post, p ∈ passes (e_log s) -> p_log p = pre ++ LStart t cmds :: post ->
  not (started pre t) /\ not (dealtWith pre t) /\ not (started post t).
Proof.
  intros Hs Hr p pre t cmds post Hp E. destruct (li_good _ _ _ _ _ (build_LI _ _ _ _ _ _ _ _ _ Hs Hr) p Hp) as [HP [js HT]].
  destruct (pp_once _ _ _ _ _ HP _ _ _ _ E). split_and!; try done. by eapply start_once.
Qed.
Print Assumptions C03_at_most_once.

(** There is one pass for each requested target, and no command is run outside of a pass. *)
Theorem C03_passes xp prep kind w o mk names es s :
  startable o mk -> buildRun xp prep kind w o mk names es s ->
  e_log s = concat (map (fun p => LRoot (p_root p) (p_mk p) :: p_log p) (passes (e_log s)))
  /\ rootsOf (e_log s) `prefix_of` requested mk names.
Proof.
  intros Hs Hr. split; [apply passes_flat; by eapply build_headed|].
  exact (li_roots _ _ _ _ _ (build_LI _ _ _ _ _ _ _ _ _ Hs Hr)).
Qed.
Print Assumptions C03_passes.

(** c is needed twice but built once. *)
Example C03_case :
  let s := exFinal exW (exOpts false 2) diamond [] diamondDone in
  buildRun exXp exPrep exKind exW (exOpts false 2) diamond [] diamondDone s
  /\ (List.filter (fun x => String.eqb (fst (fst x)) "start" && String.eqb (snd (fst x)) "c") (map brief (e_log s)))
     = [("start", "c", "")]%string.
Proof. cbv zeta. split; [apply exRun_build; vm_compute; done|]. vm_compute. reflexivity. Qed.

(** *** C04 *)

(** Without /K no target is started after a failure. *)
Theorem C04_no_start_after_failure xp prep kind w o mk names es s :
  startable o mk -> buildRun xp prep kind w o mk names es s -> o_keep o = false ->
  forall pre t post, e_log s = pre ++ LEnd t true :: post -> forall x cmds, LStart x cmds ∉ post.
Proof. intros Hs Hr Hk pre t post E. by eapply stops. Qed.
Print Assumptions C04_no_start_after_failure.

(** ... and if jom then ends by itself, it is with exit code 2. *)
Theorem C04_exit_code xp prep kind w o mk names es s :
  startable o mk -> buildRun xp prep kind w o mk names es s -> o_keep o = false ->
  forall t e, LEnd t true ∈ e_log s -> e_end s = Some e ->
  e = EExit 2 \/ e = ECrash.
Proof.
  intros Hs Hr Hk t e Hf He.
  destruct (build_ends _ _ _ _ _ _ _ _ _ Hs Hr ltac:(eauto)) as [E _ _ _ _ Ha Hb|E Hx _|n root rest E _ _ _ Hmk _ _|E _ _ _ _ _|E _|p E Hk' _ _]; rewrite He in E; injection E as ->; auto; try congruence.
  - exfalso. assert (e_allok s = false) as H by (apply Hb; eauto). rewrite (Ha H) in Hk. done.
  - exfalso. rewrite Hx in Hk; eauto. done.
Qed.
Print Assumptions C04_exit_code.

(** Partial: of the running targets only the command that was running when the failure happened is
    waited for, not the whole target; C04_refuted shows that this cannot be improved. *)
Theorem C04_waits_partial xp prep kind w o mk names es s :
  startable o mk -> buildRun xp prep kind w o mk names es s -> o_keep o = false ->
  (exists t, LEnd t true ∈ e_log s) -> e_end s = Some (EExit 2) ->
  forall pre x post, e_log s = pre ++ LEnd x true :: post -> (forall y, LEnd y true ∉ pre) ->
  forall t, t ∈ cmdsRunning pre -> exists c code, LExit t c code ∈ post.
Proof.
  intros Hs Hr Hk Hf He pre x post E Hfirst t Ht.
  destruct (build_ends _ _ _ _ _ _ _ _ _ Hs Hr ltac:(eauto)) as [E' _ _ _ _ Ha Hb|E' Hx _|n root rest E' _ _ _ Hmd _ _|E' _ _ _ Hw Hj|E' _|p E' Hk' _ _]; rewrite He in E'; try done.
  - by destruct (e_allok s).
  - rewrite Hmd in Hk; done.
  - destruct (Hw pre x post E Hfirst t Ht) as [?|(j & Hj1 & Hj2 & Hj3)]; [done|]. by rewrite Hj in Hj3.
Qed.
Print Assumptions C04_waits_partial.

(** y fails while x is running the first of its two commands; jom waits for it, starts the second one and
    exits while that is running. *)
Theorem C04_refuted : exists mk es s, startable (exOpts false 2) mk
  /\ buildRun exXp exPrep exKind exW (exOpts false 2) mk [] es s
  /\ e_end s = Some (EExit 2) /\ cmdsRunning (e_log s) = [T "x"].
Proof.
  exists fork, (forkStart ++ [EvExit 1 1 go; EvExit 0 0 go]), (exFinal exW (exOpts false 2) fork [] (forkStart ++ [EvExit 1 1 go; EvExit 0 0 go])).
  split; [apply fork_startable; lia|]. split; [apply exRun_build; vm_compute; done|]. vm_compute. done.
Qed.
Print Assumptions C04_refuted.

Example C04_case :
  let es := forkStart ++ [EvExit 1 1 go; EvExit 0 0 go] in
  let s := exFinal exW (exOpts false 2) fork [] es in
  buildRun exXp exPrep exKind exW (exOpts false 2) fork [] es s /\ e_end s = Some (EExit 2)
  /\ map brief (e_log s) =
     [("root", "all", ""); ("start", "x", ""); ("run", "x", "x1"); ("start", "y", ""); ("run", "y", "y1");
      ("bad", "y", "y1"); ("failed", "y", ""); ("ok", "x", "x1"); ("run", "x", "x2")]%string.
Proof. cbv zeta. split; [apply exRun_build; vm_compute; done|]. vm_compute. done. Qed.

(** *** C05 *)

(** Nothing that depends on a failed target is run. *)
Theorem C05_dependers_not_run xp prep kind w o mk names es s :
  startable o mk -> buildRun xp prep kind w o mk names es s ->
  forall p t d, p ∈ passes (e_log s) -> failed (p_log p) d -> dependsTrans (p_mk p) t d ->
  not (started (p_log p) t) /\ cmdEventsOf t (p_log p) = [].
Proof.
  intros Hs Hr p t d Hp Hf Hd. destruct (li_good _ _ _ _ _ (build_LI _ _ _ _ _ _ _ _ _ Hs Hr) p Hp) as [HP [js HT]].
  assert (not (started (p_log p) t)) as Hn by by eapply failed_not_started. split; [done|].
  destruct (cmdEventsOf t (p_log p)) eqn:E; [done|]. exfalso. apply Hn. destruct HT as [HT _]. apply (TraceInv.ti_only _ _ _ HT). by rewrite E.
Qed.
Print Assumptions C05_dependers_not_run.

(** When jom ends normally, everything needed that does not depend on a failed target has been built or
    did not need to be, for every requested target. *)
Theorem C05_unrelated_built xp prep kind w o mk names es s code :
  startable o mk -> buildRun xp prep kind w o mk names es s ->
  e_end s = Some (EExit code) -> code <> 2%N ->
  rootsOf (e_log s) = requested mk names
  /\ forall p x, p ∈ passes (e_log s) -> acyclicFrom (p_mk p) (p_root p) -> neededFor (p_mk p) (p_root p) x ->
     failed (p_log p) x \/ (exists d, dependsTrans (p_mk p) x d /\ failed (p_log p) d) \/ dealtWithOk (p_log p) x.
Proof.
  intros Hs Hr He Hc.
  destruct (build_ends _ _ _ _ _ _ _ _ _ Hs Hr ltac:(eauto)) as [E _ _ Hrt Hd _ _|E Hx _|n root rest E _ _ _ Hmk _ _|E _ _ _ _ _|E _|p E Hk' _ _]; rewrite He in E; try done; try congruence.
  split; [done|]. intros p x Hp Hac Hn. destruct (li_good _ _ _ _ _ (build_LI _ _ _ _ _ _ _ _ _ Hs Hr) p Hp) as [HP [js HT]].
  destruct (Hd p Hp Hac x Hn) as [[[] Hw]|[Hw|[Hw|Hw]]]; [by left|..].
  - right; right. by left.
  - right; right. right; by left.
  - right; right. right; by right.
  - right; left. apply elem_of_list_split in Hw as (a & b & E').
    destruct (pp_unb _ _ _ _ _ HP _ _ _ E') as (_ & (d & Hd' & Hfd) & _). exists d. split; [done|].
    unfold failed. rewrite E'. apply elem_of_app. by left.
Qed.
Print Assumptions C05_unrelated_built.

(** With /K the exit code tells whether something failed, unless a needed file is missing (C41). *)
Theorem C05_exit_code xp prep kind w o mk names es s code :
  startable o mk -> buildRun xp prep kind w o mk names es s -> o_keep o = true ->
  e_end s = Some (EExit code) ->
  (code = 2%N /\ exists n root rest, missingDep (w n) (e_mk s) root /\ rootsOf (e_log s) ++ Some root :: rest = requested mk names)
  \/ (code = 1%N /\ exists t, LEnd t true ∈ e_log s) \/ (code = 0%N /\ not (exists t, LEnd t true ∈ e_log s)).
Proof.
  intros Hs Hr Hk He.
  destruct (build_ends _ _ _ _ _ _ _ _ _ Hs Hr ltac:(eauto)) as [E _ _ Hrt Hd _ Ha|E Hx _|n root rest E Hm Hrt' _ _ _ _|E _ Hk2 _ _ _|E _|p E Hk' _ _]; rewrite He in E; try done; try congruence.
  - right. injection E as ->. destruct (e_allok s) eqn:Eo.
    + right. split; [done|]. intros ?%Ha. done.
    + left. split; [done|]. by apply Ha.
  - left. injection E as ->. split; [done|]. by exists n, root, rest.
Qed.
Print Assumptions C05_exit_code.

Example C05_case :
  let s := exFinal exW (exOpts true 2) diamond [] diamondFail in
  buildRun exXp exPrep exKind exW (exOpts true 2) diamond [] diamondFail s /\ e_end s = Some (EExit 1)
  /\ map brief (drop 9 (e_log s)) =
     [("bad", "a", "cla"); ("failed", "a", ""); ("ok", "b", "clb"); ("run", "b", "builtin"); ("ok", "b", "builtin");
      ("run", "b", "clb2"); ("ok", "b", "clb2"); ("done", "b", ""); ("unbuildable", "all", "")]%string.
Proof. cbv zeta. split; [apply exRun_build; vm_compute; done|]. vm_compute. done. Qed.

(** *** C06 *)
Theorem C06_exit_zero xp prep kind w o mk names es s :
  startable o mk -> buildRun xp prep kind w o mk names es s -> e_end s = Some (EExit 0) ->
  rootsOf (e_log s) = requested mk names
  /\ (forall t, LEnd t true ∉ e_log s)
  /\ cmdsRunning (e_log s) = []
  /\ forall p x, p ∈ passes (e_log s) -> acyclicFrom (p_mk p) (p_root p) -> neededFor (p_mk p) (p_root p) x ->
     dealtWithOk (p_log p) x.
Proof.
  intros Hs Hr He.
  destruct (C05_unrelated_built _ _ _ _ _ _ _ _ _ _ Hs Hr He ltac:(done)) as [H1 H2].
  destruct (build_ends _ _ _ _ _ _ _ _ _ Hs Hr ltac:(eauto)) as [E Hrun _ Hrt Hd _ Ha|E Hx _|n root rest E Hm Hrt' _ _ _ _|E _ Hk2 _ _ _|E _|p E Hk' _ _]; rewrite He in E; try done; try congruence.
  destruct (e_allok s) eqn:Eo; [|done].
  assert (forall t, LEnd t true ∉ e_log s) as Hnf. { intros t Ht. assert (true = false); [|done]. apply Ha. by exists t. }
  split_and!; try done. intros p x Hp Hac Hn.
  assert (forall d, not (failed (p_log p) d)) as Hnp.
  { intros d Hf. apply (Hnf d). rewrite (passes_flat _ (build_headed _ _ _ _ _ _ _ _ _ Hs Hr)).
    apply elem_of_list_In, in_concat. exists (unpass p). split; [apply in_map; by apply elem_of_list_In|].
    right. by apply elem_of_list_In. }
  destruct (H2 p x Hp Hac Hn) as [?|[(d & _ & ?)|?]]; [by apply Hnp in H|by apply Hnp in H|done].
Qed.
Print Assumptions C06_exit_zero.

Example C06_case :
  let s := exFinal exW (exOpts false 2) diamond [] diamondDone in
  buildRun exXp exPrep exKind exW (exOpts false 2) diamond [] diamondDone s /\ e_end s = Some (EExit 0)
  /\ length (e_log s) = 21.
Proof. cbv zeta. split; [apply exRun_build; vm_compute; done|]. vm_compute. done. Qed.

