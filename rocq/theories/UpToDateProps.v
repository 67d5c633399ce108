(** C09, C10: the up-to-date decision. *)
From Coq Require Import Relations Ascii String.
From stdpp Require Import prelude gmap.
From Verif Require Import Base Data Infer UpToDate UpToDateSpec UpToDateProofs Graph Exec ExecSpec ExecEx ExecProps.
Local Open Scope N_scope.

(** *** C09 *)

(** The decision, exactly as it is made: the target's file has been seen and neither the dependents nor
    the dependents together with the files that rules would add contain anything newer. Holds for all
    makefiles, time stamps and clocks. *)
Theorem C09_decision sn mk t b ds :
  mk_targets mk !! t = Some b -> notOwnDependent sn mk t b -> allDeps sn b ds ->
  (fst (isTargetUpToDateSnap sn mk t) = true <->
   fileSeen sn b /\ noneNewerCode sn mk (b_deps b) (fileTime sn b) /\ noneNewerCode sn mk ds (fileTime sn b)).
Proof. apply upd_result. Qed.
Print Assumptions C09_decision.

(** A target without dependents and without rules is up to date exactly if its file exists. *)
Theorem C09_no_dependents sn mk t b :
  mk_targets mk !! t = Some b -> b_deps b = [] -> (forall d, ~ inferredFile sn b d) ->
  (fst (isTargetUpToDateSnap sn mk t) = true <-> fileSeen sn b).
Proof.
  intros Hb Hd Hi. rewrite (upd_result sn mk t b []); [|done|..].
  - rewrite Hd. split; [by intros [? _]|]. intros H. split; [done|]. split; apply newer_nil.
  - intros d [H|H]; [rewrite Hd in H; by apply elem_of_nil in H|by destruct (Hi d)].
  - intros d. rewrite Hd. split; [intros H; by apply elem_of_nil in H|].
    intros [H|H]; [done|by destruct (Hi d)].
Qed.
Print Assumptions C09_no_dependents.

(** The property as it is worded. It needs that no dependent carries a time stamp from the future; without
    that it is false (C09_refuted). *)
Theorem C09_up_to_date_partial sn mk t b ds :
  mk_targets mk !! t = Some b -> notOwnDependent sn mk t b -> allDeps sn b ds ->
  (forall d ts, d ∈ ds -> hasStamp sn mk d ts -> ts <= sn_now sn) ->
  (fst (isTargetUpToDateSnap sn mk t) = true <-> fileSeen sn b /\ noneNewer sn mk ds (fileTime sn b)).
Proof.
  intros Hb Hown Hall Hclock. rewrite (upd_result sn mk t b ds) by done. split.
  - intros (H1 & _ & H2 & H3). split; [done|]. intros d Hd. split.
    + intros Hc. apply H2. by exists d.
    + intros Hp ts Hts.
      pose proof (Hclock d ts Hd Hts) as Hle.
      destruct (N.le_gt_cases ts (fileTime sn b)) as [|Hgt]; [done|exfalso].
      assert (Hno : forall d', d' ∈ ds -> ~ countsAsNow sn mk d').
      { intros d' Hd' Hc. assert (sn_now sn <= fileTime sn b) by (apply H2; by exists d'). lia. }
      pose proof (H3 Hno d ts Hd Hts). lia.
  - intros [H1 H2]. split; [done|].
    assert (Hsub : forall d, d ∈ b_deps b -> d ∈ ds) by (intros d Hd; apply Hall; left; exact Hd).
    assert (Hgen : forall l, (forall d, d ∈ l -> d ∈ ds) -> noneNewerCode sn mk l (fileTime sn b)).
    { intros l Hl. split.
      - intros (d & Hd & Hc). destruct (H2 d (Hl d Hd)) as [H3 _]. exact (H3 Hc).
      - intros Hn d ts Hd Hs. destruct (H2 d (Hl d Hd)) as [_ H3]. apply H3; [|exact Hs].
        intros Hp. apply (Hn d Hd). by left. }
    split; by apply Hgen.
Qed.
Print Assumptions C09_up_to_date_partial.

(** Looking at a target changes nothing but what is known about its own file: name, dependents, commands and
    rules stay, all other targets stay. The time stamp is kept exactly if the target is up to date. *)
Theorem C09_leaves_rest_alone sn mk t b :
  mk_targets mk !! t = Some b ->
  let r := isTargetUpToDateSnap sn mk t in
  (forall u, u <> t -> mk_targets (snd r) !! u = mk_targets mk !! u)
  /\ mk_first (snd r) = mk_first mk /\ mk_dir (snd r) = mk_dir mk
  /\ exists b', mk_targets (snd r) !! t = Some b'
       /\ b_name b' = b_name b /\ b_deps b' = b_deps b /\ b_cmds b' = b_cmds b /\ b_rules b' = b_rules b
       /\ (b_exists b' = true <-> fileSeen sn b)
       /\ (fileSeen sn b -> b_time b' = if fst r then fileTime sn b else 0).
Proof.
  intros Hb r. destruct (upd_frame sn mk t b Hb) as (b' & E & [] & He & Ht). fold r in E, Ht. rewrite E.
  split; [intros u Hu; cbn; by rewrite lookup_insert_ne|]. split; [done|]. split; [done|].
  exists b'. split; [apply lookup_insert|]. done.
Qed.
Print Assumptions C09_leaves_rest_alone.

(** What is found up to date in a build is so at that moment. *)
Theorem C09_in_builds xp prep kind w o mk names es s :
  startable o mk -> buildRun xp prep kind w o mk names es s ->
  forall p pre t m post b ds, p ∈ passes (e_log s) -> p_log p = pre ++ LUpToDate t m :: post ->
  let sn := w (mk_tick m) in
  mk_targets m !! t = Some b -> notOwnDependent sn m t b -> allDeps sn b ds ->
  fileSeen sn b /\ noneNewerCode sn m ds (fileTime sn b).
Proof.
  intros Hs Hr p pre t m post b ds Hp E sn Hb Hown Hall.
  pose proof (C01_dealt_with_means _ _ _ _ _ _ _ _ _ Hs Hr p pre _ post Hp E) as H. cbn in H.
  unfold isTargetUpToDate in H. fold sn in H.
  assert (H' : fst (isTargetUpToDateSnap sn m t) = true) by (by destruct (isTargetUpToDateSnap sn m t)).
  apply (upd_result sn m t b ds Hb Hown Hall) in H'. by destruct H' as (? & _ & ?).
Qed.
Print Assumptions C09_in_builds.

(** Examples: out: a b, with a file and a rule .src.out that finds out.src. *)
Definition utdRule : rule := Rule 0 false [46] (s2q ".src") [46] (s2q ".out") 0 [exCmd "conv" 0].
Definition utdMk : mkfile := exMk
  [(s2q "x.out", Block (s2q "x.out") [s2q "a"; s2q "b"] [exCmd "mk" 0] [utdRule] 0 false ACSEnabled);
   exBlock "a" []%string []].
Definition utdSnap (files : list (string * N)) : snap := exWorld files 0%nat.
Definition utdFiles : list (string * N) := [("x.out", 20); ("a", 20); ("b", 7); ("x.src", 13)]%string.
Definition utdBlock : block := Block (s2q "x.out") [s2q "a"; s2q "b"] [exCmd "mk" 0] [utdRule] 0 false ACSEnabled.

Lemma utd_deps files : isSome (sn_stat (utdSnap files) (s2q "x.src")) = true ->
  allDeps (utdSnap files) utdBlock [s2q "a"; s2q "b"; s2q "x.src"].
Proof.
  intros Hx d. split.
  - intros H. rewrite !elem_of_cons in H. destruct H as [->|[->|[->|H]]].
    + left. left.
    + left. right. left.
    + right. split; [|by intros E; rewrite E in Hx]. exists utdRule. split; [left|]. by vm_compute.
    + by apply elem_of_nil in H.
  - intros [H|[(r & Hr & ->) _]].
    + cbn in H. rewrite !elem_of_cons in H. destruct H as [->|[->|H]]; [left|right; left|by apply elem_of_nil in H].
    + cbn in Hr. apply elem_of_list_singleton in Hr as ->. right. right. cbn. left.
Qed.
Lemma utd_own files : notOwnDependent (utdSnap files) utdMk (s2q "x.out") utdBlock.
Proof.
  intros d [H|[(r & Hr & ->) _]].
  - cbn in H. rewrite !elem_of_cons in H. destruct H as [->|[->|H]]; [vm_compute; done..|by apply elem_of_nil in H].
  - cbn in Hr. apply elem_of_list_singleton in Hr as ->. by vm_compute.
Qed.

(** Equal time stamps: up to date. A newer file found through a rule: not. *)
Example C09_case :
  mk_targets utdMk !! s2q "x.out" = Some utdBlock
  /\ notOwnDependent (utdSnap utdFiles) utdMk (s2q "x.out") utdBlock
  /\ allDeps (utdSnap utdFiles) utdBlock [s2q "a"; s2q "b"; s2q "x.src"]
  /\ fst (isTargetUpToDateSnap (utdSnap utdFiles) utdMk (s2q "x.out")) = true
  /\ fst (isTargetUpToDateSnap (utdSnap [("x.out", 20); ("a", 20); ("b", 7); ("x.src", 21)]%string) utdMk (s2q "x.out")) = false
  /\ fst (isTargetUpToDateSnap (utdSnap [("x.out", 20); ("a", 21); ("b", 7)]%string) utdMk (s2q "x.out")) = false
  /\ fst (isTargetUpToDateSnap (utdSnap [("x.out", 20); ("a", 19)]%string) utdMk (s2q "x.out")) = false
  /\ fst (isTargetUpToDateSnap (utdSnap [("a", 19); ("b", 7)]%string) utdMk (s2q "x.out")) = false.
Proof.
  split; [by vm_compute|]. split; [apply utd_own|]. split; [by apply utd_deps|].
  split; [by vm_compute|]. split; [by vm_compute|]. split; [by vm_compute|]. split; by vm_compute.
Qed.

(** The wording of C09 fails for time stamps from the future: a dependent (a, 300) is newer than the target
    (200), but the next dependent (b) is missing, so its time, now (100), replaces the later one. *)
Theorem C09_refuted : exists sn mk t b d ts,
  mk_targets mk !! t = Some b /\ fst (isTargetUpToDateSnap sn mk t) = true
  /\ d ∈ b_deps b /\ ~ pseudoWithCommands mk d /\ hasStamp sn mk d ts /\ fileTime sn b < ts.
Proof.
  exists (utdSnap [("x.out", 200); ("a", 300)]%string), utdMk, (s2q "x.out"), utdBlock, (s2q "a"), 300.
  split; [by vm_compute|]. split; [by vm_compute|]. split; [left|]. split; [|split].
  - intros (b & Hb & _ & Hc). vm_compute in Hb. injection Hb as <-. done.
  - split; [done|]. right. split; [|by vm_compute]. intros b Hb. vm_compute in Hb. by injection Hb as <-.
  - by vm_compute.
Qed.
Print Assumptions C09_refuted.

(** *** C10 *)

(** A missing dependent, or one that is a target with commands and without a file, makes a target out of
    date, provided the target's own file is older than the clock. The proviso is missing in the property
    and is needed (C10_refuted). *)
Theorem C10_missing_dependent_partial sn mk t b d :
  mk_targets mk !! t = Some b -> notOwnDependent sn mk t b -> d ∈ b_deps b -> countsAsNow sn mk d ->
  fileTime sn b < sn_now sn ->
  fst (isTargetUpToDateSnap sn mk t) = false.
Proof.
  intros Hb Hown Hd Hc Ht.
  destruct (fst (isTargetUpToDateSnap sn mk t)) eqn:E; [|done].
  apply (upd_result sn mk t b (addInferred sn (b_name b) (b_rules b) (b_deps b)) Hb Hown) in E.
  2:{ intros x. apply addInferred_spec. }
  destruct E as (_ & [H _] & _). assert (sn_now sn <= fileTime sn b) by (apply H; by exists d). lia.
Qed.
Print Assumptions C10_missing_dependent_partial.

(** In builds: such a target is never found up to date. *)
Theorem C10_in_builds_partial xp prep kind w o mk names es s :
  startable o mk -> buildRun xp prep kind w o mk names es s ->
  forall p pre t m post b d, p ∈ passes (e_log s) -> p_log p = pre ++ LUpToDate t m :: post ->
  let sn := w (mk_tick m) in
  mk_targets m !! t = Some b -> notOwnDependent sn m t b -> d ∈ b_deps b -> countsAsNow sn m d ->
  sn_now sn <= fileTime sn b.
Proof.
  intros Hs Hr p pre t m post b d Hp E sn Hb Hown Hd Hc.
  destruct (C09_in_builds _ _ _ _ _ _ _ _ _ Hs Hr p pre t m post b
    (addInferred sn (b_name b) (b_rules b) (b_deps b)) Hp E Hb Hown) as [_ [H _]].
  { intros x. apply addInferred_spec. }
  apply H. exists d. split; [|done]. apply addInferred_spec. by left.
Qed.
Print Assumptions C10_in_builds_partial.

Example C10_case :
  let sn := utdSnap [("x.out", 20); ("a", 19)]%string in
  mk_targets utdMk !! s2q "x.out" = Some utdBlock /\ notOwnDependent sn utdMk (s2q "x.out") utdBlock
  /\ s2q "b" ∈ b_deps utdBlock /\ countsAsNow sn utdMk (s2q "b") /\ fileTime sn utdBlock < sn_now sn.
Proof.
  split; [by vm_compute|]. split; [apply utd_own|]. split; [right; left|]. split; [|by vm_compute].
  right. intros ts [H [(b & Hb & _)|[_ Hb]]]; vm_compute in Hb; done.
Qed.

(** out: force / force has commands and no file.  The file out is from the future: force is built, out is
    found up to date and its command is not run. *)
Definition forced : mkfile := exMk
  [exBlock "out" ["force"]%string [exCmd "mk" 0]; exBlock "force" []%string [exCmd "gen" 0]].
Definition forcedEvents : list event := [EvStart go; EvExit 0 0 go; EvStart go].
Theorem C10_refuted : exists mk w es s, startable (exOpts false 1) mk
  /\ buildRun exXp exPrep exKind w (exOpts false 1) mk [] es s /\ e_end s = Some (EExit 0)
  /\ map brief (e_log s) = [("root", "out", ""); ("start", "force", ""); ("run", "force", "gen");
       ("ok", "force", "gen"); ("done", "force", ""); ("up to date", "out", "")]%string
  /\ exists b, mk_targets mk !! T "out" = Some b /\ T "force" ∈ b_deps b /\ pseudoWithCommands mk (T "force").
Proof.
  exists forced, (exWorld [("out", 200)]%string), forcedEvents,
    (exFinal (exWorld [("out", 200)]%string) (exOpts false 1) forced [] forcedEvents).
  split; [split; [cbn; lia|intros t [= <-]; vm_compute; eauto]|].
  split; [apply exRun_build; vm_compute; done|]. split; [by vm_compute|]. split; [by vm_compute|].
  eexists. split; [by vm_compute|]. split; [apply elem_of_list_here|].
  eexists. split; [by vm_compute|]. split; [done|]. done.
Qed.
Print Assumptions C10_refuted.
