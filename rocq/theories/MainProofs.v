(** Lemmas about a whole run of jom. *)
From Coq Require Import Ascii String.
From stdpp Require Import prelude gmap.
From RecordUpdate Require Import RecordSet.
Import RecordSetNotations.
From Verif Require Import Base BaseProofs Data Infer UpToDate UpToDateProofs Graph Exec ExecSpec Macro MacroSpec Env Opts OptsSpec OptsProofs OptsWordProofs OptsLineProofs OptsFlagsProofs
  LineReader PPLex Preproc BuildProofs Front FrontSpec FrontProofs FrontProps FileMacros MkParse RulesSpec RulesProofs CmdExec Main MainSpec.
Local Open Scope N_scope.

(** ** The command line *)
(** Arguments of the right form are accepted unless a macro cannot be defined. *)
Lemma arguments_accepted args is ms ts : commandLine args is ms ts -> forall n st,
  (List.length args <= n)%nat -> s_rest (r_o st) = args -> flagsInv (s_flags (r_o st)) ->
  argumentLoop n st = CThrow \/ exists st', argumentLoop n st = COk st'.
Proof.
  induction 1 as [|c w r is r' is' ms ts Hc Hw _ IH|n v r is ms ts Hs Hn Hv _ IH|t0 r is ms ts Hs Hn _ IH];
    intros n0 st Hlen Hr Hf.
  - right. exists st. destruct n0; cbn [argumentLoop]; by rewrite Hr.
  - destruct n0 as [|n0]; [cbn in Hlen; lia|]. cbn [argumentLoop]. rewrite Hr.
    cbn [oneArgument]. assert (((c =? ch "-") || (c =? ch "/")) = true) as ->.
    { apply orb_true_iff. rewrite !N.eqb_eq. done. }
    cbn [r_o]. set (o1 := r_o st <| s_rest := r |>).
    destruct (word_complete _ _ _ _ Hw (List.length (trimmed w)) o1) as [E Hf2]; [lia|done|done|].
    unfold handleOption. rewrite E. apply optionWord_rest in Hw. cbn in Hlen.
    apply IH; [lia|done|done].
  - destruct n0 as [|n0]; [cbn in Hlen; lia|]. cbn [argumentLoop]. rewrite Hr.
    set (st1 := Rstate (r_o st <| s_rest := r |>) (r_targets st) (r_macros st) (r_explicit st)).
    assert (E1 : oneArgument (n ++ ch "=" :: v) st1 = macroArgument (trimmed n) (trimLeft v) st1).
    { unfold oneArgument. destruct (n ++ ch "=" :: v) as [|x y] eqn:Exy; [by destruct n|].
      rewrite (not_signed' x y) by done. rewrite <- Exy. change 61 with (ch "="). rewrite indexOfChar_at by done.
      unfold qleft. rewrite take_app.
      replace (drop (S (List.length n)) (n ++ ch "=" :: v)) with v; [done|].
      symmetry. replace (S (List.length n)) with (List.length (n ++ [ch "="])) by (rewrite app_length; cbn; lia).
      change (ch "=" :: v) with ([ch "="] ++ v). rewrite app_assoc. apply drop_app. }
    rewrite E1. cbn in Hlen.
    assert (macroArgument (trimmed n) (trimLeft v) st1 = CThrow \/ exists st2, macroArgument (trimmed n) (trimLeft v) st1 = COk st2) as [->|[st2 E2]].
    { unfold macroArgument. rewrite Hv. destruct (if containsStr _ _ then _ else _) as [t1|]; [|by left]. cbv zeta.
      destruct (_ && _); [|right; by eexists]. destruct (defineCommandLine _ _ _ _); [right; by eexists|by left]. }
    { by left. }
    rewrite E2. apply (macroArgument_ok _ _ _ _ Hv) in E2 as (t & _ & ->). apply IH; [lia|done|done].
  - destruct n0 as [|n0]; [cbn in Hlen; lia|]. cbn [argumentLoop]. rewrite Hr.
    set (st1 := Rstate (r_o st <| s_rest := r |>) (r_targets st) (r_macros st) (r_explicit st)).
    assert (E1 : oneArgument t0 st1 = COk (Rstate (r_o st1) (addTarget (r_targets st) (trimmed t0)) (r_macros st) (r_explicit st))).
    { unfold oneArgument, addTarget. destruct t0 as [|x y].
      - by rewrite containsStr_iff.
      - rewrite (not_signed' x y) by done. change 61 with (ch "="). rewrite indexOfChar_notin by done.
        by rewrite containsStr_iff. }
    rewrite E1. cbn in Hlen. apply IH; [lia|done|done].
Qed.

Lemma readCommandLine_accepted fs cpus mt args args' is ms ts : expandsArgs fs args args' -> commandLine args' is ms ts ->
  readCommandLine fs cpus mt args = CThrow \/ exists cl, readCommandLine fs cpus mt args = COk cl.
Proof.
  intros He Hc. apply expandCommandFiles_iff in He. unfold readCommandLine. rewrite He.
  destruct (arguments_accepted _ _ _ _ Hc (List.length args') (Rstate (Ostate (defaultOpts cpus) args' None []) [] mt [])) as [->|[st ->]]; [done|done| |by left|].
  { cbn. apply flagsInv_nil. }
  cbv zeta. destruct (setMacroValue _ _ _); [right; by eexists|by left].
Qed.

(** ** The end of parsing *)
Lemma preselect_ind (P : mkfile -> Prop) exts rules :
  (forall mk t, P mk -> P (selectOwn exts rules mk t)) ->
  (forall mk n, P mk -> findRules exts rules n <> [] -> P (createTarget mk n (findRules exts rules n))) ->
  forall fuel st t st', preselect fuel exts rules st t = Some st' -> P (fst st) -> P (fst st').
Proof.
  intros HS HC. induction fuel as [|fuel IH]; intros st t st' H HP; [done|]. cbn [preselect] in H.
  destruct (decide (t ∈ snd st)); [by injection H as <-|].
  assert (HD : forall deps st1 st2, preselectDeps (preselect fuel exts rules) exts rules deps st1 = Some st2 -> P (fst st1) -> P (fst st2)).
  { intros deps. induction deps as [|d deps IHd]; intros st1 st2 H1 HP1; [by injection H1 as <-|]. cbn [preselectDeps] in H1.
    destruct (mk_find (fst st1) d) as [c|].
    - destruct (preselect fuel exts rules st1 c) as [st3|] eqn:E; [|done]. eapply IHd; [done|]. by eapply IH.
    - cbv zeta in H1. eapply IHd; [done|]. destruct (isNil _) eqn:En; [done|]. cbn [fst]. apply HC; [done|]. intros E. by rewrite E in En. }
  cbv zeta in H. destruct (preselectDeps _ _ _ _ _) as [[mk2 pre]|] eqn:E; [|done]. injection H as <-. cbn [fst].
  apply (HD _ _ _ E). cbn [fst]. by apply HS.
Qed.
Lemma checkRoots_ind (P : mkfile -> Prop) exts rules :
  (forall mk t, P mk -> P (selectOwn exts rules mk t)) ->
  (forall mk n, P mk -> findRules exts rules n <> [] -> P (createTarget mk n (findRules exts rules n))) ->
  forall names mk done pre mk' done', checkRoots exts rules mk done pre names = Ok (mk', done') -> P mk -> P mk'.
Proof.
  intros HS HC. induction names as [|n names IH]; intros mk dn pre mk' dn' H HP; cbn [checkRoots] in H; [by injection H as <- _|].
  destruct (mk_find mk n) as [t|]; [|done]. destruct (checkForCycles _ _ _ _ _); try done.
  destruct (preselect _ _ _ _ _) as [[mk1 pre1]|] eqn:E; [|done]. eapply IH; [done|].
  by apply (preselect_ind P exts rules HS HC _ _ _ _ E).
Qed.

Lemma uses_native rs n r : nativeRules rs -> (n, r) ∈ uses rs -> native n.
Proof.
  intros HN Hi. unfold uses in Hi. apply elem_of_list_In, in_flat_map in Hi as (r' & Hr & Hi). apply in_map_iff in Hi as (x & E & Hx). injection E as <- <-.
  apply elem_of_list_In, elem_of_list_filter in Hx as [_ Hx]. apply elem_of_list_In in Hr. unfold nativeRules in HN. rewrite Forall_forall in HN.
  specialize (HN _ Hr). rewrite Forall_forall in HN. by apply HN.
Qed.
Lemma nativeRules_strip rs : nativeRules rs -> nativeRules (map strip rs).
Proof. unfold nativeRules. rewrite !Forall_forall. intros H r Hr. apply elem_of_list_fmap in Hr as (r0 & -> & Hr0). exact (H r0 Hr0). Qed.
Lemma tableFor_hasFirst mk us : (forall n r, (n, r) ∈ us -> native n) -> tableFor mk us ->
  hasFirst mk /\ (mk_targets mk = ∅ -> mk_first mk = None) /\ wf mk.
Proof.
  intros HN (W & HF & HB & HU). split_and!; [|..|done].
  - intros Hne. apply map_choose in Hne as (t & b & Hb).
    destruct (HB _ _ Hb) as (rs & Hu & (r0 & rs0 & -> & _) & _). destruct us as [|[n r] us]; [inversion Hu|].
    destruct (HU n r) as (t' & b' & Hb' & Hs); [by left|]. exists t', b'. destruct (W _ _ Hb') as [-> Hn]. split_and!; try done.
    rewrite HF. f_equal. apply sameName_lower; [by apply (HN n r); left|done|done].
  - intros E. destruct us as [|[n r] us]; [done|]. destruct (HU n r) as (t' & b' & Hb' & Hs); [by left|]. by rewrite E in Hb'.
Qed.

(** What parsing makes of the table of the rules: [mk] is [mk0] with dependents from .SYNC, inference rules for
    targets without commands, and new targets that have nothing but inference rules. *)
Record finished (irules : list rule) (mk0 mk : mkfile) : Prop := {
  fi_first : forall t, mk_first mk0 = Some t -> mk_first mk = Some t;
  fi_dom : forall t, is_Some (mk_targets mk0 !! t) -> is_Some (mk_targets mk !! t);
  fi_old : forall t b, mk_targets mk !! t = Some b ->
    keyOf (b_name b) = t /\ (b_rules b = [] \/ b_cmds b = []) /\ (forall r, r ∈ b_rules b -> r ∈ irules) /\
    ((exists b0, mk_targets mk0 !! t = Some b0 /\ b_name b = b_name b0 /\ b_cmds b = b_cmds b0 /\ forall d, d ∈ b_deps b0 -> d ∈ b_deps b) \/
     (b_cmds b = [] /\ b_deps b = [] /\ b_rules b <> []));
}.
Definition plain (mk : mkfile) : Prop := forall t b, mk_targets mk !! t = Some b -> keyOf (b_name b) = t /\ b_rules b = [].
Lemma finished_refl irules mk : plain mk -> finished irules mk mk.
Proof.
  intros Hp. split; [done|done|]. intros t b Hb. destruct (Hp _ _ Hb) as [? ->]. split_and!; [done|by left| |left; by exists b].
  intros r Hr. by apply elem_of_nil in Hr.
Qed.
Lemma findRules_in exts irules n r : r ∈ findRules exts irules n -> r ∈ irules.
Proof.
  unfold findRules. intros H. apply elem_of_list_In, in_flat_map in H as (e & _ & H). destruct (endsWith_ci _ _); [|done].
  apply filter_In in H as [H _]. by apply elem_of_list_In.
Qed.
Lemma finished_selectOwn exts irules mk0 mk t : finished irules mk0 mk -> finished irules mk0 (selectOwn exts irules mk t).
Proof.
  intros [F D O]. unfold selectOwn. destruct (mk_targets mk !! t) as [b|] eqn:E; [|by split]. destruct (isNil (b_cmds b)) eqn:En; [|by split].
  destruct (isNil (findRules _ _ _)) eqn:Ef; [by split|]. split.
  - done.
  - intros k Hk. apply D in Hk. rewrite setBlock_lookup. destruct (decide (t = k)); [by eexists|done].
  - intros k x. rewrite setBlock_lookup. destruct (decide (t = k)) as [<-|]; [|by apply O]. intros [= <-].
    destruct (O _ _ E) as (H1 & H2 & H3 & H4). cbn. split_and!; [done| | |].
    + right. by destruct (b_cmds b).
    + intros r Hr. by eapply findRules_in.
    + destruct H4 as [H4|(H4 & H5 & H6)]; [by left|]. right. split_and!; try done. intros Hx. by rewrite Hx in Ef.
Qed.
Lemma finished_createTarget exts irules mk0 mk n : finished irules mk0 mk -> findRules exts irules n <> [] -> finished irules mk0 (createTarget mk n (findRules exts irules n)).
Proof.
  intros [F D O] Hne. split.
  - intros k Hk. apply F in Hk. cbn. by rewrite Hk.
  - intros k Hk. apply D in Hk. cbn. destruct (decide (keyOf n = k)) as [<-|]; [rewrite lookup_insert; by eexists|by rewrite lookup_insert_ne].
  - intros k x. cbn [createTarget mk_targets]. destruct (decide (keyOf n = k)) as [<-|]; [|rewrite lookup_insert_ne by done; by apply O].
    rewrite lookup_insert. intros [= <-]. cbn. split_and!; [done|by right| |by right]. intros r Hr. by eapply findRules_in.
Qed.
Lemma finished_sync irules sync mk0 : plain mk0 -> finished irules mk0 (applySync sync mk0).
Proof.
  intros Hp. set (Q := fun mk : mkfile => mk_first mk = mk_first mk0 /\ (forall t, is_Some (mk_targets mk0 !! t) -> is_Some (mk_targets mk !! t)) /\
    forall t b, mk_targets mk !! t = Some b -> keyOf (b_name b) = t /\ b_rules b = [] /\
      exists b0, mk_targets mk0 !! t = Some b0 /\ b_name b = b_name b0 /\ b_cmds b = b_cmds b0 /\ forall d, d ∈ b_deps b0 -> d ∈ b_deps b).
  assert (HQ : forall mk, Q mk -> Q (applySync sync mk)).
  { clear Hp. induction sync as [|[k ds] sync' IH]; intros mk H; [done|]. cbn [applySync]. destruct (mk_find mk k) as [t|]; [|done].
    destruct (mk_targets mk !! t) as [b|] eqn:E; [|done]. apply IH. destruct H as (F & D & O). split_and!.
    - done.
    - intros k' Hk. apply D in Hk. rewrite setBlock_lookup. destruct (decide (t = k')); [by eexists|done].
    - intros k' x. rewrite setBlock_lookup. destruct (decide (t = k')) as [<-|]; [|by apply O]. intros [= <-].
      destruct (O _ _ E) as (H1 & H2 & b0 & H3 & H4 & H5 & H6). cbn. split_and!; [done|done|]. exists b0. split_and!; try done.
      intros d Hd. apply removeDups_in. apply elem_of_app. left. by apply H6. }
  destruct (HQ mk0) as (F & D & O).
  { split_and!; [done|done|]. intros t b Hb. destruct (Hp _ _ Hb) as [H1 H2]. split_and!; [done|done|]. by exists b. }
  split; [congruence|done|]. intros t b Hb. destruct (O _ _ Hb) as (H1 & H2 & H3). rewrite H2. split_and!; [done|by left| |by left].
  intros r Hr. by apply elem_of_nil in Hr.
Qed.
Lemma finishParse_finished exts sfx irules sync mk0 active mk names : plain mk0 -> hasFirst mk0 ->
  finishParse exts sfx irules sync mk0 active = Ok (mk, names) -> finished (calculatePriorities sfx irules) mk0 mk.
Proof.
  intros Hp Hf. unfold finishParse. destruct (decide (mk_targets mk0 = ∅)); [intros [= <- _]; by apply finished_refl|].
  destruct (existsb _ _); [done|]. set (names' := match active with [] => _ | _ => _ end). destruct names' as [ns|]; [|done].
  destruct (checkRoots _ _ _ _ _ _) as [[mk1 dn]| | | |] eqn:E; try done. destruct (resetRoots _ _ _); [|done]. intros [= <- _].
  eapply (checkRoots_ind (finished (calculatePriorities sfx irules) mk0)); [| |exact E|by apply finished_sync].
  - intros m t. apply finished_selectOwn.
  - intros m x. apply finished_createTarget.
Qed.

Lemma addRuleFor_rules fuel r mk n mk' : addRuleFor fuel r mk n = POk mk' ->
  (forall t b, mk_targets mk !! t = Some b -> b_rules b = []) -> forall t b, mk_targets mk' !! t = Some b -> b_rules b = [].
Proof.
  unfold addRuleFor. intros H HR.
  assert (G : forall mk1 t (b : block) deps cmds a, (forall t b, mk_targets mk1 !! t = Some b -> b_rules b = []) -> mk_targets mk1 !! t = Some b ->
     forall t' b', mk_targets (setBlock mk1 t (Block (b_name b) deps cmds (b_rules b) (b_time b) (b_exists b) a)) !! t' = Some b' -> b_rules b' = []).
  { intros mk1 t b deps cmds a H1 Hb t' b'. rewrite setBlock_lookup. destruct (decide (t = t')); [|by apply H1]. intros [= <-]. cbn. by eapply H1. }
  destruct (mk_find mk n) as [t|].
  - destruct (mk_targets mk !! t) as [b|] eqn:E; [|done]. destruct (_ && _); [done|]. cbn [bindR] in H. rewrite E in H.
    destruct (expandDependents _ _ _ _) as [[deps| |]|]; try done. injection H as <-. by apply G.
  - cbn [bindR] in H. destruct (mk_targets (createTarget mk n []) !! keyOf n) as [b|] eqn:E; [|done].
    destruct (expandDependents _ _ _ _) as [[deps| |]|]; try done. injection H as <-. apply G; [|done].
    intros t b' Hb. cbn in Hb. apply lookup_insert_Some in Hb as [[_ <-]|[_ Hb]]; [done|by eapply HR].
Qed.
Lemma addRule_rules fuel r names : forall st mk' ser', addRule fuel r names st = POk (mk', ser') ->
  (forall t b, mk_targets (fst st) !! t = Some b -> b_rules b = []) -> forall t b, mk_targets mk' !! t = Some b -> b_rules b = [].
Proof.
  induction names as [|n names IH]; intros st mk' ser' H HR; cbn [addRule] in H; [by injection H as ->|].
  destruct (qeqb _ _); [by eapply IH|]. destruct (addRuleFor fuel r (fst st) n) as [mk1| | |] eqn:E; try done. cbn [bindR] in H.
  eapply IH; [exact H|]. cbn [fst]. by eapply addRuleFor_rules.
Qed.
Lemma applyRules_rules fuel rs : forall mk ser sync mk' ser' sync', applyRules fuel rs (mk, ser, sync) = POk (mk', ser', sync') ->
  (forall t b, mk_targets mk !! t = Some b -> b_rules b = []) -> forall t b, mk_targets mk' !! t = Some b -> b_rules b = [].
Proof.
  induction rs as [|r rs IH]; intros mk ser sync mk' ser' sync' H HR; cbn [applyRules] in H; [by injection H as -> _ _|].
  unfold applyRule in H. destruct (syncLoop _ _ _ _) as [deps pts]. destruct (addRule _ _ _ _) as [[mk1 ser1]| | |] eqn:E; try done. cbn [bindR] in H.
  eapply IH; [exact H|]. by eapply (addRule_rules _ _ _ (mk, ser)).
Qed.
(** The table made from rules, before the end of parsing. *)
Lemma applyRules_table fuel rs dir mk ser sync : nativeRules rs -> applyRules fuel rs (Mkfile ∅ None dir 0, false, []) = POk (mk, ser, sync) ->
  plain mk /\ hasFirst mk /\ (mk_targets mk = ∅ -> mk_first mk = None) /\ tableFor mk (uses (map strip rs)) /\ (ser = true <-> notParallel rs).
Proof.
  intros HN H. pose proof H as H0. apply applyRules_ok with (us := []) in H as (HT & HS & _); [|apply tableFor_empty|done]. cbn [app] in HT.
  destruct (tableFor_hasFirst mk (uses (map strip rs))) as (H1 & H2 & H3); [|done|].
  { intros n r Hi. eapply uses_native; [|exact Hi]. by apply nativeRules_strip. }
  split_and!; [|done|done|done|].
  - intros t b Hb. destruct (H3 _ _ Hb) as [-> _]. split; [done|]. eapply (applyRules_rules _ _ _ _ _ _ _ _ H0); [|exact Hb].
    intros t' b' Hb'. exfalso; cbn in Hb'; by rewrite lookup_empty in Hb'.
  - rewrite HS. unfold notParallel. split; [by intros [?|?]|by right].
Qed.

(** ** The whole program *)
Lemma jobs_positive args is ms ts cpus : commandLine args is ms ts -> 0 < cpus -> 0 < lastOf OptsSpec.jobsOf is cpus.
Proof.
  intros H. apply commandLine_good in H. revert cpus. induction H as [|i is Hi _ IH]; intros cpus Hc; [done|]. cbn [lastOf]. apply IH.
  destruct i; cbn; try done. destruct Hi as [_ (b1 & p & d & b2 & _ & _ & _ & _ & _ & ? & _)]. lia.
Qed.

(** What reading the command line and the makefile has given. *)
Lemma mainParse_ok u n fuel cl p : mainParse u n fuel = MGoesOn (cl, p) ->
  (exists args is ms ts, expandsArgs (u_cfiles u) (argumentsOf u) args /\ commandLine args is ms ts /\
     c_opts cl = settings (u_cpus u) is /\ c_targets cl = firsts ts) /\
  o_usage (c_opts cl) = false /\ o_version (c_opts cl) = false /\
  exists rs dir mk sync exts sfx irules sync' names, nativeRules rs /\
    applyRules fuel rs (Mkfile ∅ None dir 0, false, []) = POk (mk, pd_serial p, sync) /\
    finishParse exts sfx irules sync' mk (c_targets cl) = Ok (pd_mk p, names).
Proof.
  unfold mainParse. fold (argumentsOf u). destruct (readCommandLine _ _ _ _) as [cl'| | |] eqn:E1; try done.
  destruct (o_usage (c_opts cl') || o_version (c_opts cl')) eqn:E2; [done|]. apply orb_false_iff in E2 as [E2 E3].
  destruct (match o_stderr _ with Some _ => _ | None => _ end); [done|].
  destruct (readEnvironment _ _ _) as [t1|]; [|done]. destruct (if o_ignorePredefined _ then _ else _) as [t2|]; [|done].
  destruct (readMakefile _ _ _ _ _ _ _) as [p'| | |] eqn:E4; try done. intros [= -> ->]. split_and!; [|done|done|].
  - apply readCommandLine_iff in E1 as (args' & is & ms & ts & t & H1 & H2 & _ & _ & H3 & _ & H4 & _). by exists args', is, ms, ts.
  - unfold readMakefile in E4. destruct (openFile _ _ _) as [pp| | |]; try done.
    destruct (parseFile _ _ _ _ _ _ _ _ _ _) as [st| | |] eqn:E5; try done. cbn [bindR] in E4.
    destruct (finishParse _ _ _ _ _ _) as [[mk names]| | | |] eqn:E6; try done. injection E4 as <-.
    apply parseFile_rules in E5 as (rs & HN & E5). by exists rs, (fs_dir (u_fs u) (c_makefile cl)), (s_mk st), (s_sync st), (u_extOrder u (map r_toExt (s_rules st))), (s_suffixes st), (s_rules st), (u_syncOrder u (s_sync st)), names.
Qed.

(** What the executor is given. *)
Lemma mainParse_build u n fuel cl p : 0 < u_cpus u -> mainParse u n fuel = MGoesOn (cl, p) ->
  exists is ms ts rs, says u is ms ts /\
  (nativeRules rs /\ exists fuel dir mk sync exts sfx irules sync' names,
    applyRules fuel rs (Mkfile ∅ None dir 0, false, []) = POk (mk, pd_serial p, sync) /\ finishParse exts sfx irules sync' mk (c_targets cl) = Ok (pd_mk p, names)) /\
  c_targets cl = firsts ts /\ c_opts cl = settings (u_cpus u) is /\
  buildOptions (c_opts cl) (pd_serial p) = Bopts (has (ch "A") is) (has (ch "K") is && negb (has (ch "I") is)) (negb (has (ch "Y") is))
    (if decide (notParallel rs) then 1%nat else N.to_nat (lastOf OptsSpec.jobsOf is (u_cpus u))) (hasLong LDump is || hasLong LDumpDot is) /\
  startable (buildOptions (c_opts cl) (pd_serial p)) (pd_mk p) /\ (mk_targets (pd_mk p) <> ∅ -> is_Some (mk_first (pd_mk p))).
Proof.
  intros Hcpu E.
  apply mainParse_ok in E as ((args & is & ms & ts & H1 & H2 & H3 & H4) & _ & _ & rs & dir & mk & sync & exts & sfx & irules & sync' & names & HN & HA & HF).
  destruct (applyRules_table _ _ _ _ _ _ HN HA) as (T1 & T2 & T3 & T4 & T5).
  assert (HB : buildOptions (c_opts cl) (pd_serial p) = Bopts (has (ch "A") is) (has (ch "K") is && negb (has (ch "I") is)) (negb (has (ch "Y") is))
    (if decide (notParallel rs) then 1%nat else N.to_nat (lastOf OptsSpec.jobsOf is (u_cpus u))) (hasLong LDump is || hasLong LDumpDot is)).
  { rewrite H3. unfold buildOptions. f_equal. destruct (pd_serial p).
    - rewrite decide_True; [done|by apply T5].
    - rewrite decide_False; [done|]. intros Hx. by apply T5 in Hx. }
  pose proof (finishParse_finished _ _ _ _ _ _ _ _ T1 T2 HF) as [F D _].
  assert (HC : (mk_targets mk = ∅ /\ pd_mk p = mk) \/ exists t, mk_first (pd_mk p) = Some t /\ is_Some (mk_targets (pd_mk p) !! t)).
  { destruct (decide (mk_targets mk = ∅)) as [E0|Hne].
    - left. unfold finishParse in HF. rewrite decide_True in HF by done. by injection HF.
    - right. destruct (T2 Hne) as (t' & b & Ht' & Hb & _). exists t'. split; [by apply F|]. apply D. by eexists. }
  exists is, ms, ts, rs. split_and!; [by exists args|done| |done|done|exact HB| |].
  - by exists fuel, dir, mk, sync, exts, sfx, irules, sync', names.
  - split.
    + rewrite HB. cbn. destruct (decide _); [lia|]. pose proof (jobs_positive _ _ _ _ (u_cpus u) H2 Hcpu). lia.
    + intros t Ht. destruct HC as [[E0 Ep]|(t' & Ht' & Hs)]; [rewrite Ep in Ht; by rewrite (T3 E0) in Ht|]. congruence.
  - intros Hne. destruct HC as [[E0 Ep]|(t' & Ht' & Hs)]; [by rewrite Ep in Hne|by eexists].
Qed.
(** A build that has begun is one of those of ExecSpec.v. *)
Lemma mainStart_ok u n fuel w b : 0 < u_cpus u -> mainStart u n fuel w = MGoesOn b ->
  exists is ms ts rs, says u is ms ts /\ madeFrom rs b /\ c_targets (bd_cl b) = firsts ts /\ c_opts (bd_cl b) = settings (u_cpus u) is /\
  bd_opts b = Bopts (has (ch "A") is) (has (ch "K") is && negb (has (ch "I") is)) (negb (has (ch "Y") is))
    (if decide (notParallel rs) then 1%nat else N.to_nat (lastOf OptsSpec.jobsOf is (u_cpus u))) (hasLong LDump is || hasLong LDumpDot is) /\
  startable (bd_opts b) (pd_mk (bd_parsed b)) /\ apply w (bd_opts b) (pd_mk (bd_parsed b)) (firsts ts) = Ok (bd_state b).
Proof.
  intros Hcpu. unfold mainStart. destruct (mainParse u n fuel) as [c| | |[cl p]] eqn:E; try done.
  apply (mainParse_build _ _ _ _ _ Hcpu) in E as (is & ms & ts & rs & H1 & H2 & H3 & H4 & H5 & H6 & _).
  cbv zeta. destruct (match newServer _ _ _ with Some _ => _ | None => _ end); [done|]. destruct (negb (clientOk _ _ _)); [done|].
  destruct (apply _ _ _ _) as [s| | | |] eqn:E; try done. intros [= <-]. cbn [bd_cl bd_parsed bd_opts bd_state].
  exists is, ms, ts, rs. split_and!; try done. by rewrite <- H3.
Qed.
Lemma jomRun_build u n fuel w at_ es b s : 0 < u_cpus u -> jomRun u n fuel w at_ es b s ->
  exists is ms ts rs, says u is ms ts /\ madeFrom rs b /\ c_targets (bd_cl b) = firsts ts /\ c_opts (bd_cl b) = settings (u_cpus u) is /\
  bd_opts b = Bopts (has (ch "A") is) (has (ch "K") is && negb (has (ch "I") is)) (negb (has (ch "Y") is))
    (if decide (notParallel rs) then 1%nat else N.to_nat (lastOf OptsSpec.jobsOf is (u_cpus u))) (hasLong LDump is || hasLong LDumpDot is) /\
  startable (bd_opts b) (pd_mk (bd_parsed b)) /\
  buildRun (expandWithTable (pd_macros (bd_parsed b))) (prepare (executorOptions u (bd_cl b)) fuel at_) (kindOf (has (ch "N") is) (u_comspec u)) w (bd_opts b) (pd_mk (bd_parsed b)) (c_targets (bd_cl b)) es s.
Proof.
  intros Hc [HM HR]. destruct (mainStart_ok _ _ _ _ _ Hc HM) as (is & ms & ts & rs & H1 & H2 & H3 & H4 & H5 & H6 & H7).
  exists is, ms, ts, rs. split_and!; try done. exists (bd_state b). split; [by rewrite H3|]. cbv zeta in HR. cbn [executorOptions xo_dryRun xo_comspec] in HR. by rewrite H4 in HR.
Qed.

(** How TargetExecutor::apply can end. *)
Lemma apply_outcome w o mk names : startable o mk -> (mk_targets mk <> ∅ -> is_Some (mk_first mk)) ->
  match apply w o mk names with
  | Ok _ => True
  | Exits c => c = 2 /\ exists root rest, requested mk names = Some root :: rest /\ missingDep (w (mk_tick mk)) mk root
  | Throws => exists n ns, names = n :: ns /\ mk_find mk n = None
  | Crashes => False
  | Diverges => o_dump o = true
  end.
Proof.
  intros [_ Hf] Hfirst.
  assert (G : forall t pend q, is_Some (mk_targets mk !! t) -> requested mk names = Some t :: q ->
    match (let s := newRoot w t (initState o mk pend 1) in
      match e_end s with
      | Some (EExit c) => Exits c
      | Some EError => Throws
      | Some ECrash => Crashes
      | Some EDiverge => Diverges
      | None => if o_dump o then match dumpNode (S (size (g_nodes (e_g s)))) (e_g s) 0 t with Some _ => Ok s | None => Diverges end
                else Ok (s <| e_queue := 2%nat |>)
      end) with
    | Ok _ => True
    | Exits c => c = 2 /\ exists root rest, requested mk names = Some root :: rest /\ missingDep (w (mk_tick mk)) mk root
    | Throws => exists n ns, names = n :: ns /\ mk_find mk n = None
    | Crashes => False
    | Diverges => o_dump o = true
    end).
  { intros t pend q Ht Hq. pose proof (buildGraph_spec (w (mk_tick mk)) mk emptyGraph t eq_refl eq_refl Ht) as Hb.
    assert (Hn : match buildGraph (w (mk_tick mk)) mk emptyGraph t with
      | Ok _ => e_end (newRoot w t (initState o mk pend 1)) = None
      | Exits c => e_end (newRoot w t (initState o mk pend 1)) = Some (EExit c)
      | _ => True end).
    { unfold newRoot. change (e_mk (initState o mk pend 1)) with mk. change (e_g (initState o mk pend 1)) with emptyGraph.
      by destruct (buildGraph (w (mk_tick mk)) mk emptyGraph t). }
    cbv zeta. destruct (buildGraph (w (mk_tick mk)) mk emptyGraph t) as [g| |c| |]; try done; rewrite Hn.
    - destruct (o_dump o) eqn:Ed; [|done]. destruct (dumpNode _ _ _ _); done.
    - destruct Hb as [-> Hm]. split; [done|]. by exists t, q. }
  unfold apply. destruct names as [|n ns].
  - destruct (decide (mk_targets mk = ∅)) as [|Hne]; [done|]. destruct (Hfirst Hne) as [t Ht]. rewrite Ht. eapply G; [by apply Hf|].
    cbn. rewrite decide_False by done. by rewrite Ht.
  - destruct (mk_find mk n) as [t|] eqn:E; [|by exists n, ns]. eapply G; [by eapply mk_find_is|]. cbn. by rewrite E.
Qed.

(** ** Dry runs *)
Section Dry.
Context (xp : qstr -> option qstr) (prep : mkfile -> tid -> nat -> option (list command))
        (kind : command -> ckind) (w : world) (o : bopts).
Context (Hkind : forall c, kind c = KBuiltin [0]).

Definition calm (e : logev) : Prop := match e with LEnd _ f => f = false | LExit _ _ c => c = 0 | _ => True end.
Record dry (s : est) : Prop := {
  dr_jobs : e_jobs s = []; dr_acq : e_acquiring s = AIdle; dr_avail : length (e_avail s) = Data.o_jobs o;
  dr_log : Forall calm (e_log s); dr_ab : e_wait s = None; dr_none : e_acq s = 0%nat /\ e_net s = 0%Z }.

Lemma runCmds_dry t cmds : forall codes launch r, runCmds kind t cmds codes launch = Some r -> exists l, r = RDone false l /\ Forall calm l.
Proof.
  induction cmds as [|c cmds IH]; intros codes launch r; cbn [runCmds].
  - destruct codes; [|done]. intros [= <-]. by exists [].
  - rewrite Hkind. destruct codes as [|k codes]; [done|]. cbn [existsb]. destruct (N.eqb_spec k 0) as [->|]; [|done]. cbn [orb].
    replace (c_max c <? 0) with false by (symmetry; apply N.ltb_ge; lia).
    destruct (runCmds kind t cmds codes launch) as [r'|] eqn:E; [|done]. cbn [option_map]. intros [= <-].
    apply IH in E as (l & -> & Hl). exists ([LCmd t c; LExit t c 0] ++ l). split; [done|]. by apply Forall_app; split; [repeat constructor|].
Qed.
Lemma buildNext_dry ch s s' : dry s -> buildNextTarget prep kind o ch s = Some s' -> dry s'.
Proof.
  intros [J A V L W [Q N]]. unfold buildNextTarget. destruct (e_aborted s); [by intros [= <-]|].
  destruct (e_avail s) as [|k av] eqn:Ea; [intros [= <-]; split; cbn; try done; by rewrite Ea|].
  destruct (e_next s) as [t|]; [|intros [= <-]; split; cbn; try done; by rewrite Ea].
  destruct (mk_targets (e_mk s) !! t) as [b|]; [|intros [= <-]; split; cbn; try done; by rewrite Ea].
  assert (HC : forall x l, e_jobs x = [] -> e_acquiring x = AIdle -> e_avail x = av -> e_log x = e_log s ++ l -> Forall calm l -> e_wait x = None -> e_acq x = 0%nat -> e_net x = 0%Z ->
    dry (childFinished o k t false x <| e_next := None |> <| e_queue ::= S |>)).
  { intros x l H1 H2 H3 H4 H5 H6 H7 H8. unfold childFinished. cbn. rewrite H7. split; cbn; rewrite ?H1, ?H2, ?H3, ?H4; try done.
    - rewrite app_length. cbn in *. lia.
    - rewrite !Forall_app. split_and!; [done|done|by repeat constructor]. }
  destruct (isNil (b_cmds b)).
  { intros [= <-]. apply (HC _ [LStart t []]); try done. by repeat constructor. }
  destruct (prep _ _ _) as [[|c0 cmds0]|]; [intros [= <-]; split; cbn; try done; by rewrite Ea| |intros [= <-]; split; cbn; try done; by rewrite Ea].
  set (cmds := c0 :: cmds0). destruct (runCmds kind t cmds _ _) as [r|] eqn:E; [|done]. apply runCmds_dry in E as (l & -> & Hl).
  intros [= <-]. apply (HC _ ([LStart t cmds] ++ l)); try done; [by cbn; rewrite <- app_assoc|]. by apply Forall_app; split; [repeat constructor|].
Qed.
Lemma findNext_calm fuel : forall mk g l r mk' g' l', findNextTarget xp w o fuel mk g l = Ok (r, mk', g', l') -> Forall calm l -> Forall calm l'.
Proof.
  assert (HU : forall ups, Forall calm (map (fun p => LUpToDate (fst p) (snd p)) ups)) by (intros ups; by induction ups; constructor).
  induction fuel as [|fuel IH]; intros mk g l r mk' g' l'; cbn [findNextTarget]; [done|].
  destruct (findAvailableTarget _ _ _ _ _) as [[[[[t|] mk1] g1] ups]| | | |]; try done.
  - destruct (isNil _); [intros H Hl; eapply IH; [exact H|]; rewrite !Forall_app; split_and!; [done|apply HU|by repeat constructor]|].
    destruct (_ && _); [intros H Hl; eapply IH; [exact H|]; rewrite !Forall_app; split_and!; [done|apply HU|by repeat constructor]|].
    intros [= <- <- <- <-] Hl. rewrite Forall_app. by split.
  - intros [= <- <- <- <-] Hl. rewrite Forall_app. by split.
Qed.
Lemma newRoot_dry t s : dry s -> dry (newRoot w t s).
Proof.
  intros [J A V L W [Q N]]. unfold newRoot. destruct (buildGraph _ _ _ _); split; cbn; try done. apply Forall_app. by split; [|repeat constructor].
Qed.
Lemma step_dry s e s' : dry s -> step xp prep kind w o s e = Some s' -> dry s' /\ exists ch, e = EvStart ch.
Proof.
  intros D. unfold step. destruct (e_end s); [done|]. destruct e as [ch| |ch|k code ch|k].
  - destruct (e_queue s) as [|q]; [done|]. intros H. split; [|by eexists].
    assert (D' : dry (s <| e_queue := q |>)) by (by destruct D). clear D. set (s0 := s <| e_queue := q |>) in *. clearbody s0. revert H.
    unfold startProcesses. destruct (_ || _); [by intros [= <-]|].
    destruct (match e_next s0 with Some t => _ | None => _ end) as [[[[next mk] g] l]| | | |] eqn:EF;
      [|intros [= <-]; destruct D'; by split..].
    assert (Hl : Forall calm l).
    { destruct (e_next s0); [by injection EF as <- <- <- <-|]. by eapply findNext_calm. }
    set (s1 := addLog l _). assert (D1 : dry s1). { destruct D' as [J A V L W [Q N]]. split; cbn; try done. apply Forall_app. by split. }
    assert (HN : noneRunning o s1 = true). { unfold noneRunning. apply Nat.eqb_eq. by destruct D1. }
    cbv zeta. fold s1. rewrite HN. destruct next as [t|]; [by apply buildNext_dry|].
    destruct (e_pending s1) as [|[t|] pending].
    + intros [= <-]. destruct D1. by split.
    + intros [= <-]. match goal with |- dry (if e_end ?x then _ else _) => set (s2 := x); assert (D2 : dry s2) end.
      { apply newRoot_dry. destruct D1. by split. }
      clearbody s2. destruct (e_end s2); [done|]. destruct D2. by split.
    + intros [= <-]. destruct D1. by split.
  - destruct D as [_ -> _ _ _ _]. done.
  - destruct D as [_ -> _ _ _ _]. done.
  - unfold jobOf. destruct D as [-> _ _ _ _ _]. done.
  - unfold jobOf. destruct D as [-> _ _ _ _ _]. done.
Qed.
Lemma run_dry es : forall s s', dry s -> run xp prep kind w o s es = Some s' -> dry s' /\ Forall (fun e => exists ch, e = EvStart ch) es.
Proof.
  induction es as [|e es IH]; intros s s' D; cbn [run]; [by intros [= <-]|].
  destruct (step _ _ _ _ _ _ _) as [s1|] eqn:E; [|done]. intros H. destruct (step_dry _ _ _ D E) as [D1 ?]. destruct (IH _ _ D1 H) as [? ?].
  split; [done|by constructor].
Qed.
Lemma apply_dry mk names s : apply w o mk names = Ok s -> dry s.
Proof.
  assert (D0 : forall rest q, dry (initState o mk rest q)).
  { intros rest q. split; cbn; try done. by rewrite seq_length. }
  unfold apply. intros H.
  assert (HS : forall t rest, (let s0 := newRoot w t (initState o mk rest 1) in
      match e_end s0 with Some (EExit c) => Exits c | Some EError => Throws | Some ECrash => Crashes | Some EDiverge => Diverges
      | None => if o_dump o then match dumpNode (S (size (g_nodes (e_g s0)))) (e_g s0) 0 t with Some _ => Ok s0 | None => Diverges end
                else Ok (s0 <| e_queue := 2%nat |>) end) = Ok s -> dry s).
  { intros t rest. cbv zeta. pose proof (newRoot_dry t _ (D0 rest 1%nat)) as D. set (s0 := newRoot w t _) in *. clearbody s0.
    destruct (e_end s0) as [[]|]; try done. destruct (o_dump o); [destruct (dumpNode _ _ _ _); [by intros [= <-]|done]|].
    intros [= <-]. destruct D. by split. }
  destruct names as [|n ns].
  - destruct (decide _); [injection H as <-; apply D0|]. destruct (mk_first mk) as [t|]; [|done]. by apply (HS t []).
  - destruct (mk_find mk n) as [t|]; [|done]. by apply (HS t (map (mk_find mk) ns)).
Qed.
End Dry.
