(** C53: from the text of the makefile to the processes that are run. *)
From Coq Require Import Relations Ascii String.
From stdpp Require Import prelude gmap.
From RecordUpdate Require Import RecordSet.
From Verif Require Import Base BaseProofs Data Infer UpToDate Graph Exec ExecSpec SchedInv ExecProps ExecProps2 Macro Env Opts OptsSpec LineReader LineReaderSpec PPLex Preproc PreprocSpec PreprocProofs Front FrontSpec
  FileMacros FileCacheProofs MkParse RulesSpec RulesProofs RulesProps CmdExec WrittenSpec WrittenProofs WrittenProps WrittenFileProps Main MainSpec MainProofs OriginProofs OriginProps WholeProofs.
Import RecordSetNotations.
Local Open Scope N_scope.

(** The command line of jom, as it is read. *)
Definition commandLineOf (u : outside) (cl : cmdline) : Prop :=
  readCommandLine (u_cfiles u) (u_cpus u) (freshTable (readSystemEnvironment (u_env u))) (argumentsOf u) = COk cl.
(** The makefile of this command line is a text of conditional blocks, included files, macro definitions and other lines;
    the lines that are left say [k]. *)
Definition makefileSays (u : outside) (cl : cmdline) (k : said) : Prop :=
  exists t0 uni text blk ls cx', macrosBefore u cl t0 /\
  fs_open (u_fs u) (fs_abs (u_fs u) (c_makefile cl)) = Some (uni, text) /\ reads (openReader uni text) (writtenB blk) /\
  runsW (u_fs u) [(fs_abs (u_fs u) (c_makefile cl), fs_dir (u_fs u) (c_makefile cl))] (Ctx t0 lexInit [] []) blk ls cx' /\
  WrittenSpec.says (silence (o_suppressMessages (c_opts cl)) (negb (o_stopOnErrors (c_opts cl)))) ls k.
(** The name [n] is a target of the rule [r] of [k]. *)
Definition ruleFor (k : said) (n : qstr) (r : prule) : Prop := r ∈ k_blocks k /\ n ∈ pr_targets r /\ n <> s2q ".NOTPARALLEL".

(** ** Reading *)
Lemma mainStart_line u n fuel w b cl : commandLineOf u cl -> mainStart u n fuel w = MGoesOn b -> bd_cl b = cl.
Proof.
  intros Hc. unfold mainStart. destruct (mainParse u n fuel) as [c| | |[cl' p]] eqn:E; try done. cbv zeta.
  destruct (match newServer _ _ _ with Some _ => _ | None => _ end); [done|]. destruct (negb (clientOk _ _ _)); [done|].
  destruct (apply _ _ _ _) as [s| | | |]; try done. intros [= <-]. cbn [bd_cl].
  unfold mainParse in E. unfold commandLineOf, argumentsOf in Hc. cbv zeta in Hc, E. rewrite Hc in E.
  destruct (_ || _); [done|]. destruct (match o_stderr _ with Some _ => _ | None => _ end); [done|].
  destruct (readEnvironment _ _ _); [|done]. destruct (if o_ignorePredefined _ then _ else _); [|done].
  destruct (readMakefile _ _ _ _ _ _ _); try done. by injection E as <- _.
Qed.
Lemma macrosBefore_inj u cl t0 t1 : macrosBefore u cl t0 -> macrosBefore u cl t1 -> t0 = t1.
Proof. intros (x & H1 & H2) (y & H3 & H4). rewrite H1 in H3. injection H3 as <-. rewrite H2 in H4. by injection H4. Qed.
Lemma read_said u cl k : makefileSays u cl k -> exists f0, forall n fuel b st, (f0 <= n)%nat -> (f0 <= fuel)%nat -> bd_cl b = cl -> readAs u n fuel b st ->
  applyRules fuel (k_blocks k) (start (fs_dir (u_fs u) (c_makefile cl))) = POk (s_mk st, s_serial st, s_sync st) /\ kept (k_rules k) (s_rules st).
Proof.
  intros (t0 & uni & text & blk & ls & cx' & HM & Hf & Hr & Hruns & Hs).
  destruct (openFile (u_fs u) (c_makefile cl) (PP t0 [] [] [] PPLex.lexInit [] [])) as [p0| | |] eqn:Eo.
  2-4: exists 0%nat; intros n fuel b st _ _ <- (t1 & p & Hm & Ho & _); rewrite (macrosBefore_inj _ _ _ _ Hm HM), Eo in Ho; done.
  set (st0 := PP t0 [] [] [] PPLex.lexInit [] []) in *.
  destruct (C52_file_accepted (u_glob u) (u_isRel u) (fs_dir (u_fs u) (c_makefile cl)) _ _ _ _ st0 p0 _ _ _ _ _ _ eq_refl Eo Hf Hr Hruns Hs) as (f1 & H1).
  destruct (C52_file (u_glob u) (u_isRel u) (fs_dir (u_fs u) (c_makefile cl)) _ _ _ _ st0 p0 _ _ _ _ _ _ eq_refl Eo Hf Hr Hruns Hs) as (f2 & H2).
  exists (max f1 f2). intros n fuel b st Hn Hfu Hb (t1 & p & Hm & Ho & HP). rewrite Hb in *.
  rewrite (macrosBefore_inj _ _ _ _ Hm HM) in Ho. fold st0 in Ho. rewrite Eo in Ho. injection Ho as <-.
  specialize (H1 n fuel ltac:(lia) ltac:(lia)). rewrite HP in H1. specialize (H2 n fuel st ltac:(lia) ltac:(lia) HP). split; [|apply H2].
  destruct (applyRules _ _ _) as [[[mk ser] sync]| | |]; [|done..]. destruct H1 as (p1 & [= <-] & <- & <- & <-). done.
Qed.
Lemma makefileSays_native u cl k : makefileSays u cl k -> nativeRules (k_blocks k).
Proof. intros (t0 & uni & text & blk & ls & cx' & _ & _ & _ & _ & Hs). eapply says_native; [exact Hs|constructor]. Qed.
Lemma ruleFor_uses k n r : ruleFor k n r <-> r ∈ k_blocks k /\ (n, strip r) ∈ uses [strip r].
Proof.
  unfold ruleFor, uses. cbn [flat_map]. rewrite app_nil_r. split.
  - intros (H1 & H2 & H3). split; [done|]. apply elem_of_list_fmap. exists n. split; [done|]. by apply elem_of_list_filter.
  - intros [H1 H2]. split; [done|]. apply elem_of_list_fmap in H2 as (x & [= <-] & H2). by apply elem_of_list_filter in H2 as [H2 H3].
Qed.
Lemma uses_ruleFor k n r' : (n, r') ∈ uses (map strip (k_blocks k)) <-> exists r, r' = strip r /\ ruleFor k n r.
Proof.
  unfold uses. rewrite elem_of_list_In, in_flat_map. split.
  - intros (x & H1 & H2). apply in_map_iff in H1 as (r & <- & H1). apply in_map_iff in H2 as (y & [= <- <-] & H2). exists r. split; [done|].
    apply elem_of_list_In, elem_of_list_filter in H2 as [H2 H3]. split_and!; [by apply elem_of_list_In|done|done].
  - intros (r & -> & H1 & H2 & H3). exists (strip r). split; [by apply in_map, elem_of_list_In|]. apply in_map_iff. exists n. split; [done|].
    by apply elem_of_list_In, elem_of_list_filter.
Qed.
Lemma usesOf_in t us rs n r : usesOf t us rs -> (n, r) ∈ us -> sameName t n -> r ∈ rs.
Proof.
  induction 1 as [|n' r' us rs Hs _ IH|n' r' us rs Hs _ IH]; rewrite ?elem_of_cons.
  - intros H. by apply elem_of_nil in H.
  - intros [[= -> ->]|H] Hn; [by left|]. right. by apply IH.
  - intros [[= -> ->]|H] Hn; [done|]. by apply IH.
Qed.
Lemma usesOf_from t us rs r : usesOf t us rs -> r ∈ rs -> exists n, (n, r) ∈ us /\ sameName t n.
Proof.
  induction 1 as [|n' r' us rs Hs _ IH|n' r' us rs Hs _ IH]; rewrite ?elem_of_cons.
  - intros H. by apply elem_of_nil in H.
  - intros [->|H]; [exists n'; split; [left|done]|]. destruct (IH H) as (x & ? & ?). exists x. split; [by right|done].
  - intros H. destruct (IH H) as (x & ? & ?). exists x. split; [by right|done].
Qed.
Lemma firstCommands_in l cs c : firstCommands l cs -> c ∈ cs -> exists x, x ∈ l /\ c ∈ x.
Proof.
  induction 1 as [|l cs _ IH|c0 cs l]; intros H.
  - by apply elem_of_nil in H.
  - destruct (IH H) as (x & ? & ?). exists x. split; [by right|done].
  - exists (c0 :: cs). split; [left|done].
Qed.
Lemma sameName_key (a b : list N) : native a -> native b -> sameName a b -> keyOf a = keyOf b.
Proof. intros Ha Hb H. apply sameName_lower in H; [|done|done]. exact H. Qed.
Lemma sameName_sym (a b : list N) : sameName a b -> sameName b a.
Proof. rewrite !sameName_norm. done. Qed.
Lemma ruleFor_native k n r : nativeRules (k_blocks k) -> ruleFor k n r -> native n.
Proof. intros HN (H1 & H2 & _). unfold nativeRules in HN. rewrite Forall_forall in HN. specialize (HN _ H1). rewrite Forall_forall in HN. by apply HN. Qed.

(** ** C53 *)
(** Every command of a target that is started is written in the makefile: in a rule for this target, or in an inference
    rule. *)
Theorem C53_written u cl k : commandLineOf u cl -> makefileSays u cl k -> exists f0, forall n fuel w at_ es b s,
  (f0 <= n)%nat -> (f0 <= fuel)%nat -> jomRun u n fuel w at_ es b s -> forall t cs c, LStart t cs ∈ e_log s -> c ∈ cs -> exists name c0,
  keyOf name = t /\ prepared (executorOptions u cl) name c0 c /\ c_max c = c_max c0 /\ c_silent c = c_silent c0 /\
  ((exists nm r, ruleFor k nm r /\ keyOf nm = t /\ c0 ∈ pr_cmds r) \/
   (exists ir rcs c1 d, (ir, rcs) ∈ k_rules k /\ c1 ∈ rcs /\ instCommand (expandWithTable (pd_macros (bd_parsed b))) d c1 = Some c0)).
Proof.
  intros Hcl Hm. destruct (read_said _ _ _ Hm) as (f0 & HR). exists f0. intros n fuel w at_ es b s Hn Hf HJ t cs c Hs Hc.
  pose proof (mainStart_line _ _ _ _ _ _ Hcl (proj1 HJ)) as Ecl.
  destruct (mainStart_read _ _ _ _ _ (proj1 HJ)) as (st1 & nms & HA1 & HT & _).
  destruct (C50_origin _ _ _ _ _ _ _ _ HJ) as (st & HA & HO).
  assert (st1 = st) as ->.
  { destruct HA1 as (t1 & p1 & Hm1 & Ho1 & HP1). destruct HA as (t2 & p2 & Hm2 & Ho2 & HP2). rewrite (macrosBefore_inj _ _ _ _ Hm2 Hm1), Ho1 in Ho2. injection Ho2 as <-.
    rewrite HP1 in HP2. by injection HP2. }
  destruct (HR n fuel b st Hn Hf Ecl HA) as (HB & HK). rewrite Ecl in HO. pose proof (makefileSays_native _ _ _ Hm) as HN.
  destruct (HO t cs c Hs Hc) as (name & c0 & H1 & H2 & H3 & H4 & H5). exists name, c0. split_and!; [done|done|done|done|].
  destruct (applyRules_table _ _ _ _ _ _ HN HB) as (_ & _ & _ & (W & _ & HBl & _) & _).
  destruct H2 as [(b0 & Hb0 & Hc0)|(r & c1 & d & Hr & Hc1 & Hi)].
  - left. destruct (HBl _ _ Hb0) as (rs & HU & (r0 & rs' & -> & _ & _ & HC) & _).
    assert (exists r', r' ∈ r0 :: rs' /\ c0 ∈ pr_cmds r') as (r' & Hr' & Hc').
    { destruct (pr_double r0).
      - rewrite HC in Hc0. apply elem_of_list_In, in_concat in Hc0 as (x & Hx & Hc0). apply in_map_iff in Hx as (y & <- & Hy). exists y. split; by apply elem_of_list_In.
      - destruct (firstCommands_in _ _ _ HC Hc0) as (x & Hx & Hc1). apply elem_of_list_In, in_map_iff in Hx as (y & <- & Hy). exists y. split; [by apply elem_of_list_In|done]. }
    destruct (usesOf_from _ _ _ _ HU Hr') as (nm & Hnm & Hsn). apply uses_ruleFor in Hnm as (r & -> & Hrf). exists nm, r. split_and!; [done| |done].
    destruct (W _ _ Hb0) as [-> Hnat]. symmetry. apply sameName_key; [done|by eapply ruleFor_native|done].
  - right. apply elem_of_list_lookup in Hr as (i & Hi'). destruct HK as [HL HK]. destruct (k_rules k !! i) as [[ir rcs]|] eqn:Ek.
    + destruct (HK i _ _ Ek Hi') as (_ & _ & _ & _ & _ & _ & _ & E). cbn [snd] in E. exists ir, rcs, c1, d. rewrite HT. split_and!; [by eapply elem_of_list_lookup_2|by rewrite <- E|exact Hi].
    + apply lookup_ge_None in Ek. apply lookup_lt_Some in Hi'. rewrite HL in Ek. lia.
Qed.

(** A dependent written in the makefile that neither has file name macros nor quotes. *)
Definition plainDependents (k : said) : Prop := forall r d, r ∈ k_blocks k -> d ∈ pr_deps r -> magicEscape ∉ (d : list N) /\ 34 ∉ (d : list N).
Lemma passes_root log p : p ∈ passes log -> LRoot (ExecSpec.p_root p) (p_mk p) ∈ log.
Proof.
  revert p. induction log as [|e log IH] using rev_ind; intros p; [intros H; by apply elem_of_nil in H|]. rewrite passes_snoc.
  assert (G : forall e ps, p ∈ addToLast e ps -> exists q, q ∈ ps /\ ExecSpec.p_root q = ExecSpec.p_root p /\ p_mk q = p_mk p).
  { clear. intros e ps. induction ps as [|q ps IH]; cbn [addToLast]; [intros H; by apply elem_of_nil in H|]. destruct ps as [|q2 ps].
    - intros H. apply elem_of_list_singleton in H as ->. exists q. split; [left|done].
    - intros H. apply elem_of_cons in H as [->|H]; [exists q; split; [left|done]|]. destruct (IH H) as (x & H1 & H2). exists x. split; [by right|done]. }
  assert (A : p ∈ addToLast e (passes log) -> LRoot (ExecSpec.p_root p) (p_mk p) ∈ log ++ [e]).
  { intros H. apply G in H as (q & Hq & <- & <-). apply elem_of_app. left. by apply IH. }
  destruct e; try exact A. intros H. apply elem_of_app in H as [H|H]; [apply elem_of_app; left; by apply IH|]. apply elem_of_list_singleton in H as ->.
  apply elem_of_app. right. by apply elem_of_list_singleton.
Qed.
Lemma sameNames_find mk mk' d t : sameNames mk mk' -> mk_find mk d = Some t -> mk_find mk' d = Some t.
Proof.
  intros H. assert (L : forall x : tid, is_Some (mk_targets mk !! x) <-> is_Some (mk_targets mk' !! x)).
  { intros x. specialize (H x). destruct (mk_targets mk !! x), (mk_targets mk' !! x); try done; split; intros [? ?]; done. }
  unfold mk_find. cbv zeta. case_match eqn:M1.
  - intros Hx. case_match eqn:M2; [done|]. destruct (proj1 (L _) (ex_intro _ _ M1)) as [y Hy]. pose proof (eq_trans (eq_sym M2) Hy). discriminate.
  - case_match eqn:M2; [|done]. intros Hx. case_match eqn:M3; [destruct (proj2 (L _) (ex_intro _ _ M3)) as [y Hy]; pose proof (eq_trans (eq_sym M1) Hy); discriminate|].
    case_match eqn:M4; [done|]. destruct (proj1 (L _) (ex_intro _ _ M2)) as [y Hy]. pose proof (eq_trans (eq_sym M4) Hy). discriminate.
Qed.
(** A rule for the target [t] of the makefile names the target [d] of the makefile among its dependents: with slashes or
    backslashes, in upper or lower case. *)
Definition listed (k : said) (t d : tid) : Prop := exists nm r x nd rd,
  keyOf nm = t /\ ruleFor k nm r /\ x ∈ pr_deps r /\ x <> s2q ".SYNC" /\ sameName x nd /\ ruleFor k nd rd /\ keyOf nd = d.
(** What a rule of the makefile says holds in every pass. *)
Lemma written_depends u cl k : commandLineOf u cl -> makefileSays u cl k -> plainDependents k -> (forall l, u_syncOrder u l ≡ₚ l) -> exists f0, forall n fuel w at_ es b s,
  (f0 <= n)%nat -> (f0 <= fuel)%nat -> 0 < u_cpus u -> jomRun u n fuel w at_ es b s -> forall p t x, p ∈ passes (e_log s) -> listed k t x -> dependsOn (p_mk p) t x.
Proof.
  intros Hcl Hm HPl HSy. destruct (read_said _ _ _ Hm) as (f0 & HR). exists f0. intros n fuel w at_ es b s Hn Hf Hcpu HJ p t0 x0 Hp (nm & r & d & nd & rd & <- & Hr & Hd & Hds & Hsn & Hrd & <-).
  pose proof (mainStart_line _ _ _ _ _ _ Hcl (proj1 HJ)) as Ecl. pose proof (makefileSays_native _ _ _ Hm) as HN.
  destruct (mainStart_read _ _ _ _ _ (proj1 HJ)) as (st & names & HA & _ & HF). destruct (HR n fuel b st Hn Hf Ecl HA) as (HB & _).
  destruct (applyRules_table _ _ _ _ _ _ HN HB) as (T1 & T2 & _ & HTab & _). pose proof HTab as (W & _ & HBl & HUs).
  destruct (finishParse_finished _ _ _ _ _ _ _ _ T1 T2 HF) as [_ _ FO].
  assert (Deps : forall t b0 x, mk_targets (s_mk st) !! t = Some b0 -> x ∈ b_deps b0 -> exists r0, r0 ∈ k_blocks k /\ x ∈ pr_deps r0).
  { intros t b0 x Hb0 Hx. destruct (HBl _ _ Hb0) as (rs & HU & _ & H2). apply elem_of_list_lookup in Hx as (i & Hi).
    destruct (Forall2_lookup_r _ _ _ _ _ H2 Hi) as (y & Hy & He). apply elem_of_list_lookup_2 in Hy. apply elem_of_list_In, in_concat in Hy as (l & Hl & Hy).
    apply in_map_iff in Hl as (r' & <- & Hr'). apply elem_of_list_In in Hr'. destruct (usesOf_from _ _ _ _ HU Hr') as (n0 & Hn0 & _).
    apply uses_ruleFor in Hn0 as (r0 & -> & Hrf & _). cbn [strip pr_deps] in Hy. apply elem_of_list_In, elem_of_list_filter in Hy as [_ Hy].
    exists r0. split; [done|]. destruct (HPl _ _ Hrf Hy) as [Hmg _]. by rewrite (expandsTo_plain _ _ _ Hmg He). }
  assert (KP : keeping (s_mk st) (pd_mk (bd_parsed b))).
  { eapply finish_keeping; [| |exact HF].
    - intros x y (ds & Hds1 & Hds2). rewrite HSy in Hds1. destruct (applyRules_ok _ _ _ _ _ [] _ _ _ (tableFor_empty _) HN HB) as (_ & _ & HS & _).
      destruct (proj1 (HS x y)) as [(l & Hl & _)|(r0 & Hr0 & Hl)]; [by exists ds|by apply elem_of_nil in Hl|].
      destruct (syncLoop_from _ _ _ _ _ _ Hl) as [H|[H|H]]; [by apply elem_of_nil in H..|]. by apply (HPl r0).
    - intros t b0 x Hb0 Hx. destruct (Deps _ _ _ Hb0 Hx) as (r0 & H1 & H2). by apply (HPl r0). }
  destruct KP as [KO KF _].
  destruct (jomRun_build _ _ _ _ _ _ _ _ Hcpu HJ) as (is & ms & ts & rs & _ & _ & _ & _ & _ & _ & HBR).
  destruct (roots_build _ _ _ _ _ _ (calculatePriorities (s_suffixes st) (s_rules st)) _ _ _ _ _ ltac:(intros x bx r1 Hb; by apply (FO x bx Hb)) HBR (passes_root _ _ Hp)) as [HSn HRo].
  assert (Find : forall n0 r0, ruleFor k n0 r0 -> exists b0, mk_targets (s_mk st) !! keyOf n0 = Some b0 /\ sameName n0 (b_name b0)).
  { intros n0 r0 H0. destruct (HUs n0 (strip r0)) as (t & b0 & Hb0 & Hs0); [apply uses_ruleFor; by exists r0|]. exists b0. split; [|done].
    destruct (W _ _ Hb0) as [-> Hnat]. by rewrite (sameName_key n0 (b_name b0)); [|by eapply ruleFor_native| |]. }
  destruct (Find _ _ Hr) as (b0 & Hb0 & Hs0). destruct (Find _ _ Hrd) as (b2 & Hb2 & Hs2).
  assert (Hdd : d ∈ b_deps b0).
  { destruct (HBl _ _ Hb0) as (us & HU & _ & H2). assert (Hin : strip r ∈ us).
    { eapply usesOf_in; [exact HU|apply uses_ruleFor; by exists r|by apply sameName_sym]. }
    assert (Hc : d ∈ concat (map pr_deps us)).
    { apply elem_of_list_In, in_concat. exists (pr_deps (strip r)). split; [apply in_map; by apply elem_of_list_In|]. apply elem_of_list_In. cbn [strip pr_deps]. by apply elem_of_list_filter. }
    apply elem_of_list_lookup in Hc as (i & Hi). destruct (Forall2_lookup_l _ _ _ _ _ H2 Hi) as (y & Hy & He). destruct Hr as (Hrk & _).
    destruct (HPl _ _ Hrk Hd) as [Hmg _]. rewrite (expandsTo_plain _ _ _ Hmg He) in Hy. by eapply elem_of_list_lookup_2. }
  destruct (KO _ _ Hb0) as (b1 & Hb1 & _ & _ & Hd1). destruct (HRo _ _ Hb1) as (b3 & Hb3 & _ & Hd3). exists b3, d. split_and!; [done|by apply Hd3, Hd1|].
  unfold resolveDep. rewrite (sameNames_find _ _ d (keyOf nd) HSn); [done|]. apply KF. apply (find_spec _ _ _ W). exists b2. split; [done|].
  apply sameName_norm. apply sameName_norm in Hsn, Hs2. by rewrite Hsn.
Qed.
(** When a command of a target is started, everything that the rules of the makefile list for it, directly or by way of
    other targets, has been dealt with in this pass, and none of its commands is run later in the pass. *)
Theorem C53_order u cl k : commandLineOf u cl -> makefileSays u cl k -> plainDependents k -> (forall l, u_syncOrder u l ≡ₚ l) -> exists f0, forall n fuel w at_ es b s,
  (f0 <= n)%nat -> (f0 <= fuel)%nat -> 0 < u_cpus u -> jomRun u n fuel w at_ es b s ->
  forall p pre t c post d, p ∈ passes (e_log s) -> p_log p = pre ++ LCmd t c :: post -> clos_trans_1n tid (listed k) t d ->
  dealtWith pre d /\ cmdEventsOf d post = [].
Proof.
  intros Hcl Hm HPl HSy. destruct (written_depends _ _ _ Hcl Hm HPl HSy) as (f0 & HD). exists f0. intros n fuel w at_ es b s Hn Hf Hcpu HJ p pre t c post d Hp E Hd.
  destruct (jomRun_build _ _ _ _ _ _ _ _ Hcpu HJ) as (is & ms & ts & rs & _ & _ & _ & _ & _ & HS & HBR).
  destruct (C01_dependents_first _ _ _ _ _ _ _ _ _ HS HBR _ _ _ _ _ Hp E) as [_ H]. apply H.
  specialize (HD n fuel w at_ es b s Hn Hf Hcpu HJ p). clear -HD Hd Hp. induction Hd as [t d H|t x d H _ IH]; [apply t1n_step; by apply HD|].
  eapply Relation_Operators.t1n_trans; [by apply HD|exact IH].
Qed.
(** Without targets on the command line nothing but the first target of the makefile is asked for. If jom ends well, then
    it and everything the rules list for it is up to date or has been built without failure. *)
Theorem C53_first u cl k nm r us : commandLineOf u cl -> makefileSays u cl k -> plainDependents k -> (forall l, u_syncOrder u l ≡ₚ l) ->
  c_targets cl = [] -> uses (map strip (k_blocks k)) = (nm, r) :: us ->
  exists f0, forall n fuel w at_ es b s, (f0 <= n)%nat -> (f0 <= fuel)%nat -> 0 < u_cpus u -> jomRun u n fuel w at_ es b s ->
  (forall p, p ∈ passes (e_log s) -> ExecSpec.p_root p = keyOf nm) /\
  (e_end s = Some (EExit 0) -> exists p, passes (e_log s) = [p] /\
     (acyclicFrom (p_mk p) (ExecSpec.p_root p) -> forall d, d = keyOf nm \/ clos_trans_1n tid (listed k) (keyOf nm) d -> dealtWithOk (p_log p) d)).
Proof.
  intros Hcl Hm HPl HSy Ht Hus. destruct (read_said _ _ _ Hm) as (f1 & HR). destruct (written_depends _ _ _ Hcl Hm HPl HSy) as (f2 & HD). exists (max f1 f2). intros n fuel w at_ es b s Hn Hf Hcpu HJ.
  pose proof (mainStart_line _ _ _ _ _ _ Hcl (proj1 HJ)) as Ecl. pose proof (makefileSays_native _ _ _ Hm) as HN.
  destruct (mainStart_read _ _ _ _ _ (proj1 HJ)) as (st & names & HA & _ & HF). destruct (HR n fuel b st ltac:(lia) ltac:(lia) Ecl HA) as (HB & _).
  destruct (applyRules_table _ _ _ _ _ _ HN HB) as (T1 & T2 & _ & HTab & _). destruct HTab as (W & HFi & _ & HU). rewrite Hus in HFi, HU.
  destruct (finishParse_finished _ _ _ _ _ _ _ _ T1 T2 HF) as [F1 F2 _]. destruct (HU nm r ltac:(left)) as (t & bt & Hbt & _). apply F1 in HFi. pose proof (F2 t ltac:(by eexists)) as HIs.
  destruct (jomRun_build _ _ _ _ _ _ _ _ Hcpu HJ) as (is & ms & ts & rs & _ & _ & _ & _ & _ & HS & HBR).
  assert (Hrq : requested (pd_mk (bd_parsed b)) (c_targets (bd_cl b)) = [Some (keyOf nm)]).
  { rewrite Ecl, Ht. unfold requested. rewrite HFi. destruct (decide _) as [E|]; [|done]. rewrite E, lookup_empty in HIs. by destruct HIs. }
  split.
  - intros p Hp. destruct (C40_all_requested_in_order _ _ _ _ _ _ _ _ _ HS HBR) as [Hpre _]. rewrite Hrq in Hpre.
    assert (Hi : Some (ExecSpec.p_root p) ∈ rootsOf (e_log s)). { unfold rootsOf. apply elem_of_list_fmap. by exists p. }
    destruct Hpre as [l El]. assert (Hi2 : Some (ExecSpec.p_root p) ∈ [Some (keyOf nm)]). { rewrite El. apply elem_of_app. by left. }
    apply elem_of_list_singleton in Hi2. by injection Hi2.
  - intros He. destruct (C06_exit_zero _ _ _ _ _ _ _ _ _ HS HBR He) as (G1 & _ & _ & G4). rewrite Hrq in G1. unfold rootsOf in G1.
    destruct (passes (e_log s)) as [|p [|]] eqn:Ep; try done. injection G1 as G1. exists p. split; [done|]. intros Ha d Hd.
    apply G4; [left|done|]. unfold neededFor. rewrite G1. destruct Hd as [->|Hd]; [by left|right].
    specialize (HD n fuel w at_ es b s ltac:(lia) ltac:(lia) Hcpu HJ p). rewrite Ep in HD. clear -HD Hd. induction Hd as [t d H|t x d H _ IH]; [apply t1n_step; apply HD; [left|done]|].
    eapply Relation_Operators.t1n_trans; [apply HD; [left|done]|exact IH].
Qed.

(** A makefile with a macro, a conditional block that is skipped, a dependent written with a slash and in other letters, and an inline file. *)
From Verif Require Import ExecEx MacroSpec MacroProps MkLineSpec CmdSpec PPExpr PreprocReadProofs PreprocRunProofs PreprocProps WrittenEx MainEx.
Definition wholeMk := ["OBJS = aa.obj Sub/bb.obj"; "!IFDEF NOTHING"; "OBJS = xx"; "!ENDIF"; "prog.exe: $(OBJS)"; "	link $(OBJS)"; "AA.obj:"; "	one @<<"; "$(OBJS)"; "<<"; "sub\bb.obj: aa.obj"; "	@two"]%string.
Definition wholeOut : Main.outside := exOut ["/R"]%string wholeMk.
Definition wholeCl : cmdline :=
  match readCommandLine (u_cfiles wholeOut) (u_cpus wholeOut) (freshTable (readSystemEnvironment (u_env wholeOut))) (argumentsOf wholeOut) with
  | COk cl => cl | _ => Cmdline (settings 1 []) [] [] (Mtable ∅ ∅) [] end.
Lemma wholeCl_ok : commandLineOf wholeOut wholeCl.
Proof. unfold commandLineOf. vm_compute. reflexivity. Qed.
Definition whole0 : mtable :=
  match readEnvironment (readSystemEnvironment (u_env wholeOut)) (o_overrideEnv (c_opts wholeCl)) (c_macros wholeCl) with
  | MOk t1 => t1
  | MThrow => exEmpty end.
Definition whole1 : mtable := mset "OBJS" "aa.obj Sub/bb.obj" whole0.
Lemma whole0_ok : macrosBefore wholeOut wholeCl whole0.
Proof. eexists. split; [vm_compute; reflexivity|]. vm_compute. reflexivity. Qed.
Definition wholeText : list qstr := map (fun s => s2q s ++ [10]) ["$(OBJS)"; "<<"]%string.
Definition wholeBlock : block :=
  BLine (L "OBJS = aa.obj Sub/bb.obj") (BCond (L "!IFDEF NOTHING") (BLine (L "OBJS = xx") BNil) (AEnd (L "!ENDIF"))
    (BLine (L "prog.exe: $(OBJS)") (BLine (L "	link $(OBJS)") (BLine (L "AA.obj:") (BText (L "	one @<<") wholeText (BLine (L "sub\bb.obj: aa.obj") (BLine (L "	@two") BNil))))))).
Definition wholeLines : list tline :=
  map (fun l => withMacros (s2q l) whole1) ["prog.exe: $(OBJS)"; "	link $(OBJS)"; "AA.obj:"; "	one @<<"]%string ++ map (fun l => inlineText l whole1) wholeText
  ++ map (fun l => withMacros (s2q l) whole1) ["sub\bb.obj: aa.obj"; "	@two"]%string.
Definition wholeSaid : said := Said
  [Prule false [q "prog.exe"] [q "aa.obj"; q "Sub\bb.obj"] [Command (q "link aa.obj Sub/bb.obj") [] 0 false false]; Prule false [q "AA.obj"] [] [Command (q "one @<<") [InlineFile false false [] (s2q "aa.obj Sub/bb.obj" ++ [13; 10])%list] 0 false false];
   Prule false [q "sub\bb.obj"] [q "aa.obj"] [Command (q "two") [] 0 true false]]%string [] defaultSuffixes [] false false.
Lemma whole_run : runsW (u_fs wholeOut) [(s2q "/d/Makefile", s2q "/d")] (Ctx whole0 lexInit [] []) wholeBlock wholeLines (Ctx whole1 lexInit [] []).
Proof.
  unfold wholeBlock, wholeLines. cbn [map].
  eapply (define_withBy _ _ _ _ _ _ _ whole1); [apply tn_one; by vm_compute|apply (defines_by 79 (s2q "BJS ") (s2q " aa.obj Sub/bb.obj")); comp|by vm_compute|].
  cbn [setMacros cx_macros cx_lex cx_msgs cx_cmds].
  eapply (rn_if_not _ _ _ _ _ _ (Ctx whole1 lexInit [] []) _ _ [] (Ctx whole1 lexInit [] [])); [exBang|apply holds_ifdef_by; [comp|comp]| | |].
  { cbn [quietB]. split_and!; exQuiet. }
  { apply pk_end. exQuiet. }
  cbn [app]. wText. wText. wText.
  eapply (inline_withBy _ _ _ _ _ whole1 wholeText); [apply tn_one; by vm_compute|apply noDefinition_by; comp|eapply plain_by; [comp|comp]|done|exInline|].
  wText. wText. apply rn_nil.
Qed.
Lemma whole_says : makefileSays wholeOut wholeCl wholeSaid.
Proof.
  exists whole0. do 2 eexists. exists wholeBlock, wholeLines. eexists. split; [apply whole0_ok|]. split; [vm_compute; reflexivity|]. split; [apply (asWritten_reads (writtenB wholeBlock)); comp|].
  split; [exact whole_run|]. apply (sayB_ok 99). vm_compute. reflexivity.
Qed.

Definition wholeEvents : list event := [EvStart go; EvExit 0 0 go; EvStart go; EvExit 1 0 go; EvStart go; EvExit 2 0 go; EvStart go].
Definition cmdsOf (l : list logev) : list (tid * qstr) := flat_map (fun e => match e with LCmd t c => [(t, c_line c)] | _ => [] end) l.
Example C53_ex :
  commandLineOf wholeOut wholeCl /\ makefileSays wholeOut wholeCl wholeSaid /\ plainDependents wholeSaid /\ (forall l, u_syncOrder wholeOut l ≡ₚ l) /\ c_targets wholeCl = [] /\
  (exists r us, uses (map strip (k_blocks wholeSaid)) = (q "prog.exe", r) :: us) /\
  listed wholeSaid (q "prog.exe") (q "sub\bb.obj") /\ listed wholeSaid (q "sub\bb.obj") (q "aa.obj") /\
  jomRun wholeOut 200 2000 exNoFiles exAt wholeEvents (exBuilding wholeOut exNoFiles wholeEvents) (exState wholeOut exNoFiles wholeEvents) /\
  e_end (exState wholeOut exNoFiles wholeEvents) = Some (EExit 0) /\
  cmdsOf (e_log (exState wholeOut exNoFiles wholeEvents)) = [(q "aa.obj", q "one @c:\t\AA.obj.77.0.jom"); (q "sub\bb.obj", q "two"); (q "prog.exe", q "link aa.obj Sub/bb.obj")].
Proof.
  split; [apply wholeCl_ok|]. split; [apply whole_says|]. split.
  { intros r d Hr Hd. assert (H : forallb (fun r => forallb (fun d => forallb (fun c => negb (c =? magicEscape) && negb (c =? 34)) d) (pr_deps r)) (k_blocks wholeSaid) = true) by by vm_compute.
    rewrite forallb_forall in H. specialize (H _ (proj1 (elem_of_list_In _ _) Hr)). rewrite forallb_forall in H. specialize (H _ (proj1 (elem_of_list_In _ _) Hd)).
    rewrite forallb_forall in H. split; intros Hc; apply elem_of_list_In in Hc; apply H in Hc; apply andb_true_iff in Hc as [H1 H2]; by vm_compute in H1, H2. }
  split; [done|]. split; [by vm_compute|]. split; [do 2 eexists; vm_compute; reflexivity|].
  assert (R1 : ruleFor wholeSaid (q "prog.exe") (Prule false [q "prog.exe"] [q "aa.obj"; q "Sub\bb.obj"] [Command (q "link aa.obj Sub/bb.obj") [] 0 false false])) by (split_and!; [left|left|done]).
  assert (R2 : ruleFor wholeSaid (q "AA.obj") (Prule false [q "AA.obj"] [] [Command (q "one @<<") [InlineFile false false [] (s2q "aa.obj Sub/bb.obj" ++ [13; 10])%list] 0 false false])) by (split_and!; [right; left|left|done]).
  assert (R3 : ruleFor wholeSaid (q "sub\bb.obj") (Prule false [q "sub\bb.obj"] [q "aa.obj"] [Command (q "two") [] 0 true false])) by (split_and!; [right; right; left|left|done]).
  split; [eexists _, _, (q "Sub\bb.obj"), _, _; split_and!; [|exact R1|right; left|done| |exact R3|]; [by vm_compute|apply sameName_norm; by vm_compute|by vm_compute]|].
  split; [eexists _, _, (q "aa.obj"), _, _; split_and!; [|exact R3|left|done| |exact R2|]; [by vm_compute|apply sameName_norm; by vm_compute|by vm_compute]|].
  split; [apply exJom_ok; by vm_compute|]. by vm_compute.
Qed.
Print Assumptions C53_written.
Print Assumptions C53_order.
Print Assumptions C53_first.
