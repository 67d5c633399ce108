(** C50: every command that is run is written in the makefile. *)
From Coq Require Import Ascii String.
From stdpp Require Import prelude gmap.
From RecordUpdate Require Import RecordUpdate.
From Verif Require Import Base Data Infer UpToDate Graph Exec ExecSpec ExecEx Macro Opts OptsSpec LineReader Preproc Front FrontSpec FileMacros MkParse RulesSpec RulesProofs CmdExec
  Main MainSpec MainProofs MainEx OriginProofs.
Local Open Scope N_scope.

(** What becomes of a command of the target [name]: nothing, or the file name macros in it are replaced (for one dependent, if it is to be
    repeated) and then the names of the temporary files are put in. *)
Inductive prepared (o : xopts) (name : qstr) : command -> command -> Prop :=
| pd_same c : prepared o name c c
| pd_step c c1 line c2 : (exists deps tm fuel i, expandCommand name deps tm fuel i c = Some (FOk c1) \/ expandCommand name deps tm fuel i (single c) = Some (FOk c1)) ->
    (exists w fuel x x', createForCommand o w fuel (c_inline c1) (c_line c1) x = CmdExec.XOk (line, x')) ->
    prepared o name (Command line (c_inline c1) (c_max c1) (c_silent c1) (c_single c1)) c2 -> prepared o name c c2.
Lemma prepared_trans o name a b c : prepared o name a b -> prepared o name b c -> prepared o name a c.
Proof. induction 1 as [|c0 c1 line c2 H1 H2 _ IH]; [done|]. intros H. eapply pd_step; [exact H1|exact H2|by apply IH]. Qed.
(** How many exit codes are tolerated and whether the command is shown does not change. *)
Lemma prepared_flags o name a b : prepared o name a b -> c_max b = c_max a /\ c_silent b = c_silent a /\ (c_single a = false -> c_single b = false).
Proof.
  induction 1 as [|c c1 line c2 (deps & tm & fuel & i & H1) _ _ (IH1 & IH2 & IH3)]; [done|]. cbn [c_max c_silent c_single] in *. rewrite IH1, IH2.
  assert (G : forall x, expandCommand name deps tm fuel i x = Some (FOk c1) -> c_max c1 = c_max x /\ c_silent c1 = c_silent x /\ c_single c1 = c_single x).
  { intros x. unfold expandCommand. destruct (expandName _ _ _ _ _ _ _) as [[line'| |]|]; try done. destruct (expandFiles _ _ _ _ _ _) as [[fs| |]|]; try done. by intros [= <-]. }
  destruct H1 as [(-> & -> & E)%G|(-> & -> & E)%G]; (split_and!; [done|done|]).
  - rewrite <- E. exact IH3.
  - intros _. by apply IH3.
Qed.

(** *** The steps *)
Lemma collect_in {A B} (f : A -> option (fres B)) l r y : collect f l = Some (FOk r) -> y ∈ r -> exists x, x ∈ l /\ f x = Some (FOk y).
Proof.
  revert r. induction l as [|x l IH]; intros r; cbn; [intros [= <-] H; by apply elem_of_nil in H|].
  destruct (f x) as [[y'| |]|] eqn:E; try done. destruct (collect f l) as [[r'| |]|] eqn:E'; try done. intros [= <-].
  rewrite elem_of_cons. intros [->|H]; [exists x; split; [left|done]|]. destruct (IH _ eq_refl H) as (x' & ? & ?). exists x'. split; [by right|done].
Qed.
Lemma createTemp_in o w fuel cs : forall x cs' x' c', createTempFiles o w fuel cs x = CmdExec.XOk (cs', x') -> c' ∈ cs' ->
  exists c line y y', c ∈ cs /\ createForCommand o w fuel (c_inline c) (c_line c) y = CmdExec.XOk (line, y') /\
    c' = Command line (c_inline c) (c_max c) (c_silent c) (c_single c).
Proof.
  induction cs as [|c cs IH]; intros x cs' x' c'; cbn [createTempFiles]; [intros [= <- <-] H; by apply elem_of_nil in H|].
  destruct (createForCommand _ _ _ _ _ _) as [[line x1]|x1|] eqn:E; try done.
  destruct (createTempFiles o w fuel cs x1) as [[cs2 x2]|x2|] eqn:E2; try done. intros [= <- <-].
  rewrite elem_of_cons. intros [->|H].
  - exists c, line, x, x1. split_and!; [left|done|done].
  - destruct (IH _ _ _ _ E2 H) as (c0 & l0 & y & y' & ? & ? & ?). exists c0, l0, y, y'. split_and!; [by right|done|done].
Qed.
Lemma prepare_in o fuel at_ mk t n b cs c : mk_targets mk !! t = Some b -> prepare o fuel at_ mk t n = Some cs -> c ∈ cs ->
  exists c0, c0 ∈ b_cmds b /\ prepared o (b_name b) c0 c.
Proof.
  intros Hb. unfold prepare. rewrite Hb. destruct (startCommands _ _ _ _ _) as [[cs1| |]|] eqn:E; try done;
    [|intros [= <-] Hc; by apply elem_of_nil in Hc..].
  destruct (createTempFiles _ _ _ _ _) as [[cs2 x]|x|] eqn:E2; try done; [|intros [= <-] Hc; by apply elem_of_nil in Hc].
  intros [= <-] Hc. destruct (createTemp_in _ _ _ _ _ _ _ _ E2 Hc) as (c1 & line & y & y' & H1 & H2 & ->).
  assert (E3 : expandCommands (b_name b) (b_deps b) (mo_times (at_ n)) fuel (b_cmds b) = Some (FOk cs1)).
  { unfold startCommands in E. destruct (b_cmds b); [by injection E as <-; apply elem_of_nil in H1|]. by destruct (expandCommands _ _ _ _ _) as [[[|]| |]|]. }
  destruct (collect_in _ _ _ _ E3 H1) as ([i c0] & Hin & Hx). cbn [fst snd] in Hx.
  unfold FileMacros.jobsOf in Hin. apply elem_of_list_In, in_flat_map in Hin as (c2 & Hc2 & Hin). exists c2. split; [by apply elem_of_list_In|].
  destruct (c_single c2) eqn:Es.
  - apply in_map_iff in Hin as (k & [= <- <-] & _). eapply pd_step; [|by do 4 eexists|apply pd_same]. do 4 eexists. right. exact Hx.
  - destruct Hin as [[= <- <-]|[]]. eapply pd_step; [|by do 4 eexists|apply pd_same]. do 4 eexists. left. exact Hx.
Qed.
Lemma mapOpt_in {A B} (f : A -> option B) l r y : mapOpt f l = Some r -> y ∈ r -> exists x, x ∈ l /\ f x = Some y.
Proof.
  revert r. induction l as [|x l IH]; intros r; cbn; [intros [= <-] H; by apply elem_of_nil in H|].
  destruct (f x) as [y'|] eqn:E; [|done]. destruct (mapOpt f l) as [r'|] eqn:E'; [|done]. intros [= <-].
  rewrite elem_of_cons. intros [->|H]; [exists x; split; [left|done]|]. destruct (IH _ eq_refl H) as (x' & ? & ?). exists x'. split; [by right|done].
Qed.

Lemma withPriority_cmds sfx r : r_cmds (withPriority sfx r) = r_cmds r.
Proof. unfold withPriority. by destruct (suffixIndex _ _ _). Qed.

(** The macros before the makefile is read. *)
Definition macrosBefore (u : outside) (cl : cmdline) (t0 : mtable) : Prop :=
  exists t1, readEnvironment (readSystemEnvironment (u_env u)) (o_overrideEnv (c_opts cl)) (c_macros cl) = MOk t1 /\
  (if o_ignorePredefined (c_opts cl) then MOk t1 else predefine (predefined (u_app u) (u_cwd u)) t1) = MOk t0.
(** A makefile as it has been read. *)
Definition readAs (u : outside) (n fuel : nat) (b : building) (st : pst pp) : Prop :=
  exists t0 p, macrosBefore u (bd_cl b) t0 /\ openFile (u_fs u) (c_makefile (bd_cl b)) (PP t0 [] [] [] PPLex.lexInit [] []) = Got p /\
  parseFile (ppNext (u_fs u) fuel) ppTab (u_glob u) (u_isRel u) n fuel (fs_dir (u_fs u) (c_makefile (bd_cl b)))
    (o_suppressMessages (c_opts (bd_cl b))) (o_stopOnErrors (c_opts (bd_cl b))) p = POk st.
Lemma mainStart_read u n fuel w b : mainStart u n fuel w = MGoesOn b ->
  exists st names, readAs u n fuel b st /\ pd_macros (bd_parsed b) = pp_macros (s_rd st) /\
  finishParse (u_extOrder u (map r_toExt (s_rules st))) (s_suffixes st) (s_rules st) (u_syncOrder u (s_sync st)) (s_mk st) (c_targets (bd_cl b)) = Ok (pd_mk (bd_parsed b), names).
Proof.
  unfold mainStart. destruct (mainParse u n fuel) as [c| | |[cl p]] eqn:E; try done. cbv zeta.
  destruct (match newServer _ _ _ with Some _ => _ | None => _ end); [done|]. destruct (negb (clientOk _ _ _)); [done|].
  destruct (apply _ _ _ _) as [s| | | |]; try done. intros [= <-]. unfold readAs. cbn [bd_cl bd_parsed].
  unfold mainParse in E. destruct (readCommandLine _ _ _ _) as [cl'| | |] eqn:E1; try done.
  destruct (o_usage (c_opts cl') || o_version (c_opts cl')); [done|].
  destruct (match o_stderr _ with Some _ => _ | None => _ end); [done|].
  destruct (readEnvironment _ _ _) as [t1|] eqn:E2; [|done]. destruct (if o_ignorePredefined _ then _ else _) as [t2|] eqn:E3; [|done].
  destruct (readMakefile _ _ _ _ _ _ _) as [p'| | |] eqn:E4; try done. injection E as -> ->.
  unfold readMakefile in E4. destruct (openFile _ _ _) as [p0| | |] eqn:E6; try done.
  destruct (parseFile _ _ _ _ _ _ _ _ _ _) as [st| | |] eqn:E5; try done. cbn [bindR] in E4.
  destruct (finishParse _ _ _ _ _ _) as [[mk names]| | | |] eqn:E7; try done. injection E4 as <-.
  exists st, names. split_and!; [|done|done]. exists t2, p0. split_and!; [by exists t1|done|done].
Qed.

(** Every command of a target that is started is one that is written for this target or in an inference rule, prepared for this
    target; from an inference rule the macros are expanded once more and the source file is put in first. *)
Theorem C50_origin u n fuel w at_ es b s : jomRun u n fuel w at_ es b s -> exists st, readAs u n fuel b st /\
  forall t cs c, LStart t cs ∈ e_log s -> c ∈ cs -> exists name c0,
  keyOf name = t /\
  ((exists b0, mk_targets (s_mk st) !! t = Some b0 /\ c0 ∈ b_cmds b0) \/
   (exists r c1 d, r ∈ s_rules st /\ c1 ∈ r_cmds r /\ instCommand (expandWithTable (pp_macros (s_rd st))) d c1 = Some c0)) /\
  prepared (executorOptions u (bd_cl b)) name c0 c /\ c_max c = c_max c0 /\ c_silent c = c_silent c0.
Proof.
  intros [HM HR]. destruct (mainStart_read _ _ _ _ _ HM) as (st & names & H1 & HT & HF). exists st. split; [done|].
  destruct H1 as (t0 & p0 & _ & _ & HP). apply parseFile_rules in HP as (rs & HN & HA).
  destruct (applyRules_table _ _ _ _ _ _ HN HA) as (T1 & T2 & _).
  destruct (finishParse_finished _ _ _ _ _ _ _ _ T1 T2 HF) as [_ _ FO].
  assert (HB : buildRun (expandWithTable (pd_macros (bd_parsed b))) (prepare (executorOptions u (bd_cl b)) fuel at_)
    (kindOf (xo_dryRun (executorOptions u (bd_cl b))) (xo_comspec (executorOptions u (bd_cl b)))) w (bd_opts b) (pd_mk (bd_parsed b)) (c_targets (bd_cl b)) es s).
  { exists (bd_state b). split; [|exact HR]. clear -HM. unfold mainStart in HM. destruct (mainParse u n fuel) as [c| | |[cl p]]; try done. cbv zeta in HM.
    destruct (match newServer _ _ _ with Some _ => _ | None => _ end); [done|]. destruct (negb (clientOk _ _ _)); [done|].
    destruct (apply _ _ _ _) as [s0| | | |] eqn:E; try done. by injection HM as <-. }
  intros t cs c Hs Hc.
  enough (exists name c0, keyOf name = t /\
    ((exists b0, mk_targets (s_mk st) !! t = Some b0 /\ c0 ∈ b_cmds b0) \/
     (exists r c1 d, r ∈ s_rules st /\ c1 ∈ r_cmds r /\ instCommand (expandWithTable (pp_macros (s_rd st))) d c1 = Some c0)) /\
    prepared (executorOptions u (bd_cl b)) name c0 c) as (name & c0 & K1 & K2 & K3).
  { exists name, c0. destruct (prepared_flags _ _ _ _ K3) as (K4 & K5 & _). by split_and!. }
  apply (origin_build _ _ _ _ _ _ (calculatePriorities (s_suffixes st) (s_rules st)) _ _ _ t cs) in HB; [|intros x bx r Hb; by apply (FO x bx Hb)|done].
  destruct HB as [HB [[bt Hbt] _]].
  rewrite HT in HB. clear Hs HR. destruct (FO _ _ Hbt) as (Hk & _). exists (b_name bt).
  revert c Hc. induction HB as [b1 Hb1|r d cs Hr Hi|m k b1 b0 cs _ IH Hm H0 Hname Hp]; intros c Hc.
  - exists c. split_and!; [done| |apply pd_same]. rewrite Hb1 in Hbt. injection Hbt as ->. left.
    destruct (FO _ _ Hb1) as (_ & _ & _ & [(b0 & H1 & _ & H3 & _)|(H3 & _)]); rewrite H3 in Hc; [by exists b0|by apply elem_of_nil in Hc].
  - exists c. split_and!; [done| |apply pd_same]. right. destruct (mapOpt_in _ _ _ _ Hi Hc) as (c1 & H1 & H2).
    apply elem_of_list_In, in_map_iff in Hr as (r' & <- & Hr'). exists r', c1, d. split_and!; [by apply elem_of_list_In|by rewrite withPriority_cmds in H1|exact H2].
  - rewrite H0 in Hbt. injection Hbt as ->. destruct (prepare_in _ _ _ _ _ _ _ _ _ Hm Hp Hc) as (c1 & H1 & H2). rewrite Hname in H2.
    destruct (IH _ H1) as (c0 & H3 & H4 & H5). exists c0. split_and!; [exact H3|exact H4|]. by eapply prepared_trans.
Qed.
Print Assumptions C50_origin.

(** A command written for its target and one from an inference rule. *)
Definition originMk := ["aa: b.obj"; "	link $? <<"; "text"; "<<"; "FLAGS=/c"; ".c.obj:"; "	@-cl $(FLAGS) $<"]%string.
Definition originRun : list event := [EvStart go; EvExit 0 0 go; EvStart go; EvExit 1 0 go; EvStart go].
Definition originW : world := exWorld [("b.c", 3); (".\b.c", 3)]%string.
Definition startsOf (l : list logev) : list (tid * list (qstr * N * bool)) :=
  flat_map (fun e => match e with LStart t cs => [(t, map (fun c => (c_line c, c_max c, c_silent c)) cs)] | _ => [] end) l.
Example C50_origin_ex :
  jomRun (exOut [] originMk) 200 2000 originW exAt originRun (exBuilding (exOut [] originMk) originW originRun) (exState (exOut [] originMk) originW originRun)
  /\ startsOf (e_log (exState (exOut [] originMk) originW originRun)) =
     [(s2q "b.obj", [(s2q "cl /c b.c", 4294967295, true)]); (s2q "aa", [(s2q "link b.obj c:\t\aa.77.0.jom", 0, false)])]
  /\ e_end (exState (exOut [] originMk) originW originRun) = Some (EExit 0).
Proof. split; [apply exJom_ok; by vm_compute|]. by vm_compute. Qed.

(** The same target run twice, for two requested targets: the second time the line is the one of the first time, although another
    temporary file has been made for it (see C36_second_run_refuted). *)
Definition twiceMk := ["all: aa"; "aa:"; "	link <<"; "text"; "<<"]%string.
Definition twiceAt (k : nat) : moment := Moment (mo_times (exAt k)) (mo_world (exAt k)) (mo_exec (exAt k) <| x_ticks := k |>).
Definition twiceEv : list event := let g k := Choice k [] true in
  [EvStart (g 0%nat); EvExit 0 0 (g 0%nat); EvStart go; EvStart (g 1%nat); EvExit 1 0 go; EvStart go].
Definition exJomAt (at_ : nat -> moment) (u : outside) (w : world) (es : list event) : option (building * est) :=
  match mainStart u 200 2000 w with
  | MGoesOn b =>
    let xo := executorOptions u (bd_cl b) in
    match run (expandWithTable (pd_macros (bd_parsed b))) (prepare xo 2000 at_) (kindOf (xo_dryRun xo) (xo_comspec xo)) w (bd_opts b) (bd_state b) es with
    | Some s => Some (b, s)
    | None => None
    end
  | _ => None
  end.
Lemma exJomAt_ex at_ u w es (P : building -> est -> Prop) : match exJomAt at_ u w es with Some (b, s) => P b s | None => False end ->
  exists b s, jomRun u 200 2000 w at_ es b s /\ P b s.
Proof.
  unfold exJomAt, jomRun. destruct (mainStart u 200 2000 w) as [| | |b]; [done|done|done|]. destruct (run _ _ _ _ _ _ _) as [s|] eqn:E; [|done].
  intros H. exists b, s. by split_and!.
Qed.
Definition twiceLines : list (tid * list (qstr * N * bool)) := [(s2q "aa", [(s2q "link c:\t\aa.77.0.jom", 0, false)]); (s2q "aa", [(s2q "link c:\t\aa.77.0.jom", 0, false)])].
Definition secondFiles (b : building) (bl : block) : list (qstr * bool) :=
  match createTempFiles (executorOptions (exOut ["all"; "aa"]%string twiceMk) (bd_cl b)) (mo_world (twiceAt 1)) 2000 (b_cmds bl) (mo_exec (twiceAt 1) <| x_target := b_name bl |>) with
  | CmdExec.XOk (_, x) => x_temps x
  | _ => []
  end.
Definition twiceHolds (b : building) (s : est) : Prop := startsOf (e_log s) = twiceLines /\
  exists bl, mk_targets (e_mk s) !! (s2q "aa" : tid) = Some bl /\ secondFiles b bl = [(s2q "c:\t\aa.77.1.jom", false)].
Definition twiceCheck (b : building) (s : est) : Prop := startsOf (e_log s) = twiceLines /\
  match mk_targets (e_mk s) !! (s2q "aa" : tid) with Some bl => secondFiles b bl = [(s2q "c:\t\aa.77.1.jom", false)] | None => False end.
Lemma twiceCheck_holds b s : twiceCheck b s -> twiceHolds b s.
Proof. intros [H1 H2]. split; [exact H1|]. destruct (mk_targets (e_mk s) !! _) as [bl|]; [|contradiction]. exists bl. split; [reflexivity|exact H2]. Qed.
Theorem C36_second_root_refuted : exists es b s, jomRun (exOut ["all"; "aa"]%string twiceMk) 200 2000 exNoFiles twiceAt es b s /\ twiceHolds b s.
Proof.
  exists twiceEv. destruct (exJomAt_ex twiceAt (exOut ["all"; "aa"]%string twiceMk) exNoFiles twiceEv twiceCheck) as (b & s & H1 & H2).
  - by vm_compute.
  - exists b, s. split; [exact H1|exact (twiceCheck_holds b s H2)].
Qed.
Print Assumptions C36_second_root_refuted.
