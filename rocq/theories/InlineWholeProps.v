(** C36, from the text of the makefile to the files on disk: parser, macros and executor together. *)
From Coq Require Import Ascii String.
From stdpp Require Import prelude gmap.
From RecordUpdate Require Import RecordSet.
Import RecordSetNotations.
From Verif Require Import Base Data Infer UpToDate Graph Exec ExecSpec ExecEx Macro Opts OptsSpec LineReader Preproc Front FrontSpec FileMacros FileMacrosProofs MkParse RulesSpec RulesProofs
  CmdExec CmdExecSpec CmdExecProofs Main MainSpec MainProofs MainEx OriginProofs OriginProps WrittenSpec WholeProps.
Local Open Scope N_scope.

(** An inline file as it is written in the makefile, [f0], and as it is created, [f]: only file name macros are replaced. *)
Definition asInText (f0 f : inlineFile) : Prop :=
  if_keep f = if_keep f0 /\ if_unicode f = if_unicode f0 /\
  (magicEscape ∉ (if_content f0 : list N) -> if_content f = if_content f0) /\ (magicEscape ∉ (if_name f0 : list N) -> if_name f = if_name f0).
Lemma asInText_trans a b c : asInText a b -> asInText b c -> asInText a c.
Proof.
  intros (H1 & H2 & H3 & H4) (K1 & K2 & K3 & K4). split_and!; [congruence|congruence| |].
  - intros H. rewrite K3, H3; try done. by rewrite H3.
  - intros H. rewrite K4, H4; try done. by rewrite H4.
Qed.
Lemma expandName_plain name deps tm fuel i (d e : qstr) : magicEscape ∉ (d : list N) -> expandName name deps tm fuel i false d = Some (FOk e) -> e = d.
Proof.
  intros Hd. destruct fuel as [|fuel]; [done|]. unfold expandName. cbn [expandNames].
  pose proof (cut_clean d [] Hd) as E. rewrite app_nil_r in E. rewrite E. cbn. by intros [= <-].
Qed.
Lemma expandFiles_text name deps tm fuel i l : forall r, expandFiles name deps tm fuel i l = Some (FOk r) -> Forall2 asInText l r.
Proof.
  induction l as [|f l IH]; intros r; cbn [expandFiles]; [intros [= <-]; constructor|].
  destruct (expandName _ _ _ _ _ _ (if_name f)) as [[nm| |]|] eqn:E1; try done.
  destruct (expandName _ _ _ _ _ _ (if_content f)) as [[ct| |]|] eqn:E2; try done.
  destruct (expandFiles _ _ _ _ _ l) as [[r'| |]|]; try done. intros [= <-]. constructor; [|by apply IH].
  split_and!; [done|done|intros H; by eapply expandName_plain|intros H; by eapply expandName_plain].
Qed.
Lemma prepared_text o name c0 c : prepared o name c0 c -> Forall2 asInText (c_inline c0) (c_inline c).
Proof.
  induction 1 as [c|c c1 line c2 (deps & tm & fuel & i & H) _ _ IH].
  - induction (c_inline c); constructor; [by split_and!|done].
  - cbn [c_inline] in IH.
    assert (G : forall x, expandCommand name deps tm fuel i x = Some (FOk c1) -> Forall2 asInText (c_inline x) (c_inline c1)).
    { intros x. unfold expandCommand. destruct (expandName _ _ _ _ _ _ _) as [[l| |]|]; try done.
      destruct (expandFiles _ _ _ _ _ _) as [[fs| |]|] eqn:E; try done. intros [= <-]. cbn [c_inline]. by eapply expandFiles_text. }
    assert (G' : Forall2 asInText (c_inline c) (c_inline c1)) by (destruct H as [H|H]; by apply G in H).
    revert IH. generalize (c_inline c2). clear -G'. induction G' as [|a b l m Hab _ IH]; intros k Hk; inversion Hk; subst; constructor; [by eapply asInText_trans|by apply IH].
Qed.

Lemma createTemp_inline o w fuel cs1 : forall x cs z, createTempFiles o w fuel cs1 x = CmdExec.XOk (cs, z) -> map c_inline cs = map c_inline cs1.
Proof.
  induction cs1 as [|c cs1 IH]; intros x cs z; cbn [createTempFiles]; [by intros [= <- <-]|].
  destruct (createForCommand _ _ _ _ _ _) as [[l y]|y|]; try done. destruct (createTempFiles _ _ _ cs1 y) as [[l2 z2]|z2|] eqn:E2; try done. intros [= <- <-]. cbn [map c_inline].
  f_equal. by eapply IH.
Qed.

(** The commands of a started target have been prepared by the executor. *)
Lemma started_prepared u n fuel w at_ es b s t cs : jomRun u n fuel w at_ es b s -> LStart t cs ∈ e_log s -> cs <> [] ->
  exists m k bl, mk_targets m !! t = Some bl /\ keyOf (b_name bl) = t /\ prepare (executorOptions u (bd_cl b)) fuel at_ m t k = Some cs.
Proof.
  intros [HM HR] Hs Hne. destruct (mainStart_read _ _ _ _ _ HM) as (st & names & H1 & HT & HF).
  destruct H1 as (t0 & p0 & _ & _ & HP). apply parseFile_rules in HP as (rs & HN & HA).
  destruct (applyRules_table _ _ _ _ _ _ HN HA) as (T1 & T2 & _).
  destruct (finishParse_finished _ _ _ _ _ _ _ _ T1 T2 HF) as [_ _ FO].
  assert (HB : buildRun (expandWithTable (pd_macros (bd_parsed b))) (prepare (executorOptions u (bd_cl b)) fuel at_)
    (kindOf (xo_dryRun (executorOptions u (bd_cl b))) (xo_comspec (executorOptions u (bd_cl b)))) w (bd_opts b) (pd_mk (bd_parsed b)) (c_targets (bd_cl b)) es s).
  { exists (bd_state b). split; [|exact HR]. clear -HM. unfold mainStart in HM. destruct (mainParse u n fuel) as [c| | |[cl p]]; try done. cbv zeta in HM.
    destruct (match newServer _ _ _ with Some _ => _ | None => _ end); [done|]. destruct (negb (clientOk _ _ _)); [done|].
    destruct (apply _ _ _ _) as [s0| | | |] eqn:E; try done. by injection HM as <-. }
  apply (origin_build _ _ _ _ _ _ (calculatePriorities (s_suffixes st) (s_rules st)) _ _ _ t cs) in HB; [|intros x bx r Hb; by apply (FO x bx Hb)|done].
  destruct HB as [_ [_ [->|(m & k & bl & b0 & H1 & H2 & H3 & H4)]]]; [done|]. exists m, k, bl. split_and!; [done| |done].
  rewrite H3. by destruct (FO _ _ H2).
Qed.

(** Before the commands of a target are run, the executor has made all their inline files: under the names [nss], command by command, with
    the content that is written in the makefile, and put the names into the lines. They are removed at the next clean-up unless KEEP is
    written. Every command with its inline files is one that is written in a rule for the target or comes from an inference rule. Missing: two
    files of one name (C36_same_name_refuted), the bytes on disk. *)
Theorem C36_text_partial u cl k : commandLineOf u cl -> makefileSays u cl k -> exists f0, forall n fuel w at_ es b s,
  (f0 <= n)%nat -> (f0 <= fuel)%nat -> jomRun u n fuel w at_ es b s -> forall t cs, LStart t cs ∈ e_log s -> cs <> [] ->
  exists m name lines nss x', keyOf name = t /\
    let x := cleanupTempFiles (mo_exec (at_ m) <| x_target := name |>) in
    createdAll (executorOptions u cl) (mo_world (at_ m)) name cs nss (dom (x_files x)) /\
    map c_line cs = zip_with putAll lines nss /\
    x_temps x' = zip (concat nss) (map if_keep (concat (map c_inline cs))) /\
    (NoDup (concat nss) -> forall nm f, (nm, f) ∈ zip (concat nss) (concat (map c_inline cs)) -> x_files x' !! nm = Some (if_content f)) /\
    (forall nm, nm ∉ concat nss -> x_files x' !! nm = x_files x !! nm) /\
    forall c, c ∈ cs -> exists c0, Forall2 asInText (c_inline c0) (c_inline c) /\
      ((exists nm r, ruleFor k nm r /\ keyOf nm = t /\ c0 ∈ pr_cmds r) \/
       (exists ir rcs c1 d, (ir, rcs) ∈ k_rules k /\ c1 ∈ rcs /\ instCommand (expandWithTable (pd_macros (bd_parsed b))) d c1 = Some c0)).
Proof.
  intros Hcl Hm. destruct (C53_written _ _ _ Hcl Hm) as (f0 & HW). exists f0. intros n fuel w at_ es b s Hn Hf HJ t cs Hs Hne.
  pose proof (mainStart_line _ _ _ _ _ _ Hcl (proj1 HJ)) as Ecl.
  destruct (started_prepared _ _ _ _ _ _ _ _ _ _ HJ Hs Hne) as (mk & m & bl & Hb & Hk & Hp). rewrite Ecl in Hp.
  unfold prepare in Hp. rewrite Hb in Hp.
  destruct (startCommands _ _ _ _ _) as [[cs1| |]|]; try (by injection Hp as <-); try done.
  destruct (createTempFiles _ _ _ _ _) as [[cs2 z]|z|] eqn:E; try (by injection Hp as <-); try done. injection Hp as ->.
  assert (Ei : map c_inline cs = map c_inline cs1).
  { by eapply createTemp_inline. }
  assert (Et : x_target (cleanupTempFiles (mo_exec (at_ m) <| x_target := b_name bl |>)) = b_name bl).
  { unfold cleanupTempFiles. set (y := mo_exec (at_ m) <| x_target := b_name bl |>). change (b_name bl) with (x_target (y <| x_temps := [] |>)).
    induction (x_temps y) as [|h ts IH]; [done|]. cbn [fold_right]. unfold removeTemp at 1. destruct (snd h); [done|]. exact IH. }
  destruct (cleanup_out (mo_exec (at_ m) <| x_target := b_name bl |>)) as (_ & _ & _ & _ & _ & E0).
  apply create_created in E as (nss & H1 & H2 & H3 & H4 & _). rewrite Et, E0 in *. cbn [app] in H4.
  assert (Hl : List.length (concat nss) = List.length (concat (map c_inline cs1))).
  { clear -H1. induction H1 as [|c cs ns nss known Hc _ IH]; [done|]. cbn. rewrite !app_length, IH. by rewrite (created_files _ _ _ _ _ _ Hc). }
  exists m, (b_name bl), (map c_line cs1), nss, z. split; [done|]. cbv zeta. rewrite Ei. split_and!; [| | | | |].
  - clear -H1 Ei. revert cs Ei. induction H1 as [|c cs1 ns nss known Hc _ IH]; intros [|d cs] Ei; try done; [constructor|]. injection Ei as E1 E2. constructor; [by rewrite E1|by apply IH].
  - done.
  - done.
  - intros Hd nm f Hin. rewrite H3. apply writeAll_at; [|done]. by rewrite zip_fst.
  - intros nm Hnm. rewrite H3, writeAll_other; [done|]. by rewrite zip_fst.
  - intros c Hc. destruct (HW n fuel w at_ es b s Hn Hf HJ t cs c Hs Hc) as (nm & c0 & K1 & K2 & _ & _ & K5). exists c0. split; [by eapply prepared_text|done].
Qed.
Print Assumptions C36_text_partial.
Definition inlineStarts (l : list logev) : list (tid * list (qstr * list (qstr * bool))) :=
  flat_map (fun e => match e with LStart t cs => [(t, map (fun c => (c_line c, map (fun f => (if_content f, if_keep f)) (c_inline c))) cs)] | _ => [] end) l.
Example C36_text_partial_ex :
  commandLineOf wholeOut wholeCl /\ makefileSays wholeOut wholeCl wholeSaid /\
  jomRun wholeOut 200 2000 exNoFiles exAt wholeEvents (exBuilding wholeOut exNoFiles wholeEvents) (exState wholeOut exNoFiles wholeEvents) /\
  inlineStarts (e_log (exState wholeOut exNoFiles wholeEvents)) =
    [(s2q "aa.obj", [(s2q "one @c:\t\AA.obj.77.0.jom", [((s2q "aa.obj Sub/bb.obj" ++ [13; 10])%list, false)])]);
     (s2q "sub\bb.obj", [(s2q "two", [])]); (s2q "prog.exe", [(s2q "link aa.obj Sub/bb.obj", [])])].
Proof.
  destruct C53_ex as (H1 & H2 & _ & _ & _ & _ & _ & _ & H3 & _). split; [exact H1|]. split; [exact H2|]. split; [exact H3|]. by vm_compute.
Qed.
