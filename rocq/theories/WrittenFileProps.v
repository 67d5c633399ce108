(** C52: makefiles as files: directives, macros, included files, and then what the lines say. *)
From Coq Require Import Ascii String.
From stdpp Require Import prelude gmap.
From RecordUpdate Require Import RecordSet.
From Verif Require Import Base BaseProofs Data Macro MacroSpec MacroProps MkLineSpec CmdSpec PPExpr PPLex LineReader LineReaderSpec Preproc PreprocSpec PreprocProofs
  PreprocReadProofs PreprocRunProofs PreprocProps FileMacros MkParse RulesSpec RulesProofs RulesProps WrittenSpec WrittenProofs WrittenEx WrittenProps.
Import RecordSetNotations.
Local Open Scope N_scope.

(** Each line delivered is noted with the macros at that time, and whether it is text of an inline file. *)
Definition withMacros (l : qstr) (t : mtable) : tline := (l, Moment (mt_macros t) false).
Definition inlineText (l : qstr) (t : mtable) : tline := (l, Moment (mt_macros t) true).
Notation runsW := (runsM withMacros (Some inlineText)).

Inductive yieldsFrom (fs : fsenv) : mline -> pp -> list tline -> Prop :=
| yf_end line st st' n : readLoop false fs n line st = Got (None, st') -> readLine false fs n st' = Got (None, st') -> yieldsFrom fs line st []
| yf_line line st l st1 n ts st2 ls : readLoop false fs n line st = Got (Some l, st1) -> texts (Some inlineText) fs st1 ts st2 ->
    yieldsFrom fs (MLine None CNone) st2 ls -> yieldsFrom fs line st ((l, Moment (ppTab st1) false) :: ts ++ ls).

Lemma steps_yields fs line st ls line' st' ls2 : steps withMacros (Some inlineText) fs line st ls line' st' -> yieldsFrom fs line' st' ls2 -> yieldsFrom fs line st (ls ++ ls2).
Proof.
  induction 1 as [|line st line1 st1 out line' st' E _ IH|line st l st1 ts st2 out line' st' E Ht _ IH]; intros H; [done| |].
  - specialize (IH H). inversion IH as [? ? st2 n E1 E2|? ? l st2 n ts st3 ls3 E1 Ht E2]; subst.
    + apply (yf_end _ _ _ st2 (S n)); [by rewrite (again_loop _ _ _ _ _ _ E)|]. by eapply loop_mono; [exact E2|done|lia].
    + apply (yf_line _ _ _ _ _ (S n) _ st3); [by rewrite (again_loop _ _ _ _ _ _ E)|done..].
  - cbn [app]. rewrite <- app_assoc. apply (yf_line _ _ _ _ _ 1 _ st2); [|done|by apply IH]. cbn [readLoop]. by rewrite E.
Qed.
Lemma end_yields fs line st cx : Sees st cx [] [] -> isComplete line = true -> yieldsFrom fs line st [].
Proof.
  intros Hs Hl. destruct (step_end fs _ _ _ _ Hs Hl) as (st1 & Hs1 & E).
  assert (E1 : pp_files st1 = []).
  { unfold readStep, basicReadLine in E. destruct Hs as (_ & _ & Hb & Hs). rewrite Hb, (nextLine_end _ Hs), Hl in E. cbn in E. by injection E as <-. }
  apply (yf_end _ _ _ st1 1).
  - cbn [readLoop]. rewrite E. cbn [bindP]. destruct Hs1 as (_ & -> & _). done.
  - unfold readLine. cbn [readLoop]. unfold readStep, basicReadLine. destruct Hs1 as (_ & Hcs & Hb & _). rewrite Hb, E1. cbn.
    rewrite Hcs. do 2 f_equal. destruct st1. cbn in *. by subst.
Qed.
Lemma texts_yields fs st1 ts st2 ls fuel : texts (Some inlineText) fs st1 ts st2 -> (1 <= fuel)%nat -> yields (ppNext fs fuel) ppTab st2 ls ->
  yields (ppNext fs fuel) ppTab st1 (ts ++ ls).
Proof.
  intros H Hf Hy. destruct fuel as [|fuel]; [lia|]. induction H as [st|f st l st1 out st' [= <-] E _ IH]; [done|]. apply (yl_line (ppNext fs (S fuel)) ppTab st true l st1 (out ++ ls)); [|by apply IH].
  unfold ppNext, readLine. cbn [readLoop]. by rewrite E.
Qed.
Lemma yields_from fs line st ls : yieldsFrom fs line st ls -> line = MLine None CNone ->
  exists f0, forall fuel, (f0 <= fuel)%nat -> yields (ppNext fs fuel) ppTab st ls.
Proof.
  induction 1 as [line st st' n E1 E2|line st l st1 n ts st2 ls E1 Ht _ IH]; intros ->.
  - exists n. intros fuel Hf. apply (yl_end _ _ _ st'); unfold ppNext.
    + unfold readLine. by rewrite (loop_mono _ _ _ fuel _ _ _ E1).
    + unfold readLine in *. by rewrite (loop_mono _ _ _ fuel _ _ _ E2).
  - destruct (IH eq_refl) as (f1 & H1). exists (S (max n f1)). intros fuel Hf. apply yl_line; [|eapply texts_yields; [done|lia|apply H1; lia]]. unfold ppNext, readLine.
    rewrite (loop_mono _ _ _ fuel _ _ _ E1); [done|done|lia].
Qed.
Lemma file_yields fs name st st1 uni text b ls cx' : pp_back st = [] -> openFile fs name st = Got st1 ->
  fs_open fs (fs_abs fs name) = Some (uni, text) -> reads (openReader uni text) (writtenB b) ->
  runsW fs [(fs_abs fs name, fs_dir fs name)] (ctxOf st) b ls cx' ->
  exists f0, forall fuel, (f0 <= fuel)%nat -> yields (ppNext fs fuel) ppTab st1 ls.
Proof.
  intros Hb Ho Hf Hr Hruns. pose proof (open_sees _ _ _ _ _ _ _ Ho Hb Hf Hr) as Hs. rewrite <- (app_nil_r (writtenB b)) in Hs.
  destruct (run_block _ _ _ _ _ _ _ _ _ _ _ [] (MLine None CNone) Hruns eq_refl Hs eq_refl) as (line1 & st2 & Hl & Hss & Hs2). apply Sees_pop in Hs2.
  apply (yields_from fs (MLine None CNone)); [|done]. rewrite <- (app_nil_r ls). eapply steps_yields; [exact Hss|]. by eapply end_yields.
Qed.

(** A makefile made of lines, conditional blocks and included files, whose selected lines say [k], each with the macros
    defined before it: if it is read successfully, then every target has the dependents and commands of its rules, the
    inference rules are there in their order, and the directives have their effect. *)
Theorem C52_file glob isRel dir silent stop fs name st st1 uni text b ls cx' k : pp_back st = [] -> openFile fs name st = Got st1 ->
  fs_open fs (fs_abs fs name) = Some (uni, text) -> reads (openReader uni text) (writtenB b) ->
  runsW fs [(fs_abs fs name, fs_dir fs name)] (ctxOf st) b ls cx' -> says (silence silent (negb stop)) ls k ->
  exists f0, forall n fuel p, (f0 <= n)%nat -> (f0 <= fuel)%nat -> parseFile (ppNext fs fuel) ppTab glob isRel n fuel dir silent stop st1 = POk p ->
  (forall t bl, mk_targets (s_mk p) !! t = Some bl -> exists us, usesOf (b_name bl) (uses (map strip (k_blocks k))) us /\ blockFor bl us) /\
  (forall nm rl, (nm, rl) ∈ uses (map strip (k_blocks k)) -> exists t bl, mk_targets (s_mk p) !! t = Some bl /\ sameName nm (b_name bl)) /\
  kept (k_rules k) (s_rules p) /\ s_suffixes p = k_suffixes k /\ once (k_precious k) (s_precious p) /\ s_silent p = k_silent k /\ s_ignore p = k_ignore k.
Proof.
  intros Hb Ho Hf Hr Hruns Hk. destruct (file_yields _ _ _ _ _ _ _ _ _ Hb Ho Hf Hr Hruns) as (f0 & HY).
  remember (List.length ls) as m eqn:Em. exists (f0 + S m)%nat. intros n fuel p Hn Hfu HP. eapply (C52_read _ _ glob isRel n fuel dir silent stop st1 ls k p); [apply (HY fuel); lia|done|rewrite <- Em; lia..|exact HP].
Qed.
(** It is rejected only because of rules of both kinds for one target or file name macros in dependents. *)
Theorem C52_file_accepted glob isRel dir silent stop fs name st st1 uni text b ls cx' k : pp_back st = [] -> openFile fs name st = Got st1 ->
  fs_open fs (fs_abs fs name) = Some (uni, text) -> reads (openReader uni text) (writtenB b) ->
  runsW fs [(fs_abs fs name, fs_dir fs name)] (ctxOf st) b ls cx' -> says (silence silent (negb stop)) ls k ->
  exists f0, forall n fuel, (f0 <= n)%nat -> (f0 <= fuel)%nat ->
  match applyRules fuel (k_blocks k) (start dir) with
  | POk (mk, ser, sync) => exists p, parseFile (ppNext fs fuel) ppTab glob isRel n fuel dir silent stop st1 = POk p /\ s_mk p = mk /\ s_serial p = ser /\ s_sync p = sync
  | PErr e => parseFile (ppNext fs fuel) ppTab glob isRel n fuel dir silent stop st1 = PErr e
  | PUb => parseFile (ppNext fs fuel) ppTab glob isRel n fuel dir silent stop st1 = PUb
  | POut => parseFile (ppNext fs fuel) ppTab glob isRel n fuel dir silent stop st1 = POut
  end.
Proof.
  intros Hb Ho Hf Hr Hruns Hk. destruct (file_yields _ _ _ _ _ _ _ _ _ Hb Ho Hf Hr Hruns) as (f0 & HY).
  remember (List.length ls) as m eqn:Em. exists (f0 + S m)%nat. intros n fuel Hn Hfu. apply (C52_accepted _ _ glob isRel n fuel dir silent stop st1 ls k); [apply (HY fuel); lia|done|rewrite <- Em; lia..].
Qed.
(** A makefile with a conditional block, an included file, an inline file, and a macro that changes on the way. *)
Definition fileFs : fsenv := exFs
  [("/d/a.mk", T ["OBJ = aa.obj"; "!IFDEF DEBUG"; "CC = cl /Zi"; "!ELSE"; "CC = cl /O2"; "!ENDIF"; "all: $(OBJ)"; "    -1 link $(OBJ) @<<x.rsp"; "$(OBJ) \"; "# all: X=1"; "<< KEEP"; "!INCLUDE rules.mk"; "OBJ = zz.obj"; "bb: \"; "   $(OBJ)"]);
   ("/d/rules.mk", T [".SILENT:"; "{src}.c.obj::"; "    $(CC) $<"; "CC = late"; "cc: ; $(CC) $(OBJ)"])]%string.
Definition rulesBlock : block := BLine (L ".SILENT:") (BLine (L "{src}.c.obj::") (BLine (L "    $(CC) $<") (BLine (L "CC = late") (BLine (L "cc: ; $(CC) $(OBJ)") BNil)))).
Definition inlineEx : list qstr := map (fun s => s2q s ++ [10]) ["$(OBJ) \"; "# all: X=1"; "<< KEEP"]%string.
Definition fileBlock : block :=
  BLine (L "OBJ = aa.obj") (BCond (L "!IFDEF DEBUG") (BLine (L "CC = cl /Zi") BNil) (AElse (L "!ELSE") (BLine (L "CC = cl /O2") BNil) (L "!ENDIF"))
    (BLine (L "all: $(OBJ)") (BText (L "    -1 link $(OBJ) @<<x.rsp") inlineEx (BLine (L "!INCLUDE rules.mk") (BLine (L "OBJ = zz.obj")
      (BLine [MLine (Some (s2q "bb: ")) CBackslash; MLine (Some (s2q "   $(OBJ)")) CNone] BNil)))))).
Definition mset (n v : string) (t : mtable) : mtable := mGet t (setMacroValue (s2q n) (s2q v) t).
Definition mac1 : mtable := mset "OBJ" "aa.obj" exEmpty.
Definition mac2 : mtable := mset "CC" "cl /O2" mac1.
Definition mac3 : mtable := mset "CC" "late" mac2.
Definition mac4 : mtable := mset "OBJ" "zz.obj" mac3.
Definition rulesLines : list tline := [withMacros (s2q ".SILENT:") mac2; withMacros (s2q "{src}.c.obj::") mac2; withMacros (s2q "    $(CC) $<") mac2; withMacros (s2q "cc: ; $(CC) $(OBJ)") mac3].
Definition fileLines : list tline := [withMacros (s2q "all: $(OBJ)") mac2; withMacros (s2q "    -1 link $(OBJ) @<<x.rsp") mac2] ++ map (fun l => inlineText l mac2) inlineEx ++ rulesLines ++ [withMacros (s2q "bb:  $(OBJ)") mac4].
Definition fileSaid : said := Said
  [Prule false [q "all"] [q "aa.obj"] [Command (q " link aa.obj @<<") [InlineFile true false (q "x.rsp") (crlfEx "aa.obj \" ++ crlfEx "# all: X=1")%list] 1 false false]; Prule false [q "cc"] [] [cmdEx "late aa.obj" 0 false]; Prule false [q "bb"] [q "zz.obj"] []]%string
  [(Irule (q "{src}") (q ".c") [] (q ".obj") true, [cmdEx "$(CC) $<" 0 false])] defaultSuffixes [] true false.
Lemma define_withBy fs at_ cx ms raw n v t rest ls cx' : textLines ms raw -> definesAt raw n v -> setMacroValue n v (cx_macros cx) = MOk t ->
  runsW fs at_ (setMacros t cx) rest ls cx' -> runsW fs at_ cx (BLine ms rest) ls cx'.
Proof. intros. by eapply rn_define. Qed.
Lemma line_withBy fs at_ cx ms raw t rest ls cx' : textLines ms raw -> noDefinition raw -> plain (cx_macros cx) raw -> t = cx_macros cx ->
  runsW fs at_ cx rest ls cx' -> runsW fs at_ cx (BLine ms rest) (withMacros raw t :: ls) cx'.
Proof. intros H1 H2 H3 -> H4. exact (rn_text (mark := withMacros) (tmark := Some inlineText) _ _ _ _ _ _ _ _ H1 H2 H3 H4). Qed.
Lemma inline_withBy fs at_ cx ms raw t ts rest ls cx' : textLines ms raw -> noDefinition raw -> plain (cx_macros cx) raw -> t = cx_macros cx ->
  Forall (fun l => noBang l /\ plain t l) ts -> runsW fs at_ cx rest ls cx' ->
  runsW fs at_ cx (BText ms ts rest) (withMacros raw t :: map (fun l => inlineText l t) ts ++ ls) cx'.
Proof. intros H1 H2 H3 -> H5 H4. eapply (rn_inline (mark := withMacros) (tmark := Some inlineText)); [done|exact H1|exact H2|exact H3|exact H5|exact H4]. Qed.
Ltac exInline := repeat apply Forall_cons_2; [split; [by vm_compute|eapply plain_by; [comp|comp]]..|apply Forall_nil_2].
Ltac wText := eapply line_withBy; [apply tn_one; by vm_compute|apply noDefinition_by; comp|eapply plain_by; [comp|comp]|done|].
Lemma rules_run at_ lx ms cs : runsW fileFs at_ (Ctx mac2 lx ms cs) rulesBlock rulesLines (Ctx mac3 lx ms cs).
Proof.
  unfold rulesBlock, rulesLines. wText. wText. wText.
  eapply (define_withBy _ _ _ _ _ _ _ mac3); [apply tn_one; by vm_compute|apply (defines_by 67 (s2q "C ") (s2q " late")); comp|by vm_compute|].
  cbn [setMacros cx_macros cx_lex cx_msgs cx_cmds]. wText. apply rn_nil.
Qed.
Lemma file_run : runsW fileFs [(s2q "/d/a.mk", s2q "/d")] (ctxOf exPP) fileBlock fileLines (Ctx mac4 lexInit [] []).
Proof.
  unfold fileBlock, fileLines. change (ctxOf exPP) with (Ctx exEmpty lexInit [] []).
  eapply (define_withBy _ _ _ _ _ _ _ mac1); [apply tn_one; by vm_compute|apply (defines_by 79 (s2q "BJ ") (s2q " aa.obj")); comp|by vm_compute|].
  cbn [setMacros cx_macros cx_lex cx_msgs cx_cmds].
  eapply (rn_if_not _ _ _ _ _ _ (Ctx mac1 lexInit [] []) _ _ [] (Ctx mac2 lexInit [] [])); [exBang|apply holds_ifdef_by; [comp|comp]| | |].
  { cbn [quietB]. split_and!; exQuiet. }
  { eapply (pk_else _ _ _ _ _ _ _ []); [eapply dirQuiet_by; [comp|comp|comp|comp]| |].
    - eapply (define_withBy _ _ _ _ _ _ _ mac2); [apply tn_one; by vm_compute|apply (defines_by 67 (s2q "C ") (s2q " cl /O2")); comp|by vm_compute|]. apply rn_nil.
    - exBang. }
  cbn [app]. wText.
  eapply (inline_withBy _ _ _ _ _ mac2 inlineEx); [apply tn_one; by vm_compute|apply noDefinition_by; comp|eapply plain_by; [comp|comp]|done|exInline|].
  eapply (rn_include _ _ _ _ _ (s2q "/d/rules.mk") (s2q "/d") _ _ _ rulesLines (Ctx mac3 lexInit [] [])); [exAny| | | | |apply rules_run|].
  { eapply (included_by _ _ _ _ (s2q "rules.mk") [] [s2q "/d/rules.mk"]); [|comp..]. intros n [= E]. }
  { intros H%elem_of_list_In. cbn in H. destruct H as [H|H]; [by vm_compute in H|done]. }
  { comp. } { apply (allLines_reads 50). comp. }
  eapply (define_withBy _ _ _ _ _ _ _ mac4); [apply tn_one; by vm_compute|apply (defines_by 79 (s2q "BJ ") (s2q " zz.obj")); comp|by vm_compute|].
  cbn [setMacros cx_macros cx_lex cx_msgs cx_cmds].
  eapply (line_withBy _ _ _ _ (s2q "bb:  $(OBJ)")); [|apply noDefinition_by; comp|eapply plain_by; [comp|comp]|done|apply rn_nil].
  apply (tn_more (s2q "bb: ") CBackslash _ (s2q "$(OBJ)")); [by vm_compute|done|]. apply (mn_last (s2q "   $(OBJ)")). by vm_compute.
Qed.
Example C52_file_ex : exists st1, openFile fileFs (s2q "a.mk") exPP = Got st1 /\
  fs_open fileFs (s2q "/d/a.mk") = Some (false, snd (default (false, []) (fs_open fileFs (s2q "a.mk")))) /\
  reads (openReader false (snd (default (false, []) (fs_open fileFs (s2q "a.mk"))))) (writtenB fileBlock) /\
  runsW fileFs [(s2q "/d/a.mk", s2q "/d")] (ctxOf exPP) fileBlock fileLines (Ctx mac4 lexInit [] []) /\
  says (silence false false) fileLines fileSaid /\
  match parseFile (ppNext fileFs 99) ppTab (fun _ _ => []) (fun _ => true) 99 99 (s2q "/d") false true st1 with
  | POk p => map (fun p => (fst p, b_deps (snd p), map c_line (b_cmds (snd p)))) (map_to_list (mk_targets (s_mk p))) =
      [(q "bb", [q "zz.obj"], []); (q "cc", [], [q "late aa.obj"]); (q "all", [q "aa.obj"], [q " link aa.obj @<<"])]%string /\ s_silent p = true
  | _ => False
  end.
Proof.
  eexists. split; [comp|]. split; [comp|]. split; [apply (asWritten_reads (writtenB fileBlock)); comp|]. split; [exact file_run|]. split.
  - apply (sayB_ok 99). vm_compute. reflexivity.
  - vm_compute. done.
Qed.
Print Assumptions C52_file.
Print Assumptions C52_file_accepted.
