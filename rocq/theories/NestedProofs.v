(** Lemmas about what reading a makefile leaves as it was, and what a jom started by another one finds. *)
From Coq Require Import Ascii String.
From stdpp Require Import prelude gmap.
From Verif Require Import Infer UpToDate Front Base BaseProofs Data Graph Exec Macro MacroSpec MacroProofs Env EnvSpec EnvProofs Opts OptsSpec LineReader Preproc PreprocTermProofs MkParse CmdExec Main MainSpec NestedSpec.
Local Open Scope N_scope.

(** ** The preprocessor *)
Notation sameEnv st st' := (mt_env (pp_macros st') = mt_env (pp_macros st)).
Lemma basic_env inl st l st' : basicReadLine inl st = Got (l, st') -> sameEnv st st'.
Proof.
  unfold basicReadLine. destruct (pp_back st); [|by intros [= <- <-]]. destruct (nextLine _ _) as [[x fs]| | |]; cbn [bindP]; try done. by intros [= <- <-].
Qed.
Lemma complete_env inl fuel : forall line st l st', completeLoop inl fuel line st = Got (l, st') -> sameEnv st st'.
Proof.
  induction fuel as [|fuel IH]; intros line st l st'; cbn [completeLoop]; (destruct (isComplete line); [by intros [= <- <-]|]); [done|].
  destruct (basicReadLine inl st) as [[next st1]| | |] eqn:E; cbn [bindP]; try done. apply basic_env in E.
  destruct (ml_content next); [|by intros [= <- <-]]. intros H. apply IH in H. congruence.
Qed.
Lemma open_env fs name st st' : internalOpenFile fs name st = Got st' -> sameEnv st st'.
Proof. unfold internalOpenFile. destruct (negb _); [done|]. destruct (existsb _ _); [done|]. destruct (fs_open fs _) as [[uni text]|]; [|done]. by intros [= <-]. Qed.
Lemma exit_env st st' : exitConditional st = Got st' -> sameEnv st st'.
Proof. unfold exitConditional. destruct (pp_conds st); [done|]. by intros [= <-]. Qed.
Lemma skip_env inl fuel : forall depth d v st st', skipLoop inl fuel depth d v st = Got st' -> sameEnv st st'.
Proof.
  induction fuel as [|fuel IH]; intros depth d v st st'; cbn [skipLoop]; [done|].
  destruct (basicReadLine inl st) as [[line st1]| | |] eqn:E; cbn [bindP]; try done. apply basic_env in E.
  destruct (ml_content line) as [c|]; [|by intros [= <-]].
  match goal with |- bindP ?Y _ = _ -> _ => destruct Y as [[line2 st2]| | |] eqn:E2; cbn [bindP]; try done end.
  assert (H2 : sameEnv st st2).
  { destruct (startsWith [33] c); [|by injection E2 as <- <-]. apply complete_env in E2. congruence. }
  destruct (expandP _ _) as [e| | |]; cbn [bindP]; try done. destruct (isDirective _ _ _ _) as [[[isD d'] v']| | |]; cbn [bindP]; try done.
  assert (G : forall dd x y, skipLoop inl fuel dd x y st2 = Got st' -> sameEnv st st') by (intros dd x y H; apply IH in H; congruence).
  destruct (negb isD); [apply G|]. destruct (qeqb _ _). { destruct depth; [|apply G]. intros H. apply exit_env in H. congruence. }
  destruct (startsWith (s2q "IF") d'); [apply G|]. destruct (startsWith (s2q "ELSE") d'); [|apply G].
  destruct depth; [|apply G]. by intros [= <-].
Qed.
Lemma run_env inl fs d v st st' : runDirective inl fs d v st = Got st' -> sameEnv st st'.
Proof.
  assert (Hs : forall st0, sameEnv st st0 -> skipConditional inl st0 = Got st' -> sameEnv st st') by (intros st0 H0 H; apply skip_env in H; congruence).
  assert (Hi : forall b st0, sameEnv st st0 -> enterIf inl b st0 = Got st' -> sameEnv st st').
  { intros b st0 H0. unfold enterIf. destruct b; [by intros [= <-]|]. by apply Hs. }
  assert (He : forall b st0, sameEnv st st0 -> elseif inl b st0 = Got st' -> sameEnv st st').
  { intros b st0 H0. unfold elseif. destruct (pp_conds st0); [done|]. destruct b; [by intros [= <-]|by apply Hs]. }
  unfold runDirective. cbv zeta.
  destruct (qeqb d _); [by intros [= <-]|]. destruct (qeqb d _); [done|]. destruct (qeqb d _); [by intros [= <-]|].
  destruct (qeqb d _). { destruct (findIncludeFile _ _ _); cbn [bindP]; try done. apply open_env. }
  destruct (qeqb d _). { destruct (evaluateExpression _ _ _) as [[z st1]| | |] eqn:E; cbn [bindP]; try done. apply eval_files in E as (_ & _ & E). apply Hi. by rewrite E. }
  destruct (qeqb d _); [by apply Hi|]. destruct (qeqb d _); [by apply Hi|].
  destruct (qeqb d _). { destruct (pp_conds st) as [|[] ?]; [done|by intros [= <-]|by apply Hs]. }
  destruct (qeqb d _). { destruct (pp_conds st) as [|[] ?]; [done| |by apply Hs].
    destruct (evaluateExpression _ _ _) as [[z st1]| | |] eqn:E; cbn [bindP]; try done. apply eval_files in E as (_ & _ & E). apply He. by rewrite E. }
  destruct (qeqb d _). { destruct (pp_conds st); [done|by apply He]. }
  destruct (qeqb d _). { destruct (pp_conds st); [done|by apply He]. }
  destruct (qeqb d _); [apply exit_env|]. destruct (qeqb d _); [by intros [= <-]|done].
Qed.
Lemma directive_env inl fs line st st' : parseDirective inl fs line st = Got (Some st') -> sameEnv st st'.
Proof.
  unfold parseDirective. destruct (expandP _ _); cbn [bindP]; try done. destruct (isDirective _ _ _ _) as [[[[] d] v]| | |]; cbn [bindP]; try done.
  destruct (runDirective _ _ _ _ _) eqn:E; cbn [bindP]; try done. intros [= <-]. by eapply run_env.
Qed.
Lemma macro_env line st st' : parseMacro line st = Got (Some st') -> sameEnv st st'.
Proof.
  unfold parseMacro. destruct line as [|c r]; [done|]. destruct (isMacroStart c); [|done]. destruct (equalsPos _ _ _); [|done].
  destruct (setMacroValue _ _ _) eqn:E; [|done]. intros [= <-]. by eapply env_setMacro in E.
Qed.
Lemma step_env inl fs line st s : readStep inl fs line st = Got s -> sameEnv st (match s with Again _ st' | Deliver _ st' => st' end).
Proof.
  unfold readStep. destruct (basicReadLine inl st) as [[next st1]| | |] eqn:E; cbn [bindP]; try done. apply basic_env in E.
  destruct (startsWith _ _).
  { destruct (completeDirective _ _ _) as [[next2 st2]| | |] eqn:E2; cbn [bindP]; try done. apply complete_env in E2.
    destruct (parseDirective _ _ _ _) as [[st3|]| | |] eqn:E3; cbn [bindP]; try done; intros [= <-]; cbn; [|congruence]. apply directive_env in E3. congruence. }
  cbv zeta. set (line1 := if isComplete line then _ else _). destruct (negb _); [by intros [= <-]|].
  destruct (if inl then _ else _) as [[st2|]| | |] eqn:E2; cbn [bindP]; try done.
  { intros [= <-]. destruct inl; [done|]. apply macro_env in E2. congruence. }
  destruct (parseDirective _ _ _ _) as [[st3|]| | |] eqn:E3; cbn [bindP]; try done; intros [= <-]; [|done]. apply directive_env in E3. congruence.
Qed.
Lemma loop_env inl fs fuel : forall line st l st', readLoop inl fs fuel line st = Got (l, st') -> sameEnv st st'.
Proof.
  induction fuel as [|fuel IH]; intros line st l st'; cbn [readLoop]; [done|]. destruct (readStep _ _ _ _) as [[line1 st1|l1 st1]| | |] eqn:E; cbn [bindP]; try done; apply step_env in E.
  - intros H. apply IH in H. congruence.
  - destruct l1, (pp_conds st1); try done; by intros [= <- <-].
Qed.
Lemma next_env fs fuel inl st l st' : ppNext fs fuel inl st = POk (l, st') -> sameEnv st st'.
Proof. unfold ppNext, readLine. destruct (readLoop _ _ _ _ _) as [r| | |] eqn:E; try done. intros [= ->]. by eapply loop_env. Qed.

(** ** The parser *)
Section source.
Context {R K : Type} (next : bool -> R -> pres (option qstr * R)) (tab : R -> gmap qstr mdata) (keep : R -> K).
Context (glob : qstr -> qstr -> list qstr) (isRel : qstr -> bool).
Hypothesis Hkeep : forall inl r l r', next inl r = POk (l, r') -> keep r' = keep r.
Notation pst := (pst R).
Let core (st : pst) : K := keep (s_rd st).
Lemma readL_core inl (st st' : pst) : readL next inl st = POk st' -> core st' = core st.
Proof. unfold readL, core. destruct (next inl (s_rd st)) as [[l r]| | |] eqn:E; cbn; try done. intros [= <-]. by eapply Hkeep. Qed.
Lemma inlineContent_core inf fuel : forall f (st : pst) f' st', inlineContent next tab fuel inf f st = POk (f', st') -> core st' = core st.
Proof.
  induction fuel as [|fuel IH]; intros f st f' st'; cbn [inlineContent]; [done|]. destruct (s_line st) as [line|]; [|by intros [= <- <-]].
  destruct (startsWith [60; 60] line); [by intros [= <- <-]|].
  destruct (if inf then POk line else expandL tab false line st) as [c| | |]; try done. cbn [bindR].
  destruct (readL next true st) as [st1| | |] eqn:E; try done. cbn [bindR]. intros H. apply IH in H. rewrite H. by eapply readL_core.
Qed.
Lemma inlineContents_core inf fuel names : forall (st : pst) fs st', inlineContents next tab fuel inf names st = POk (fs, st') -> core st' = core st.
Proof.
  induction names as [|n names IH]; intros st fs st'; cbn [inlineContents]; [by intros [= <- <-]|].
  destruct (readL next true st) as [st1| | |] eqn:E1; try done. cbn [bindR].
  destruct (inlineContent next tab fuel inf _ st1) as [[f st2]| | |] eqn:E2; try done. cbn [bindR].
  destruct (inlineContents next tab fuel inf names st2) as [[fs' st3]| | |] eqn:E3; try done. cbn [bindR].
  intros [= <- <-]. rewrite (IH _ _ _ E3), (inlineContent_core _ _ _ _ _ _ E2). by eapply readL_core.
Qed.
Lemma parseCommandLine_core fuel line inf (st : pst) c st' : parseCommandLine next tab fuel line inf st = POk (c, st') -> core st' = core st.
Proof.
  unfold parseCommandLine. cbv zeta. set (X := if inf then _ else _). destruct X as [cmd| | |]; try done. cbn [bindR].
  destruct (inlineNames _ _) as [l names]. destruct (inlineContents _ _ _ _ _ _) as [[fs st1]| | |] eqn:E; try done. cbn [bindR].
  intros [= <- <-]. by eapply inlineContents_core.
Qed.
Lemma skipEmpty_core fuel : forall (st : pst) b st', skipEmpty next fuel st = POk (b, st') -> core st' = core st.
Proof.
  induction fuel as [|fuel IH]; intros st b st'; cbn [skipEmpty]; [done|]. destruct (isEmpty _); [|by intros [= <- <-]].
  destruct (readL next false st) as [st1| | |] eqn:E; try done. cbn [bindR]. apply readL_core in E. destruct (s_line st1).
  - intros H. apply IH in H. congruence.
  - intros [= <- <-]. done.
Qed.
Lemma parseCommand_core fuel inf (st : pst) c st' : parseCommand next tab fuel inf st = POk (c, st') -> core st' = core st.
Proof.
  unfold parseCommand. destruct (skipEmpty next fuel st) as [[more st1]| | |] eqn:E; try done. cbn [bindR]. apply skipEmpty_core in E.
  destruct (_ && _); [|intros [= <- <-]; done]. destruct (parseCommandLine _ _ _ _ _ _) as [[c' st2]| | |] eqn:E2; try done. cbn [bindR].
  intros [= <- <-]. apply parseCommandLine_core in E2. congruence.
Qed.
Lemma parseCommands_core fuel inf n : forall (st : pst) cs st', parseCommands next tab n fuel inf st = POk (cs, st') -> core st' = core st.
Proof.
  induction n as [|n IH]; intros st cs st'; cbn [parseCommands]; [done|].
  destruct (parseCommand _ _ _ _ _) as [[c st1]| | |] eqn:E; try done. cbn [bindR]. apply parseCommand_core in E.
  destruct c as [c|]; [|intros [= <- <-]; done]. destruct (readL next false st1) as [st2| | |] eqn:E2; try done. cbn [bindR]. apply readL_core in E2.
  destruct (parseCommands _ _ _ _ _ _) as [[cs' st3]| | |] eqn:E3; try done. cbn [bindR]. intros [= <- <-]. apply IH in E3. congruence.
Qed.
Lemma readRule_core fuel line pos len sep (st : pst) r st' : readRule next tab glob isRel fuel line pos len sep st = POk (r, st') ->
  core st' = core st.
Proof.
  unfold readRule. destruct (expandL tab false _ st) as [target| | |]; try done. cbn [bindR].
  destruct (expandL tab true _ st) as [value| | |]; try done. cbn [bindR].
  set (X := match sep with Some _ => _ | None => _ end). destruct X as [[cs1 st1]| | |] eqn:E1; try done. cbn [bindR].
  assert (H1 : core st1 = core st).
  { unfold X in E1. destruct sep; [|by injection E1 as <- <-]. destruct (parseCommandLine _ _ _ _ _ _) as [[c s]| | |] eqn:E; try done.
    cbn [bindR] in E1. injection E1 as <- <-. by eapply parseCommandLine_core. }
  destruct (readL next false st1) as [st2| | |] eqn:E2; try done. cbn [bindR]. apply readL_core in E2.
  match goal with |- bindR ?Y _ = _ -> _ => destruct Y as [[cs2 st3]| | |] eqn:E3; try done end. cbn [bindR].
  intros [= <- <-].
  destruct (isEmpty _).
  - destruct (readL next false st2) as [st4| | |] eqn:E4; try done. cbn [bindR] in E3. injection E3 as <- <-. apply readL_core in E4. congruence.
  - apply parseCommands_core in E3. congruence.
Qed.
Lemma parseLoop_core fuel n : forall (st st' : pst), parseLoop next tab glob isRel n fuel st = POk st' -> core st' = core st.
Proof.
  induction n as [|n IH]; intros st st'; cbn [parseLoop]; [done|]. destruct (s_line st) as [line|]; [|by intros [= <-]].
  destruct (expandL tab false line st) as [ex| | |]; try done. cbn [bindR].
  match goal with |- bindR ?Y _ = _ -> _ => destruct Y as [st1| | |] eqn:E; try done end. cbn [bindR]. intros H. apply IH in H. rewrite H. clear H IH.
  destruct (isEmpty _); [by eapply readL_core|]. destruct (dotDirective ex) as [[d v]|].
  { unfold parseDotDirective in E. apply readL_core in E. rewrite E. by repeat (destruct (qeqb _ _)). }
  destruct (inferenceRule ex) as [caps|].
  { unfold parseInferenceRule in E. destruct caps as [[[[fp fe] tp] te] cl]. destruct (readL next false st) as [s1| | |] eqn:E1; try done. cbn [bindR] in E.
    apply readL_core in E1. destruct (parseCommands _ _ _ _ _ _) as [[cs s2]| | |] eqn:E2; try done. cbn [bindR] in E. apply parseCommands_core in E2.
    injection E as <-. change (core s2 = core st). congruence. }
  destruct (removeComments line) as [l sep]. destruct (findRule l) as [[pos len]|]; [|done].
  unfold parseDescriptionBlock in E. destruct (readRule _ _ _ _ _ _ _ _ _ _) as [[r s1]| | |] eqn:E1; try done. cbn [bindR] in E.
  apply readRule_core in E1. destruct (applyRule _ _ _) as [[[mk ser] sync]| | |]; try done. cbn [bindR] in E. injection E as <-. exact E1.
Qed.
Lemma parseFile_keep n fuel dir silent stop r (st : pst) : parseFile next tab glob isRel n fuel dir silent stop r = POk st -> keep (s_rd st) = keep r.
Proof.
  unfold parseFile. destruct (readL _ _ _) as [st1| | |] eqn:E; try done. cbn [bindR]. apply readL_core in E. intros H.
  apply parseLoop_core in H. unfold core in H, E. rewrite H, E. done.
Qed.
End source.

(** Reading a makefile does not change the environment. *)
Lemma readMakefile_env u n fuel o file targets t p : readMakefile u n fuel o file targets t = POk p -> mt_env (pd_macros p) = mt_env t.
Proof.
  unfold readMakefile. destruct (openFile _ _ _) as [q| | |] eqn:Eo; try done.
  destruct (parseFile _ _ _ _ _ _ _ _ _ _) as [st| | |] eqn:E; try done. cbn [bindR].
  apply (parseFile_keep _ _ (fun r => mt_env (pp_macros r))) in E; [|intros inl r l r'; apply next_env].
  destruct (finishParse _ _ _ _ _ _) as [[mk x]| | | |]; try done. intros [= <-]. cbn [pd_macros]. rewrite E. unfold openFile in Eo. apply open_env in Eo. exact Eo.
Qed.
Lemma predefine_env l : forall t t', predefine l t = MOk t' -> mt_env t' = mt_env t.
Proof.
  induction l as [|[k v] l IH]; intros t t'; cbn [predefine]; [by intros [= <-]|]. destruct (predefineValue k v t) as [t1|] eqn:E; [|done].
  intros H. apply IH in H. rewrite H. by eapply env_setMacro in E.
Qed.

(** ** Variables that are not touched *)
Lemma ascii_fold c : c < 128 -> foldChar c < 128.
Proof.
  intros H. unfold foldChar, lowerChar. destruct (N.eqb_spec c 181); [lia|].
  destruct (N.leb_spec 65 c), (N.leb_spec c 90), (N.leb_spec 192 c), (N.leb_spec c 222); cbn [andb orb]; try lia; destruct (negb _); lia.
Qed.
Lemma upper_fold c u x : upperChar c = [u] -> foldChar u = x -> x < 128 -> foldChar c = x.
Proof.
  unfold upperChar. destruct (N.eqb_spec c 223); [done|]. destruct (N.eqb_spec c 255); [intros [= <-] <-; vm_compute; done|].
  destruct (N.eqb_spec c 181); [intros [= <-] <-; vm_compute; done|].
  destruct (((97 <=? c) && (c <=? 122)) || ((224 <=? c) && (c <=? 254) && negb (c =? 247))) eqn:E; [|by intros [= <-] <-].
  intros [= <-] <- _. unfold foldChar, lowerChar. apply orb_true_iff in E as [E|E].
  - apply andb_true_iff in E as [E1 E2]. apply N.leb_le in E1, E2.
    repeat match goal with |- context [?a =? ?b] => destruct (N.eqb_spec a b); try lia end;
    repeat match goal with |- context [?a <=? ?b] => destruct (N.leb_spec a b); try lia end; cbn [andb orb negb]; lia.
  - apply andb_true_iff in E as [E E3]. apply andb_true_iff in E as [E1 E2]. apply N.leb_le in E1, E2. apply negb_true_iff, N.eqb_neq in E3.
    repeat match goal with |- context [?a =? ?b] => destruct (N.eqb_spec a b); try lia end;
    repeat match goal with |- context [?a <=? ?b] => destruct (N.leb_spec a b); try lia end; cbn [andb orb negb]; lia.
Qed.
Lemma upper_same k : forall x, Forall (fun c => c < 128) x -> (~ exists a b, x = a ++ [115; 115] ++ b) -> foldCase (toUpper k) = x -> foldCase k = x.
Proof.
  induction k as [|c k IH]; intros x Ha Hs H; [done|]. unfold toUpper in H. cbn [flat_map] in H. fold (toUpper k) in H. unfold foldCase in H. rewrite map_app in H. fold (foldCase (toUpper k)) in H.
  destruct (N.eqb_spec c 223) as [->|Hc]. { exfalso. apply Hs. exists [], (foldCase (toUpper k)). by rewrite <- H. }
  assert (exists u, upperChar c = [u]) as [u Hu]. { unfold upperChar. destruct (N.eqb_spec c 223); [done|]. repeat case_match; eauto. }
  rewrite Hu in H. cbn [map app] in H. destruct x as [|y x]; [done|]. injection H as H1 H2. apply Forall_cons in Ha as [Hy Ha].
  unfold foldCase. cbn [map]. fold (foldCase k). f_equal; [by eapply upper_fold|]. apply IH; [done| |done]. intros (a & b & ->). apply Hs. by exists (y :: a), b.
Qed.
Lemma plain_upper name k : plainName name -> foldCase (toUpper k) = foldCase name -> foldCase k = foldCase name.
Proof. intros [Ha Hs]. apply upper_same; [|done]. apply Forall_map. eapply Forall_impl; [exact Ha|]. intros c. apply ascii_fold. Qed.

Section variable.
Context (K v : qstr).
Definition hasValue (t : mtable) : Prop := exists n0, mt_env t !! K = Some (n0, v).
Definition notGiven (t : mtable) : Prop := forall m d, foldCase m = K -> mt_macros t !! m = Some d -> md_source d <> SrcCommandLine.
Lemma internalSet_given t n w ro t1 k : internalSet t n w ro = MOk (t1, k) -> mt_env t1 = mt_env t /\ (notGiven t -> notGiven t1) /\ (36 ∉ n -> forall en, k = Some en -> en = n).
Proof.
  unfold internalSet. destruct (expandMacros (mt_macros t) false n) as [en| | |] eqn:E; try done. destruct (isMacroNameValid en).
  - intros [= <- <-]. split; [done|]. split.
    + intros Hq m d Hm Hd. cbn in Hd. destruct (decide (en = m)) as [->|Hne].
      * rewrite lookup_insert in Hd. injection Hd as <-. destruct (mt_macros t !! m) as [d0|] eqn:Ed; unfold default, id.
        -- destruct (ro || negb (md_ro d0)); exact (Hq m d0 Hm Ed).
        -- by destruct (ro || _).
      * rewrite lookup_insert_ne in Hd by done. by apply (Hq m).
    + intros Hn en' [= <-]. rewrite expand_plain in E by done. by injection E.
  - intros [= <- <-]. split_and!; try done.
Qed.
Lemma setSource_given k src t : (src <> SrcCommandLine \/ foldCase k <> K) -> notGiven t -> notGiven (setSource k src t).
Proof.
  intros Hs Hq m d Hm Hd. unfold setSource in Hd. cbn in Hd. destruct (decide (k = m)) as [->|Hne].
  - rewrite lookup_alter in Hd. destruct (mt_macros t !! m) as [d0|]; [|done]. injection Hd as <-. cbn. by destruct Hs.
  - rewrite lookup_alter_ne in Hd by done. by apply (Hq m).
Qed.
Lemma setRo_given k b t : notGiven t -> notGiven (setRo k b t).
Proof.
  intros Hq m d Hm Hd. unfold setRo in Hd. cbn in Hd. destruct (decide (k = m)) as [->|Hne].
  - rewrite lookup_alter in Hd. destruct (mt_macros t !! m) as [d0|] eqn:E; [|done]. injection Hd as <-. cbn. by apply (Hq m).
  - rewrite lookup_alter_ne in Hd by done. by apply (Hq m).
Qed.
Lemma setEnv_value n w t : (foldCase n = K -> w = v) -> hasValue t -> hasValue (setEnv n w t).
Proof.
  intros Hw [n0 H]. unfold hasValue, setEnv. cbn. destruct (decide (foldCase n = K)) as [E|E].
  - rewrite E, lookup_insert, (Hw E). eauto.
  - rewrite lookup_insert_ne by done. eauto.
Qed.
Lemma commandLine_given n w src t t' : 36 ∉ n -> foldCase n <> K -> defineCommandLine n w src t = MOk t' -> notGiven t -> hasValue t -> notGiven t' /\ hasValue t'.
Proof.
  intros Hn HK. unfold defineCommandLine. destruct (internalSet t n w true) as [[t1 k]|] eqn:E; [|done]. cbv zeta.
  apply internalSet_given in E as (He & Hq & Hk). destruct (expandMacros _ _ _) as [x| | |]; try done. intros [= <-] Hq0 Hv. specialize (Hq Hq0). split.
  - change (notGiven (match k with Some k => setRo k true (setSource k src t1) | None => t1 end)). destruct k as [k|]; [|done].
    rewrite (Hk Hn k eq_refl). apply setRo_given, setSource_given; [by right|done].
  - apply setEnv_value; [done|]. unfold hasValue in *. destruct k; cbn; by rewrite He.
Qed.
Lemma environment_given k w ro t t' : (foldCase (toUpper k) = K -> w = v) -> 36 ∉ v -> defineEnvironment k w ro t = MOk t' -> notGiven t -> hasValue t -> notGiven t' /\ hasValue t'.
Proof.
  intros Hw Hd. unfold defineEnvironment. cbv zeta. destruct (mt_macros t !! toUpper k) as [d|] eqn:Ed.
  - destruct (md_source d) eqn:Es; cbn [srcEqb]; try (by intros [= <-]). destruct (expandMacros _ _ _) as [x| | |]; try done. intros [= <-] Hq Hv. split.
    + change (notGiven (setSource (toUpper k) SrcEnvironment t)). apply setSource_given; [by left|done].
    + apply setEnv_value; [|exact Hv]. intros HK. by destruct (Hq _ _ HK Ed).
  - destruct (expandMacros (mt_macros t) false w) as [ev| | |] eqn:Ev; try (by intros [= <-]).
    destruct (internalSet t (toUpper k) w false) as [[t1 [k1|]]|] eqn:E; try done; apply internalSet_given in E as (He & Hq & _); intros [= <-] Hq0 Hv; specialize (Hq Hq0).
    + split.
      * change (notGiven (setRo k1 ro (setSource k1 SrcEnvironment t1))). apply setRo_given, setSource_given; [by left|done].
      * apply setEnv_value; [|unfold hasValue in *; cbn; by rewrite He]. intros HK. specialize (Hw HK). subst w. rewrite expand_plain in Ev by done. by injection Ev.
    + split; [done|]. unfold hasValue in *. by rewrite He.
Qed.
Lemma readEnvironment_given e ro : 36 ∉ v -> forall t t', Forall (fun kv => foldCase (toUpper (fst kv)) = K -> snd kv = v) e -> readEnvironment e ro t = MOk t' -> notGiven t -> hasValue t -> hasValue t'.
Proof.
  intros Hd. induction e as [|[k w] e IH]; intros t t' HF; cbn [readEnvironment]; [by intros [= <-]|]. apply Forall_cons in HF as [H1 HF].
  destruct (defineEnvironment k w ro t) as [t1|] eqn:E; [|done]. intros H Hq Hv. destruct (environment_given _ _ _ _ _ H1 Hd E Hq Hv). by eapply IH.
Qed.
Lemma defined_given t ds t' : defined t ds t' -> Forall (fun d => 36 ∉ fst (fst d) /\ foldCase (fst (fst d)) <> K) ds -> notGiven t -> hasValue t -> notGiven t' /\ hasValue t'.
Proof.
  induction 1 as [|t n w src t1 ds t2 Hd Hds IH]; intros HF Hq Hv; [done|]. apply Forall_cons in HF as [[H1 H2] HF].
  destruct (commandLine_given _ _ _ _ _ H1 H2 Hd Hq Hv). by apply IH.
Qed.
End variable.
Lemma definitions_alone name ms : plainName name -> leaveAlone name ms -> forall seen, Forall (fun d => 36 ∉ fst (fst d) /\ foldCase (fst (fst d)) <> foldCase name) (definitions seen ms).
Proof.
  intros Hp. induction 1 as [|[n w] ms [H1 H2] _ IH]; intros seen; cbn [definitions]; [constructor|]. cbn in H1, H2. apply Forall_app. split; [|apply Forall_app; split; [|apply IH]].
  - case_bool_decide; [constructor|]. by constructor.
  - case_bool_decide; constructor; [|constructor]. cbn. split; [by apply upper_no_dollar|]. intros E. by apply H2, plain_upper.
Qed.
Lemma fresh_value e name v : sortedEnv e -> envFind name e = Some v -> hasValue (foldCase name) v (freshTable e).
Proof.
  intros Hs H. rewrite find_valueIn in H. unfold hasValue, freshTable. cbn.
  assert (exists n0, (n0, v) ∈ e /\ foldCase n0 = foldCase name) as (n0 & Hin & E).
  { clear Hs. induction e as [|[k w] e IH]; [done|]. cbn in H. destruct (decide (sameVar k name)) as [Hk|Hk].
    - injection H as <-. exists k. split; [left|exact Hk].
    - destruct (IH H) as (n0 & H1 & H2). exists n0. split; [by right|done]. }
  exists n0. apply elem_of_list_to_map_1.
  - rewrite <- list_fmap_compose. exact (sorted_nodup e Hs).
  - rewrite <- E. apply elem_of_list_fmap. by exists (n0, v).
Qed.
Lemma find_only e name v k w : sortedEnv e -> envFind name e = Some v -> (k, w) ∈ e -> foldCase k = foldCase name -> w = v.
Proof.
  intros Hs H Hin E. apply (fresh_value e name v Hs) in H as [n0 H]. unfold freshTable in H. cbn in H.
  assert (H2 : (list_to_map (map (fun kv => (foldCase (fst kv), kv)) e) : gmap qstr (qstr * qstr)) !! foldCase name = Some (k, w)).
  { apply elem_of_list_to_map_1; [rewrite <- list_fmap_compose; exact (sorted_nodup e Hs)|]. rewrite <- E. apply elem_of_list_fmap. by exists (k, w). }
  congruence.
Qed.
