(** The properties of the preprocessor. *)
From Coq Require Import Ascii String.
From stdpp Require Import prelude gmap relations.
From RecordUpdate Require Import RecordUpdate.
From Verif Require Import Base BaseProofs Macro MacroSpec MacroProofs MacroProps PPExpr PPExprProofs PPExprProps PPLex PPLexSpec PPLexProofs PPLexProps
  LineReader LineReaderSpec LineReaderProofs Preproc PreprocSpec PreprocProofs PreprocReadProofs PreprocRunProofs PreprocTermProofs.
Local Open Scope N_scope.

(** ** Examples: how they are checked *)
Definition L (s : string) : list mline := [MLine (Some (s2q s)) CNone].
(** Lines separated by line feeds. *)
Definition T (l : list string) : list N := concat (map (fun s => s2q s ++ [10]) l).
(** Files in the directory /d. *)
Definition exFs (files : list (string * list N)) : fsenv :=
  let name p := if startsWith [47] p then p else s2q "/d/" ++ p in
  let get p := snd <$> find (fun f => qeqb (s2q (fst f)) (name p)) files in
  Fsenv (fun p => match get p with Some _ => true | None => false end) name (fun _ => s2q "/d")
    (fun p => match get p with Some t => Some (false, t) | None => None end) (fun c => Z.of_nat (length c)).
Definition exPP : pp := PP exEmpty [] [] [] lexInit [] [].
Fixpoint allLines (fuel : nat) (r : reader) : option (list rline) :=
  match fuel with
  | O => None
  | S fuel' =>
    match readerLine false r with
    | Some (MLine (Some c) k, r') => cons (RRead (MLine (Some c) k)) <$> allLines fuel' r'
    | Some (MLine None CNone, _) => Some []
    | _ => None
    end
  end.
Lemma allLines_reads fuel r ls : allLines fuel r = Some ls -> reads r ls.
Proof.
  revert r ls. induction fuel as [|fuel IH]; intros r ls; cbn [allLines]; [done|]. destruct (readerLine false r) as [[[[c|] k] r']|] eqn:E; [| |done].
  - destruct (allLines fuel r') as [ls'|] eqn:E'; cbn; [|done]. intros [= <-]. econstructor; [done|by apply IH].
  - destruct k; [|done..]. intros [= <-]. by econstructor.
Qed.
Fixpoint asWritten (ls : list rline) (r : reader) : option (list rline) :=
  match ls with
  | [] => match readerLine false r with Some (MLine None CNone, _) => Some [] | _ => None end
  | RRead _ :: ls' => match readerLine false r with Some (MLine (Some c) k, r') => cons (RRead (MLine (Some c) k)) <$> asWritten ls' r' | _ => None end
  | RText _ :: ls' => match readerLine true r with Some (MLine (Some c) CNone, r') => cons (RText c) <$> asWritten ls' r' | _ => None end
  end.
Lemma asWritten_reads ms : forall r ls, asWritten ms r = Some ls -> reads r ls.
Proof.
  induction ms as [|[m|l] ms IH]; intros r ls; cbn [asWritten].
  - destruct (readerLine false r) as [[[[c|] []] r']|] eqn:E; try done. intros [= <-]. by econstructor.
  - destruct (readerLine false r) as [[[[c|] k] r']|] eqn:E; try done. destruct (asWritten ms r') as [ls'|] eqn:E'; cbn; [|done].
    intros [= <-]. econstructor; [done|by apply IH].
  - destruct (readerLine true r) as [[[[c|] []] r']|] eqn:E; try done. destruct (asWritten ms r') as [ls'|] eqn:E'; cbn; [|done].
    intros [= <-]. econstructor; [done|by apply IH].
Qed.
Definition mGet (t : mtable) (r : mres mtable) : mtable := match r with MOk t' => t' | _ => t end.
Definition mIsOk {A} (r : mres A) : bool := match r with MOk _ => true | _ => false end.
Lemma mGet_ok t r : mIsOk r = true -> r = MOk (mGet t r).
Proof. by destruct r. Qed.
Lemma line_by fs at_ cx ms raw rest out cx' : textLines ms raw -> noDefinition raw -> plain (cx_macros cx) raw ->
  runs fs at_ cx rest out cx' -> runs fs at_ cx (BLine ms rest) (raw :: out) cx'.
Proof. intros H1 H2 H3 H4. exact (rn_text (mark := fun l _ => l) _ _ _ _ _ _ _ _ H1 H2 H3 H4). Qed.
Lemma define_by fs at_ cx ms raw n v rest out cx' : textLines ms raw -> definesAt raw n v ->
  mIsOk (setMacroValue n v (cx_macros cx)) = true ->
  runs fs at_ (setMacros (mGet (cx_macros cx) (setMacroValue n v (cx_macros cx))) cx) rest out cx' -> runs fs at_ cx (BLine ms rest) out cx'.
Proof. intros H1 H2 H3 H4. eapply rn_define; [done|done|by apply (mGet_ok (cx_macros cx))|done]. Qed.
Lemma defines_by c l r n v : isMacroStart c = true -> equalsPos 1 0 (l ++ 61 :: r) = Some (S (length l)) -> n = trimmed (c :: l) ->
  v = removeInlineComments (trimmed r) -> definesAt ((c :: l) ++ 61 :: r) n v.
Proof.
  intros Hc He -> ->. exists c, l, r. apply equalsPos_spec in He as (l' & r' & E & El & Hl & Hx). injection El as El.
  apply app_inj_1 in E as [-> _]; [|done]. by split_and!.
Qed.
Lemma noDefinition_by raw : parseMacro raw exPP = Got None -> noDefinition raw.
Proof. intros E n v H. rewrite (parseMacro_defines _ _ _ exPP H) in E. by destruct (setMacroValue _ _ _). Qed.
Lemma plain_by t raw e : expandP t raw = Got e -> parseDir e = None -> plain t raw.
Proof. intros H1 H2. exists e. split; [by apply expandP_got|by apply parseDir_none]. Qed.
Lemma directive_by t raw e d v0 v1 v : expandP t raw = Got e -> parseDir e = Some (d, v0) -> expandP t v0 = Got v1 -> v = removeInlineComments v1 ->
  directive t raw d v.
Proof. intros H1 H2 H3 ->. exists e, v0, v1. split_and!; [by apply expandP_got|by apply parseDir_spelled|by apply expandP_got|done]. Qed.
Lemma bang_by t s d v : directive t (33 :: s) d v -> dirBang t [MLine (Some (33 :: s)) CNone] d v.
Proof. intros H. exists (33 :: s). split_and!; [constructor|by eexists _, _, _|done]. Qed.
Lemma any_by t s d v : directive t (33 :: s) d v -> dirAny t [MLine (Some (33 :: s)) CNone] d v.
Proof. intros H. left. by apply bang_by. Qed.
Definition noDollar (s : qstr) : bool := negb (containsChar 36 s).
Lemma noDollar_spec s : noDollar s = true -> 36 ∉ s.
Proof. intros H Hin. apply contains_spec in Hin. unfold noDollar in H. by rewrite Hin in H. Qed.
Definition hasRole (e : qstr) (r : role) : bool :=
  match parseDir e, r with
  | Some (d, v), RIf => existsb (qeqb d) ifNames && noDollar v
  | Some (d, _), RElse => existsb (qeqb d) elseNames && noDollar e
  | Some (d, v), REndif => qeqb d (s2q "ENDIF") && noDollar v
  | Some (d, v), ROther => negb (qeqb d (s2q "ENDIF")) && negb (startsWith (s2q "IF") d) && negb (startsWith (s2q "ELSE") d) && noDollar v
  | None, ROther => true
  | None, _ => false
  end.
Lemma existsb_qeqb d l : existsb (qeqb d) l = true -> d ∈ l.
Proof. intros H. apply existsb_exists in H as (x & Hx & E). apply qeqb_spec in E as ->. by apply elem_of_list_In. Qed.
Lemma quiet_by t r raw e : expandP t raw = Got e -> hasRole e r = true -> quiet t r raw.
Proof.
  intros H1 H2. exists e. split; [by apply expandP_got|]. unfold hasRole in H2. destruct (parseDir e) as [[d v]|] eqn:E.
  - pose proof (parseDir_spelled _ _ _ E) as Hs.
    assert (Hv : noDollar v = true -> forall d' v', spelled e d' v' -> 36 ∉ v').
    { intros Hv d' v' Hs'. destruct (spelled_det _ _ _ _ _ Hs Hs') as [<- <-]. by apply noDollar_spec. }
    destruct r; rewrite ?andb_true_iff in H2.
    + destruct H2 as [H2 H3]. split; [exact (Hv H3)|]. exists d, v. split; [done|by apply existsb_qeqb].
    + destruct H2 as [H2 H3]. split; [by apply noDollar_spec|]. exists d, v. split; [done|by apply existsb_qeqb].
    + destruct H2 as [H2 H3]. split; [exact (Hv H3)|]. apply qeqb_spec in H2 as ->. by exists v.
    + destruct H2 as (((H2 & H3) & H4) & H5). split; [exact (Hv H5)|]. intros d' v' Hs'. destruct (spelled_det _ _ _ _ _ Hs Hs') as [<- <-].
      split_and!.
      * intros ->. by rewrite qeqb_refl in H2.
      * intros x ->. by rewrite startsWith_app in H3.
      * intros x ->. by rewrite startsWith_app in H4.
  - pose proof (proj1 (parseDir_none _) E) as Hn. destruct r; try done. split; intros d v Hs; by apply Hn in Hs.
Qed.
Lemma quietDir_by t r s e : expandP t (33 :: s) = Got e -> hasRole e r = true -> quietDir t r [MLine (Some (33 :: s)) CNone].
Proof. intros H1 H2. exists (33 :: s). split_and!; [constructor|by eexists _, _, _|by eapply quiet_by]. Qed.
Lemma quietLine_by t c k e : head c <> Some 33 -> expandP t c = Got e -> hasRole e ROther = true -> quietLine t [MLine (Some c) k].
Proof. intros H0 H1 H2. right. constructor; [|constructor]. exists c. split_and!; [done..|by eapply quiet_by]. Qed.
Lemma dirQuiet_by t s e d v0 v : expandP t (33 :: s) = Got e -> noDollar e = true -> parseDir e = Some (d, v0) -> v = removeInlineComments v0 ->
  dirQuiet t [MLine (Some (33 :: s)) CNone] d v.
Proof.
  intros H1 H2 H3 ->. exists (33 :: s), e, v0. split_and!; [constructor|by eexists _, _, _|by apply expandP_got|by apply noDollar_spec|by apply parseDir_spelled|done].
Qed.
Lemma holds_if_by fs pre cx d v b e z lx cmds cx' : expandP (cx_macros cx) v = Got e ->
  parseText (condEnv fs cx) (cx_lex cx) (toLocal e) = Some (PValue z, lx, cmds) -> d = pre ++ s2q "IF" -> b = negb (z =? 0)%Z ->
  cx' = Ctx (cx_macros cx) lx (cx_msgs cx) (rev cmds ++ cx_cmds cx) -> holds fs pre cx d v b cx'.
Proof. intros H1 H2 -> -> ->. econstructor; [by apply expandP_got|done]. Qed.
Lemma holds_ifdef_by fs pre cx d v b : d = pre ++ s2q "IFDEF" -> b = isMacroDefined v (cx_macros cx) -> holds fs pre cx d v b cx.
Proof. intros -> ->. constructor. Qed.
Lemma holds_ifndef_by fs pre cx d v b : d = pre ++ s2q "IFNDEF" -> b = negb (isMacroDefined v (cx_macros cx)) -> holds fs pre cx d v b cx.
Proof. intros -> ->. constructor. Qed.
Lemma included_by fs t at_ v p before after name dir : (forall n, v <> 60 :: n ++ [62]) ->
  below (removeDoubleQuotes v) (map snd at_) = before ++ p :: after ->
  forallb (fun q => negb (fs_exists fs q)) before = true -> fs_exists fs p = true -> fs_exists fs (fs_abs fs p) = true ->
  name = fs_abs fs (fs_abs fs p) -> dir = fs_dir fs (fs_abs fs p) -> included fs t at_ v name dir.
Proof.
  intros Hv E Hb Hp Ha -> ->. exists p. split_and!; [|done..]. exists before, after. split_and!; [rewrite <- E; by constructor| |done].
  rewrite forallb_forall in Hb. apply Forall_forall. intros q Hq. specialize (Hb q ltac:(by apply elem_of_list_In)). by destruct (fs_exists fs q).
Qed.
Ltac comp := vm_compute; reflexivity.
Ltac exBang := apply bang_by; eapply directive_by; [comp|comp|comp|comp].
Ltac exAny := apply any_by; eapply directive_by; [comp|comp|comp|comp].
Ltac exText := eapply line_by; [apply tn_one; by vm_compute|apply noDefinition_by; comp|eapply plain_by; [comp|comp]|].
Ltac exQuiet := first [by vm_compute | eapply quietDir_by; [comp|comp] | eapply quietLine_by; [by vm_compute|comp|comp]].

(** ** C18 *)

(** Calling readLine again and again has one outcome. *)
Lemma loop_mono inl fs n m line st r : readLoop inl fs n line st = r -> r <> Out -> (n <= m)%nat -> readLoop inl fs m line st = r.
Proof.
  revert m line st. induction n as [|n IH]; intros [|m] line st H Hr Hle; [|subst; done|lia|]; [cbn in H; congruence|].
  cbn [readLoop] in *. destruct (readStep inl fs line st) as [[line1 st1|l st1]| | |]; cbn [bindP] in *; try done. apply IH; [done..|lia].
Qed.
Lemma loop_det inl fs n m line st r r' : readLoop inl fs n line st = r -> r <> Out -> readLoop inl fs m line st = r' -> r' <> Out -> r = r'.
Proof.
  intros H Hr H' Hr'. destruct (Nat.le_gt_cases n m).
  - rewrite <- H'. symmetry. by eapply loop_mono.
  - rewrite <- H. eapply loop_mono; [done|done|lia].
Qed.
Lemma reading_det fs st out st' : reading fs st out st' -> forall out2 st2, reading fs st out2 st2 -> out2 = out /\ st2 = st'.
Proof.
  induction 1 as [st st' n E|st l st1 n out st' E _ IH]; intros out2 st2 H2.
  - inversion H2 as [? ? m E2|? l ? m ? ? E2]; subst; pose proof (loop_det _ _ _ _ _ _ _ _ E ltac:(done) E2 ltac:(done)) as Q; [|done].
    by injection Q as ->.
  - inversion H2 as [? ? m E2|? l2 ? m out3 ? E2 H3]; subst; pose proof (loop_det _ _ _ _ _ _ _ _ E ltac:(done) E2 ltac:(done)) as Q; [done|].
    injection Q as -> ->. destruct (IH _ _ H3) as [-> ->]. done.
Qed.
Lemma failing_reading fs st out e : failing fs st out e -> forall out2 st2, ~ reading fs st out2 st2.
Proof.
  induction 1 as [st e n E|st l st1 n out e E _ IH]; intros out2 st2 H2.
  - inversion H2 as [? ? m E2|? l2 ? m out3 ? E2 H3]; subst; by pose proof (loop_det _ _ _ _ _ _ _ _ E ltac:(done) E2 ltac:(done)).
  - inversion H2 as [? ? m E2|? l2 ? m out3 ? E2 H3]; subst; pose proof (loop_det _ _ _ _ _ _ _ _ E ltac:(done) E2 ltac:(done)) as Q; [done|].
    injection Q as -> ->. by eapply IH.
Qed.
Lemma open_sees fs name st st1 uni text ls : openFile fs name st = Got st1 -> pp_back st = [] -> fs_open fs (fs_abs fs name) = Some (uni, text) ->
  reads (openReader uni text) ls -> Sees st1 (ctxOf st) [] [(fs_abs fs name, fs_dir fs name, ls)].
Proof.
  unfold openFile, internalOpenFile. destruct (negb _); [done|]. destruct (existsb _ _); [done|]. intros E Hb Ho Hr. rewrite Ho in E.
  injection E as <-. split_and!; [done..|]. apply tight_shows. constructor; [by split_and!|constructor].
Qed.

(** C18: a makefile made of lines, conditional blocks nested to any depth and included files delivers, in order, the lines
    outside of the blocks and those of the first branch of each block whose condition holds; nothing else is delivered, and
    macros, messages and commands are those of these lines. *)
Theorem C18_select : forall fs name st st1 uni text b out cx', pp_back st = [] -> openFile fs name st = Got st1 ->
  fs_open fs (fs_abs fs name) = Some (uni, text) -> reads (openReader uni text) (writtenB b) ->
  runs fs [(fs_abs fs name, fs_dir fs name)] (ctxOf st) b out cx' ->
  exists st', reading fs st1 out st' /\ ctxOf st' = cx' /\ pp_conds st' = [] /\
    forall out2 st2, reading fs st1 out2 st2 -> out2 = out /\ st2 = st'.
Proof.
  intros fs name st st1 uni text b out cx' Hb Ho Hf Hr Hruns. pose proof (open_sees _ _ _ _ _ _ _ Ho Hb Hf Hr) as Hs.
  rewrite <- (app_nil_r (writtenB b)) in Hs.
  destruct (run_block _ _ _ _ _ _ _ _ _ _ _ [] (MLine None CNone) Hruns eq_refl Hs eq_refl) as (line1 & st2 & Hl & Hss & Hs2). apply Sees_pop in Hs2.
  destruct (end_reading fs line1 _ _ Hs2 Hl) as (st3 & Hrd & Hs3). exists st3.
  assert (Hall : reading fs st1 out st3). { eapply readingFrom_reading; [|done]. rewrite <- (app_nil_r out). by eapply steps_reading. }
  split_and!; [done|apply Hs3..|]. by apply reading_det.
Qed.
(** C18: errors. In [fails]: !ELSE and the like and !ENDIF outside of a block, blocks that are not finished, wherever they
    are in nested blocks and included files; [cs = []]: no block is open. The lines before are delivered. *)
Theorem C18_errors : forall fs name st st1 uni text ls out e, pp_back st = [] -> openFile fs name st = Got st1 ->
  fs_open fs (fs_abs fs name) = Some (uni, text) -> reads (openReader uni text) ls ->
  fails fs [(fs_abs fs name, fs_dir fs name)] [] (ctxOf st) ls out e ->
  failing fs st1 out e /\ forall out2 st2, ~ reading fs st1 out2 st2.
Proof.
  intros fs name st st1 uni text ls out e Hb Ho Hf Hr Hfails. pose proof (open_sees _ _ _ _ _ _ _ Ho Hb Hf Hr) as Hs.
  assert (failing fs st1 out e) as H; [|split; [done|exact (failing_reading _ _ _ _ H)]].
  eapply failingFrom_failing; [|done]. by eapply (proj1 (fails_seeks fs) _ _ _ _ _ _ Hfails _ _ _ []).
Qed.

Definition C18_fs : fsenv := exFs
  [("/d/a.mk", T ["A = 1"; "!IF 0"; "skipped $(A) $$"; "!  IF 1"; "also"; "!  ELSE"; "never"; "!  ENDIF"; "!ELSEIFDEF B"; "no";
                  "!ELSE IF $(A) == 1 && defined(A)"; "t: x \"; "   y"; "!  IFNDEF A"; "inner no"; "!  ELSE"; "!    INCLUDE b.mk"; "tail"; "!  ENDIF";
                  "!ELSE"; "last"; "!ENDIF # done"; "end"]);
   ("/d/b.mk", T ["C = $(A)"; "b: c"; "!MESSAGE $(C)"])]%string.
Definition C18_inner : block := BCond (L "!  IFNDEF A") (BLine (L "inner no") BNil)
  (AElse (L "!  ELSE") (BLine (L "!    INCLUDE b.mk") (BLine (L "tail") BNil)) (L "!  ENDIF")) BNil.
Definition C18_block : block :=
  BLine (L "A = 1") (BCond (L "!IF 0")
    (BLine (L "skipped $(A) $$") (BCond (L "!  IF 1") (BLine (L "also") BNil) (AElse (L "!  ELSE") (BLine (L "never") BNil) (L "!  ENDIF")) BNil))
    (AElif (L "!ELSEIFDEF B") (BLine (L "no") BNil)
      (AElif (L "!ELSE IF $(A) == 1 && defined(A)")
         (BLine [MLine (Some (s2q "t: x ")) CBackslash; MLine (Some (s2q "   y")) CNone] C18_inner)
         (AElse (L "!ELSE") (BLine (L "last") BNil) (L "!ENDIF # done"))))
    (BLine (L "end") BNil)).
Definition C18_bfile : block := BLine (L "C = $(A)") (BLine (L "b: c") (BLine (L "!MESSAGE $(C)") BNil)).
Lemma C18_b_runs at_ cx : expandP (cx_macros cx) (s2q "$(A)") = Got (s2q "1") -> cx_macros cx = mGet exEmpty (setMacroValue (s2q "A") (s2q "1") exEmpty) ->
  exists cx', runs C18_fs at_ cx C18_bfile [s2q "b: c"] cx' /\ cx_msgs cx' = s2q "1" :: cx_msgs cx /\ cx_lex cx' = cx_lex cx.
Proof.
  destruct cx as [t lx ms cs]. cbn [cx_macros]. intros HA ->. eexists. split.
  - unfold C18_bfile. eapply define_by; [apply tn_one; by vm_compute|apply (defines_by 67 [32] (s2q " $(A)")); comp|comp|].
    cbn [setMacros cx_macros cx_lex cx_msgs cx_cmds]. exText.
    eapply rn_message; [exAny|]. apply rn_nil.
  - by split.
Qed.
Example C18_case : exists st1 cx',
  openFile C18_fs (s2q "a.mk") exPP = Got st1 /\ fs_open C18_fs (s2q "/d/a.mk") = Some (false, snd (default (false, []) (fs_open C18_fs (s2q "a.mk")))) /\
  reads (openReader false (snd (default (false, []) (fs_open C18_fs (s2q "a.mk"))))) (writtenB C18_block) /\
  runs C18_fs [(s2q "/d/a.mk", s2q "/d")] (ctxOf exPP) C18_block [s2q "t: x  y"; s2q "b: c"; s2q "tail"; s2q "end"] cx' /\
  cx_msgs cx' = [s2q "1"].
Proof.
  eexists. 
  set (cx1 := Ctx (mGet exEmpty (setMacroValue (s2q "A") (s2q "1") exEmpty)) lexInit [] []).
  destruct (C18_b_runs [(s2q "/d/b.mk", s2q "/d"); (s2q "/d/a.mk", s2q "/d")] cx1) as (cx2 & Hb & Hm & Hlx); [comp|done|].
  exists cx2. split_and!; [comp|comp| | |by rewrite Hm].
  - apply (allLines_reads 50). comp.
  - unfold C18_block. eapply define_by; [apply tn_one; by vm_compute|apply (defines_by 65 [32] (s2q " 1")); comp|comp|].
    change (setMacros _ _) with cx1.
    eapply (rn_if_not _ _ _ _ _ _ cx1 _ _ [s2q "t: x  y"; s2q "b: c"; s2q "tail"]); [exBang|eapply holds_if_by; [comp|comp|comp|comp|comp]| | |].
    { cbn [quietB quietA cx_macros cx1]. split_and!; exQuiet. }
    2:{ exText. apply rn_nil. }
    eapply pk_elif_not; [eapply dirQuiet_by; [comp|comp|comp|comp]|apply holds_ifdef_by; [comp|comp]|cbn [quietB]; split_and!; exQuiet|].
    eapply pk_elif; [eapply dirQuiet_by; [comp|comp|comp|comp]|eapply holds_if_by; [comp|comp|comp|comp|comp]| |].
    2:{ cbn [quietA quietB]. split_and!; exQuiet. }
    eapply (line_by _ _ _ _ (s2q "t: x  y")).
    { apply (tn_more (s2q "t: x ") CBackslash _ (s2q "y")); [by vm_compute|done|]. apply (mn_last (s2q "   y")). by vm_compute. }
    { apply noDefinition_by; comp. } { eapply plain_by; [comp|comp]. }
    unfold C18_inner. eapply (rn_if_not _ _ _ _ _ _ cx1 _ _ [s2q "b: c"; s2q "tail"] cx2 _ []).
    { exBang. } { apply holds_ifndef_by; [comp|comp]. } { cbn [quietB]; split_and!; exQuiet. }
    2:{ apply rn_nil. }
    eapply (pk_else _ _ _ _ _ _ _ []); [eapply dirQuiet_by; [comp|comp|comp|comp]| |].
    2:{ apply bang_by. apply (directive_by _ _ (s2q "!  ENDIF") _ [] []); [|comp|comp|comp]. apply expandP_plain, noDollar_spec. comp. }
    eapply (rn_include _ _ _ _ _ (s2q "/d/b.mk") (s2q "/d") _ _ _ [s2q "b: c"] cx2 _ [s2q "tail"]); [exAny| | | | |exact Hb|].
    { eapply (included_by _ _ _ _ (s2q "b.mk") [] [s2q "/d/b.mk"]); [|comp..]. intros n [= E]. }
    { intros H%elem_of_list_In. cbn in H. destruct H as [H|H]; [by vm_compute in H|done]. }
    { comp. } { apply (allLines_reads 50). comp. }
    exText.
    apply rn_nil.
Qed.

(** All calls of readLine, by computation. *)
Fixpoint calls (fs : fsenv) (fuel : nat) (st : pp) : option (list qstr * (pp + pperr)) :=
  match fuel with
  | O => None
  | S fuel' =>
    match readLine false fs 100 st with
    | Got (Some l, st') => match calls fs fuel' st' with Some (out, r) => Some (l :: out, r) | None => None end
    | Got (None, st') => Some ([], inl st')
    | Err e => Some ([], inr e)
    | _ => None
    end
  end.
Lemma calls_err fs fuel st out e : calls fs fuel st = Some (out, inr e) -> failing fs st out e.
Proof.
  revert st out. induction fuel as [|fuel IH]; intros st out; cbn [calls]; [done|].
  destruct (readLine false fs 100 st) as [[[l|] st']|e'| |] eqn:E; try done.
  - destruct (calls fs fuel st') as [[o r]|] eqn:E'; [|done]. intros [= <- ->]. eapply fa_line; [done|by apply IH].
  - intros [= <- <-]. by eapply fa_here.
Qed.
Lemma calls_ok fs fuel st out st' : calls fs fuel st = Some (out, inl st') -> reading fs st out st'.
Proof.
  revert st out. induction fuel as [|fuel IH]; intros st out; cbn [calls]; [done|].
  destruct (readLine false fs 100 st) as [[[l|] st1]|e'| |] eqn:E; try done.
  - destruct (calls fs fuel st1) as [[o r]|] eqn:E'; [|done]. intros [= <- ->]. eapply re_line; [done|by apply IH].
  - intros [= <- <-]. by eapply re_end.
Qed.
Definition opened (fs : fsenv) (name : string) : pp := match openFile fs (s2q name) exPP with Got st => st | _ => exPP end.
(** Of the outcome of [calls] only the lines and the error. *)
Definition seen (r : option (list qstr * (pp + pperr))) : option (list qstr * option pperr) :=
  match r with Some (out, inl _) => Some (out, None) | Some (out, inr e) => Some (out, Some e) | None => None end.
Lemma seen_err fs fuel st out e : seen (calls fs fuel st) = Some (out, Some e) -> failing fs st out e.
Proof. unfold seen. destruct (calls fs fuel st) as [[o [|]]|] eqn:E; try done. intros [= -> ->]. by eapply calls_err. Qed.
Lemma seen_ok fs fuel st out : seen (calls fs fuel st) = Some (out, None) -> exists st', reading fs st out st'.
Proof. unfold seen. destruct (calls fs fuel st) as [[o [|]]|] eqn:E; try done. intros [= ->]. eexists. by eapply calls_ok. Qed.

(** The makefile of C18_case, run. *)
Example C18_run : seen (calls C18_fs 10 (opened C18_fs "a.mk")) = Some ([s2q "t: x  y"; s2q "b: c"; s2q "tail"; s2q "end"], None).
Proof. comp. Qed.

(** Errors: a stray !ELSE and a stray !ENDIF after a block; an !IF that is not finished, inside of which a file is included;
    an !ELSEIF looked for in vain. *)
Definition C18_badfs : fsenv := exFs
  [("/d/else.mk", T ["x"; "!IFDEF Q"; "y"; "!ENDIF"; "!ELSEIFDEF Q"; "z"]);
   ("/d/endif.mk", T ["x"; "!endif"]);
   ("/d/open.mk", T ["!IFNDEF Q"; "a"; "!INCLUDE part.mk"; "!ELSE"; "b"; "!ELSE"]);
   ("/d/part.mk", T ["p"]);
   ("/d/seek.mk", T ["!IFDEF Q"; "a"; "!ELSEIFDEF Q"; "b"])]%string.
Definition C18_textOf (name : string) : list N := snd (default (false, []) (fs_open C18_badfs (s2q name))).
Example C18_errors_case :
  (reads (openReader false (C18_textOf "else.mk")) (writtenB (BLine (L "x") (BCond (L "!IFDEF Q") (BLine (L "y") BNil) (AEnd (L "!ENDIF")) BNil)) ++ asRead (L "!ELSEIFDEF Q") ++ asRead (L "z")) /\
   fails C18_badfs [(s2q "/d/else.mk", s2q "/d")] [] (ctxOf exPP)
     (writtenB (BLine (L "x") (BCond (L "!IFDEF Q") (BLine (L "y") BNil) (AEnd (L "!ENDIF")) BNil)) ++ asRead (L "!ELSEIFDEF Q") ++ asRead (L "z"))
     [s2q "x"] EUnexpectedElse) /\
  (reads (openReader false (C18_textOf "endif.mk")) (writtenB (BLine (L "x") BNil) ++ asRead (L "!endif") ++ []) /\
   fails C18_badfs [(s2q "/d/endif.mk", s2q "/d")] [] (ctxOf exPP) (writtenB (BLine (L "x") BNil) ++ asRead (L "!endif") ++ []) [s2q "x"] EUnexpectedEndif) /\
  (exists ls, reads (openReader false (C18_textOf "open.mk")) ls /\
   fails C18_badfs [(s2q "/d/open.mk", s2q "/d")] [] (ctxOf exPP) ls [s2q "a"; s2q "p"] EMissingEndif) /\
  (exists ls, reads (openReader false (C18_textOf "seek.mk")) ls /\
   fails C18_badfs [(s2q "/d/seek.mk", s2q "/d")] [] (ctxOf exPP) ls [] EMissingEndif).
Proof.
  split_and!.
  - apply (allLines_reads 50). comp.
  - eapply fl_else; [|exBang|].
    + exText. eapply (rn_if_not _ _ _ _ _ _ _ _ _ [] _ _ []); [exBang|apply holds_ifdef_by; [comp|comp]| | |].
      * cbn [quietB]. split_and!; exQuiet.
      * apply pk_end. exQuiet.
      * apply rn_nil.
    + apply existsb_qeqb. comp.
  - apply (allLines_reads 50). comp.
  - eapply fl_endif; [|exBang]. exText. apply rn_nil.
  - exists (writtenB BNil ++ asRead (L "!IFNDEF Q") ++ writtenB (BLine (L "a") (BLine (L "!INCLUDE part.mk") BNil)) ++ asRead (L "!ELSE")
            ++ writtenB (BLine (L "b") BNil) ++ asRead (L "!ELSE") ++ writtenB BNil). split.
    + apply (allLines_reads 50). comp.
    + eapply (fl_taken _ _ _ _ _ []); [apply rn_nil|exBang|apply holds_ifndef_by; [comp|comp]|].
      eapply fl_past.
      * exText. eapply (rn_include _ _ _ _ _ (s2q "/d/part.mk") (s2q "/d") _ _ (BLine (L "p") BNil) [s2q "p"] _ _ []); [exAny| | | | | |apply rn_nil].
        { eapply (included_by _ _ _ _ (s2q "part.mk") [] [s2q "/d/part.mk"]); [|comp..]. intros n [= E]. }
        { intros H%elem_of_list_In. cbn in H. destruct H as [H|H]; [by vm_compute in H|done]. }
        { comp. } { apply (allLines_reads 50). comp. } exText. apply rn_nil.
      * exQuiet.
      * apply pa_more; [cbn [quietB]; split_and!; exQuiet|exQuiet|]. by apply (pa_end _ BNil).
  - exists (writtenB BNil ++ asRead (L "!IFDEF Q") ++ writtenB (BLine (L "a") BNil) ++ asRead (L "!ELSEIFDEF Q") ++ writtenB (BLine (L "b") BNil)). split.
    + apply (allLines_reads 50). comp.
    + eapply (fl_not _ _ _ _ _ []); [apply rn_nil|exBang|apply holds_ifdef_by; [comp|comp]|].
      eapply sk_elif_not; [cbn [quietB]; split_and!; exQuiet|eapply dirQuiet_by; [comp|comp|comp|comp]|apply holds_ifdef_by; [comp|comp]|].
      apply sk_end. cbn [quietB]; split_and!; exQuiet.
Qed.
Example C18_errors_run :
  seen (calls C18_badfs 10 (opened C18_badfs "else.mk")) = Some ([s2q "x"], Some EUnexpectedElse) /\
  seen (calls C18_badfs 10 (opened C18_badfs "endif.mk")) = Some ([s2q "x"], Some EUnexpectedEndif) /\
  seen (calls C18_badfs 10 (opened C18_badfs "open.mk")) = Some ([s2q "a"; s2q "p"], Some EMissingEndif) /\
  seen (calls C18_badfs 10 (opened C18_badfs "seek.mk")) = Some ([], Some EMissingEndif).
Proof. split_and!; comp. Qed.
(** Not an error: two !ELSE in a block. If the first one is selected, so is the second one. *)
Definition C18_twofs : fsenv := exFs [("/d/two.mk", T ["!IFDEF Q"; "a"; "!ELSE"; "b"; "!ELSE"; "c"; "!ENDIF"])]%string.
Theorem C18_two_else_refuted : exists fs name st', reading fs (opened fs name) [s2q "b"; s2q "c"] st' /\
  fs_open fs (s2q name) = Some (false, T ["!IFDEF Q"; "a"; "!ELSE"; "b"; "!ELSE"; "c"; "!ENDIF"]%string).
Proof.
  exists C18_twofs, "two.mk"%string. destruct (seen_ok C18_twofs 10 (opened C18_twofs "two.mk") [s2q "b"; s2q "c"]) as (st' & H); [comp|].
  exists st'. split; [done|comp].
Qed.
Print Assumptions C18_select.
Print Assumptions C18_errors.
Print Assumptions C18_two_else_refuted.

(** ** C19 *)

(** A skipped branch can raise an error: its macros are expanded. *)
Definition C19_fs (line : string) : fsenv := exFs [("/d/m.mk", T ["!IF 0"; line; "!ENDIF"; "all:"])]%string.
Theorem C19_refuted : exists line, failing (C19_fs line) (opened (C19_fs line) "m.mk") [] EMacro /\
  exists st', reading (C19_fs "harmless") (opened (C19_fs "harmless") "m.mk") [s2q "all:"] st'.
Proof. exists "a: $(b"%string. split; [eapply (seen_err _ 10); comp|apply (seen_ok _ 10); comp]. Qed.
(** C19, without the errors of macro expansion: skipping changes no macro, evaluates no expression, runs no command and
    says nothing; it opens no file; the only exception is that of macro expansion. *)
Theorem C19_partial : forall inl st,
  (forall st1, skipConditional inl st = Got st1 -> ctxOf st1 = ctxOf st /\
     (pp_conds st1 = pp_conds st \/ exists c, pp_conds st = c :: pp_conds st1) /\
     exists above, map tf_name (pp_files st) = above ++ map tf_name (pp_files st1)) /\
  (forall e, skipConditional inl st = Err e -> pp_conds st <> [] -> e = EMacro) /\
  skipConditional inl st <> Out.
Proof. intros inl st. split_and!; [intros st1 H; by apply skip_keeps in H|intros e H; by eapply skip_err|apply skip_not_out]. Qed.
(** Everything that does something elsewhere. *)
Definition C19_loud : fsenv := exFs
  [("/d/m.mk", T ["!IF 0"; "A = 2"; "!ERROR stop"; "!INCLUDE nowhere.mk"; "include m.mk"; "!UNDEF B"; "!NONSENSE"; "!IF 1/0"; "!ENDIF";
                  "!MESSAGE x"; "!ELSE"; "t:"; "!ENDIF"; "u:"])]%string.
Example C19_case : seen (calls C19_loud 10 (opened C19_loud "m.mk")) = Some ([s2q "t:"; s2q "u:"], None) /\
  (match calls C19_loud 10 (opened C19_loud "m.mk") with Some (_, inl st) => isMacroDefined (s2q "A") (pp_macros st) | _ => true end) = false /\
  (exists st st1, skipConditional false st = Got st1 /\ pp_conds st <> [] /\ pp_back st1 = [s2q "!ELSE"]).
Proof.
  split_and!; [comp|comp|].
  set (r := let* (l, st) := basicReadLine false (opened C19_loud "m.mk") in Got (st <| pp_conds := [true] |>)).
  destruct r as [st| | |] eqn:Er; [|by vm_compute in Er..]. exists st. injection Er as Er.
  destruct (skipConditional false st) as [st1| | |] eqn:E; [|subst st; by vm_compute in E..]. exists st1. split_and!; [done|by subst st|].
  transitivity (match skipConditional false st with Got st1 => pp_back st1 | _ => [] end); [by rewrite E|]. subst st. comp.
Qed.
Print Assumptions C19_refuted.
Print Assumptions C19_partial.

(** ** C20 *)

(** One block after the other. *)
Fixpoint appB (b1 b2 : block) : block :=
  match b1 with BNil => b2 | BLine ms r => BLine ms (appB r b2) | BText ms ts r => BText ms ts (appB r b2) | BCond ms body alt r => BCond ms body alt (appB r b2) end.
Lemma written_app b1 b2 : writtenB (appB b1 b2) = writtenB b1 ++ writtenB b2.
Proof.
  revert b2. induction b1 as [|ms r IH|ms ts r IH|ms body _ alt r IH] using block_ind; intros b2; cbn [appB writtenB app]; [done|..]; rewrite IH, <- ?app_assoc; done.
Qed.
Lemma runs_app fs at_ cx b1 out1 cx1 : runs fs at_ cx b1 out1 cx1 -> forall b2 out2 cx2, runs fs at_ cx1 b2 out2 cx2 ->
  runs fs at_ cx (appB b1 b2) (out1 ++ out2) cx2.
Proof.
  induction 1; intros b2' out2' cx2' Hb2'; cbn [appB app]; rewrite <- ?app_assoc; try done.
  - eapply line_by; eauto.
  - eapply rn_empty; eauto.
  - eapply rn_define; eauto.
  - eapply rn_switches; eauto.
  - eapply rn_message; eauto.
  - eapply rn_undef; eauto.
  - eapply rn_include; eauto.
  - eapply rn_if; eauto.
  - eapply rn_if_not; eauto.
Qed.
(** C20: the lines of an included file are delivered in place of the directive; what it defines holds afterwards. *)
Theorem C20_in_place : forall fs name st st1 uni text before ms v after inc dir uni' text' file out1 cx1 out2 cx2 out3 cx3,
  pp_back st = [] -> openFile fs name st = Got st1 -> fs_open fs (fs_abs fs name) = Some (uni, text) ->
  reads (openReader uni text) (writtenB before ++ asRead ms ++ writtenB after) ->
  runs fs [(fs_abs fs name, fs_dir fs name)] (ctxOf st) before out1 cx1 ->
  dirAny (cx_macros cx1) ms (s2q "INCLUDE") v -> included fs (cx_macros cx1) [(fs_abs fs name, fs_dir fs name)] v inc dir ->
  inc <> fs_abs fs name -> fs_open fs inc = Some (uni', text') -> reads (openReader uni' text') (writtenB file) ->
  runs fs [(inc, dir); (fs_abs fs name, fs_dir fs name)] cx1 file out2 cx2 ->
  runs fs [(fs_abs fs name, fs_dir fs name)] cx2 after out3 cx3 ->
  exists st', reading fs st1 (out1 ++ out2 ++ out3) st' /\ ctxOf st' = cx3.
Proof.
  intros fs name st st1 uni text before ms v after inc dir uni' text' file out1 cx1 out2 cx2 out3 cx3 Hb Ho Hf Hr H1 Hd Hi Hne Hf' Hr' H2 H3.
  destruct (C18_select fs name st st1 uni text (appB before (BLine ms after)) (out1 ++ out2 ++ out3) cx3) as (st' & Hrd & Hc & _); [done..| | |by exists st'].
  - by rewrite written_app.
  - eapply runs_app; [done|]. eapply rn_include; [done..| |done|done|done|done]. cbn. intros [->|H]%elem_of_cons; [done|by apply not_elem_of_nil in H].
Qed.
Definition C20_infs : fsenv := exFs [("/d/i.mk", T ["x"; "include sub.mk"; "y: $(C)"]); ("/d/sub.mk", T ["p"; "C = 7"; "!IF $(C) > 3"; "q"; "!ENDIF"])]%string.
Definition C20_sub : block := BLine (L "p") (BLine (L "C = 7") (BCond (L "!IF $(C) > 3") (BLine (L "q") BNil) (AEnd (L "!ENDIF")) BNil)).
Example C20_in_place_case : exists cx2,
  reads (openReader false (snd (default (false, []) (fs_open C20_infs (s2q "i.mk"))))) (writtenB (BLine (L "x") BNil) ++ asRead (L "include sub.mk") ++ writtenB (BLine (L "y: $(C)") BNil)) /\
  runs C20_infs [(s2q "/d/i.mk", s2q "/d")] (ctxOf exPP) (BLine (L "x") BNil) [s2q "x"] (ctxOf exPP) /\
  dirAny exEmpty (L "include sub.mk") (s2q "INCLUDE") (s2q "sub.mk") /\
  included C20_infs exEmpty [(s2q "/d/i.mk", s2q "/d")] (s2q "sub.mk") (s2q "/d/sub.mk") (s2q "/d") /\
  reads (openReader false (snd (default (false, []) (fs_open C20_infs (s2q "sub.mk"))))) (writtenB C20_sub) /\
  runs C20_infs [(s2q "/d/sub.mk", s2q "/d"); (s2q "/d/i.mk", s2q "/d")] (ctxOf exPP) C20_sub [s2q "p"; s2q "q"] cx2 /\
  runs C20_infs [(s2q "/d/i.mk", s2q "/d")] cx2 (BLine (L "y: $(C)") BNil) [s2q "y: $(C)"] cx2.
Proof.
  eexists. split_and!.
  - apply (allLines_reads 50). comp.
  - exText. apply rn_nil.
  - right. eexists. split; [apply tn_one; by vm_compute|]. split; [apply noDefinition_by; comp|]. eapply directive_by; [comp|comp|comp|comp].
  - eapply (included_by _ _ _ _ (s2q "sub.mk") [] [s2q "/d/sub.mk"]); [|comp..]. intros n [= E].
  - apply (allLines_reads 50). comp.
  - exText. eapply define_by; [apply tn_one; by vm_compute|apply (defines_by 67 [32] (s2q " 7")); comp|comp|].
    eapply (rn_if _ _ _ _ _ _ _ _ [s2q "q"] _ _ _ []); [exBang|eapply holds_if_by; [comp|comp|comp|comp|reflexivity]| | |apply rn_nil].
    + exText. apply rn_nil.
    + cbn [quietA]. exQuiet.
  - exText. apply rn_nil.
Qed.
(** C20: an !INCLUDE of a file that is being read, after any lines, is reported; and so if it is in a file included (see
    [fl_include] in C18_errors). *)
Theorem C20_cycle : forall fs name st st1 uni text before ms v after inc dir out cx, pp_back st = [] -> openFile fs name st = Got st1 ->
  fs_open fs (fs_abs fs name) = Some (uni, text) -> reads (openReader uni text) (writtenB before ++ asRead ms ++ after) ->
  runs fs [(fs_abs fs name, fs_dir fs name)] (ctxOf st) before out cx -> dirAny (cx_macros cx) ms (s2q "INCLUDE") v ->
  included fs (cx_macros cx) [(fs_abs fs name, fs_dir fs name)] v inc dir -> inc = fs_abs fs name ->
  failing fs st1 out ECycle /\ forall out2 st2, ~ reading fs st1 out2 st2.
Proof.
  intros fs name st st1 uni text before ms v after inc dir out cx Hb Ho Hf Hr H1 Hd Hi ->. eapply C18_errors; [done..|].
  eapply fl_cycle; [done|done|done|]. cbn. by left.
Qed.
(** tests/makefiles/circular_include.mk (with the same case). *)
Definition C20_fs : fsenv := exFs
  [("/d/c1.mk", T ["first"; "!include c2.mk"; "CIRCULAR_INCLUDE = TRUE"]);
   ("/d/c2.mk", T ["second"; "include c1.mk"; "CIRCULAR_INCLUDE2 = TRUE"]);
   ("/d/self.mk", T ["x"; "!INCLUDE ""self.mk"""])]%string.
Example C20_cycle_case :
  (reads (openReader false (snd (default (false, []) (fs_open C20_fs (s2q "self.mk"))))) (writtenB (BLine (L "x") BNil) ++ asRead (L "!INCLUDE ""self.mk""") ++ []) /\
   runs C20_fs [(s2q "/d/self.mk", s2q "/d")] (ctxOf exPP) (BLine (L "x") BNil) [s2q "x"] (ctxOf exPP) /\
   dirAny (cx_macros (ctxOf exPP)) (L "!INCLUDE ""self.mk""") (s2q "INCLUDE") (s2q """self.mk""") /\
   included C20_fs (cx_macros (ctxOf exPP)) [(s2q "/d/self.mk", s2q "/d")] (s2q """self.mk""") (s2q "/d/self.mk") (s2q "/d")) /\
  fails C20_fs [(s2q "/d/c1.mk", s2q "/d")] [] (ctxOf exPP) (writtenB (BLine (L "first") BNil) ++ asRead (L "!include c2.mk") ++ asRead (L "CIRCULAR_INCLUDE = TRUE"))
    [s2q "first"; s2q "second"] ECycle /\
  seen (calls C20_fs 10 (opened C20_fs "c1.mk")) = Some ([s2q "first"; s2q "second"], Some ECycle) /\
  seen (calls C20_fs 10 (opened C20_fs "self.mk")) = Some ([s2q "x"], Some ECycle).
Proof.
  split_and!; [apply (allLines_reads 50); comp| |exAny| | |comp|comp].
  - exText. apply rn_nil.
  - eapply (included_by _ _ _ _ (s2q "self.mk") [] [s2q "/d/self.mk"]); [|comp..]. intros n [= E].
  - eapply (fl_include _ _ _ _ _ [s2q "first"] _ _ _ (s2q "/d/c2.mk") (s2q "/d") _ _ (writtenB (BLine (L "second") BNil) ++ asRead (L "include c1.mk") ++ asRead (L "CIRCULAR_INCLUDE2 = TRUE"))).
    + exText. apply rn_nil.
    + exAny.
    + eapply (included_by _ _ _ _ (s2q "c2.mk") [] [s2q "/d/c2.mk"]); [|comp..]. intros n [= E].
    + intros H%elem_of_list_In. cbn in H. destruct H as [H|H]; [by vm_compute in H|done].
    + comp.
    + apply (allLines_reads 50). comp.
    + eapply fl_cycle.
      * exText. apply rn_nil.
      * right. eexists. split; [apply tn_one; by vm_compute|]. split; [apply noDefinition_by; comp|]. eapply directive_by; [comp|comp|comp|comp].
      * eapply (included_by _ _ _ _ (s2q "c1.mk") [] [s2q "/d/c1.mk"; s2q "/d/c1.mk"]); [|comp..]. intros n [= E].
      * apply existsb_qeqb. comp.
Qed.
(** C20: however the files include each other, the names of the files being read are different and those of files that can
    be opened; so there are never more than there are files. *)
Theorem C20_depth : forall fs (known : list qstr) name st st1 st', (forall n, fs_open fs n <> None -> n ∈ known) -> pp_back st = [] ->
  openFile fs name st = Got st1 -> called fs st1 st' ->
  NoDup (map tf_name (pp_files st')) /\ (length (pp_files st') <= length known)%nat.
Proof.
  intros fs known name st st1 st' Hk Hb Ho Hc. destruct (open_good _ _ _ _ Ho Hb) as (_ & Hs & _). apply called_stacked in Hc; [|done].
  destruct Hc as [H1 H2]. split; [done|]. rewrite <- (map_length tf_name). apply NoDup_incl_length; [by apply NoDup_ListNoDup|].
  intros n Hn. apply elem_of_list_In, Hk. rewrite Forall_forall in H2. apply H2. by apply elem_of_list_In.
Qed.
(** C20, if no continuation runs over the end of a file or into a directive: calling readLine comes to an end. *)
Theorem C20_terminates_partial : forall fs (known : list qstr) name st st1, (forall n, fs_open fs n <> None -> n ∈ known) -> tidy fs ->
  pp_back st = [] -> openFile fs name st = Got st1 -> ends fs st1.
Proof. intros fs known name st st1 Hk Ht Hb Ho. by eapply open_ends. Qed.
(** The files of C18_case end their continuations. *)
Fixpoint tidyFrom (fuel : nat) (r : reader) : bool :=
  match fuel with
  | O => false
  | S fuel' =>
    match readerLine false r with
    | Some (MLine (Some c) k, r') =>
      (match k with
       | CNone => true
       | _ => match readerLine false r' with
              | Some (MLine (Some c') _, _) => startsWith [33] c || negb (startsWith [33] c')
              | _ => false
              end
       end) && tidyFrom fuel' r'
    | Some (MLine None _, r') => match rd_text r' with [] => match rd_text r with [] => true | _ => false end | _ => false end
    | None => false
    end
  end.
Lemma later_split r r2 : later r r2 -> r2 = r \/ exists l r1, readerLine false r = Some (l, r1) /\ later r1 r2.
Proof.
  induction 1 as [|r r1 l r2 H IH E]; [by left|]. right. destruct IH as [->|(l' & r' & E' & H')].
  - exists l, r2. split; [done|constructor].
  - exists l', r'. split; [done|]. by econstructor.
Qed.
Lemma null_stays r l r' : readerLine false r = Some (l, r') -> rd_text r = [] -> l = MLine None CNone /\ rd_text r' = [].
Proof.
  intros E Hr. destruct r as [uni size text]. cbn in Hr. subst text. unfold readerLine in E. destruct uni; cbn in E.
  - by injection E as <- <-.
  - destruct (devReadLine _ _) as [[x y]|] eqn:Ed; [|by injection E as <- <-]. unfold devReadLine in Ed. destruct (Nat.ltb _ _); [done|].
    assert (Ec : forall n, cutLine n [] = ([], [])) by (by intros []). rewrite Ec in Ed. injection Ed as <- <-. cbn in E. by injection E as <- <-.
Qed.
Lemma later_null r r2 : later r r2 -> rd_text r = [] -> rd_text r2 = [].
Proof. induction 1 as [|r r1 l r2 H IH E]; [done|]. intros Hr. by apply (null_stays _ _ _ E), IH. Qed.
Lemma tidyFrom_spec fuel : forall r, tidyFrom fuel r = true -> forall r1 c k r2, later r r1 -> readerLine false r1 = Some (MLine (Some c) k, r2) ->
  k <> CNone -> exists c' k' r3, readerLine false r2 = Some (MLine (Some c') k', r3) /\ (startsWith [33] c = false -> startsWith [33] c' = false).
Proof.
  induction fuel as [|fuel IH]; intros r; cbn [tidyFrom]; [done|]. destruct (readerLine false r) as [[[[c0|] k0] r0]|] eqn:E; [..|done].
  - intros [H1 H2]%andb_true_iff r1 c k r2 Hl Er Hk. apply later_split in Hl as [->|(l & r' & E' & Hl)].
    + rewrite E in Er. injection Er as <- <- <-. destruct k0; [done|..]; (destruct (readerLine false r0) as [[[[c'|] k'] r3]|]; [|done..]);
        (exists c', k', r3; split; [done|]; intros Hb; rewrite Hb in H1; cbn in H1; by apply negb_true_iff in H1).
    + rewrite E in E'. injection E' as <- <-. by eapply IH.
  - destruct (rd_text r0) eqn:E0; [|done]. destruct (rd_text r) eqn:E1; [|done]. intros _ r1 c k r2 Hl Er Hk.
    apply later_null in Hl; [|done]. by destruct (null_stays _ _ _ Er Hl).
Qed.
Lemma tidy_by files : forallb (fun f => tidyFrom 200 (openReader false (snd f))) files = true -> tidy (exFs files).
Proof.
  intros H name uni text r1 c k r2 Ho. cbn in Ho. destruct (find _ files) as [f|] eqn:Ef; [|done]. cbn in Ho. injection Ho as <- <-.
  apply find_some in Ef as [Hin _]. rewrite forallb_forall in H. by eapply tidyFrom_spec, H.
Qed.
Lemma known_by files name : fs_open (exFs files) name <> None ->
  name ∈ map (fun f => s2q (fst f)) files \/ s2q "/d/" ++ name ∈ map (fun f => s2q (fst f)) files.
Proof.
  unfold exFs. cbn [fs_open]. destruct (find _ files) as [f|] eqn:Ef; [|done]. intros _. apply find_some in Ef as [Hin E]. apply qeqb_spec in E.
  destruct (startsWith [47] name); [left|right]; apply elem_of_list_In, in_map_iff; by exists f.
Qed.
Example C20_terminates_case : tidy C18_fs /\ tidy C20_fs /\
  (forall n, fs_open C18_fs n <> None -> n ∈ [s2q "/d/a.mk"; s2q "/d/b.mk"; s2q "a.mk"; s2q "b.mk"]) /\
  (exists st1, openFile C18_fs (s2q "a.mk") exPP = Got st1 /\ length (pp_files st1) = 1%nat).
Proof.
  split_and!.
  - apply tidy_by. comp.
  - apply tidy_by. comp.
  - intros n H. apply known_by in H as [H|H]; apply elem_of_list_In in H; cbn [map fst In] in H.
    + destruct H as [<-|[<-|[]]]; apply existsb_qeqb; comp.
    + destruct H as [H|[H|[]]]; injection H as <-; apply existsb_qeqb; comp.
  - eexists. split; [reflexivity|done].
Qed.
(** Reading need not come to an end: the line is continued at the end of the file, the file is closed when the line is
    completed, and so the cycle is not noticed. *)
Definition C20_loopfs : fsenv := exFs [("/d/a", T ["!include a\"])]%string.
Theorem C20_terminates_refuted : exists fs name st1 (known : list qstr), (forall n, fs_open fs n <> None -> n ∈ known) /\
  openFile fs name exPP = Got st1 /\ forall n, readLine false fs n st1 = Out.
Proof.
  exists C20_loopfs, (s2q "a"), (opened C20_loopfs "a"), [s2q "/d/a"; s2q "a"]. split_and!.
  - intros n H. apply known_by in H as [H|H]; apply elem_of_list_In in H; cbn [map fst In] in H.
    + destruct H as [<-|[]]; apply existsb_qeqb; comp.
    + destruct H as [H|[]]. injection H as <-; apply existsb_qeqb; comp.
  - comp.
  - assert (readStep false C20_loopfs (MLine None CNone) (opened C20_loopfs "a") = Got (Again (MLine None CNone) (opened C20_loopfs "a"))) as E by comp.
    unfold readLine. induction n as [|n IH]; [done|]. cbn [readLoop]. by rewrite E.
Qed.
Print Assumptions C20_in_place.
Print Assumptions C20_cycle.
Print Assumptions C20_depth.
Print Assumptions C20_terminates_partial.
Print Assumptions C20_terminates_refuted.

(** ** C21: continued lines *)

(** C21: a makefile that is one logical line: the physical lines are put together, a backslash at the end gives a blank, a
    caret a line feed, blanks at the beginning of the next line do not count. *)
Theorem C21_join : forall fs name st st1 uni text ms raw, pp_back st = [] -> openFile fs name st = Got st1 ->
  fs_open fs (fs_abs fs name) = Some (uni, text) -> reads (openReader uni text) (asRead ms) -> textLines ms raw ->
  noDefinition raw -> plain (pp_macros st) raw ->
  exists st', reading fs st1 [raw] st' /\ ctxOf st' = ctxOf st.
Proof.
  intros fs name st st1 uni text ms raw Hb Ho Hf Hr Ht Hn Hp.
  destruct (C18_select fs name st st1 uni text (BLine ms BNil) [raw] (ctxOf st)) as (st' & Hrd & Hc & _); [done..| | |by exists st'].
  - cbn [writtenB]. by rewrite app_nil_r.
  - eapply line_by; [done..|constructor].
Qed.
Definition C21_fs : fsenv := exFs [("/d/j.mk", T ["a: b \"; "   c^"; "# comment"; "	d^\"])]%string.
Definition C21_lines : list mline :=
  [MLine (Some (s2q "a: b ")) CBackslash; MLine (Some (s2q "   c")) CCaret; MLine (Some ([9] ++ s2q "d\")) CNone].
Example C21_join_case : reads (openReader false (snd (default (false, []) (fs_open C21_fs (s2q "j.mk"))))) (asRead C21_lines) /\
  textLines C21_lines (s2q "a: b  c" ++ [10] ++ s2q "d\") /\ noDefinition (s2q "a: b  c" ++ [10] ++ s2q "d\") /\
  plain exEmpty (s2q "a: b  c" ++ [10] ++ s2q "d\") /\
  seen (calls C21_fs 5 (opened C21_fs "j.mk")) = Some ([s2q "a: b  c" ++ [10] ++ s2q "d\"], None).
Proof.
  split_and!; [apply (allLines_reads 50); comp| |apply noDefinition_by; comp|eapply plain_by; [comp|comp]|comp].
  apply (tn_more (s2q "a: b ") CBackslash _ (s2q "c" ++ [10] ++ s2q "d\")); [by vm_compute|done|].
  apply (mn_more (s2q "   c") CCaret _ (s2q "d\")); [by vm_compute|done|]. apply (mn_last ([9] ++ s2q "d\")). by vm_compute.
Qed.
Print Assumptions C21_join.
