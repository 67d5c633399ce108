(** Lemmas about the preprocessor: what skipping does, the stack of files, reading comes to an end. *)
From Coq Require Import Ascii String.
From stdpp Require Import prelude gmap relations.
From RecordUpdate Require Import RecordUpdate.
From Verif Require Import Base BaseProofs Macro MacroSpec MacroProofs MacroProps PPExpr PPExprProofs PPExprProps PPLex PPLexSpec PPLexProofs PPLexProps
  LineReader LineReaderSpec LineReaderProofs Preproc PreprocSpec PreprocProofs PreprocReadProofs PreprocRunProofs.
Local Open Scope N_scope.

(** ** Reading changes the files only *)
Definition names (st : pp) : list qstr := map tf_name (pp_files st).
(** The files of [st'] are those of [st], some taken away, the topmost one read further. *)
Definition onward (st st' : pp) : Prop := exists above, names st = above ++ names st'.
Lemma onward_refl st : onward st st. Proof. by exists []. Qed.
Lemma onward_trans a b c : onward a b -> onward b c -> onward a c.
Proof. intros [x Hx] [y Hy]. exists (x ++ y). by rewrite Hx, Hy, app_assoc. Qed.
Lemma onward_eq a b b' : onward a b -> pp_files b' = pp_files b -> onward a b'.
Proof. intros [x Hx] E. exists x. by rewrite Hx; unfold names; rewrite E. Qed.
Lemma basic_keeps inl st l st' : basicReadLine inl st = Got (l, st') ->
  ctxOf st' = ctxOf st /\ pp_conds st' = pp_conds st /\ onward st st'.
Proof.
  unfold basicReadLine. destruct (pp_back st) as [|b bs]; [|by intros [= <- <-]; split_and!; [..|exists []]].
  destruct (nextLine inl (pp_files st)) as [[l0 fs]| | |] eqn:E; cbn [bindP]; try done. intros [= <- <-]. split_and!; [done..|].
  destruct (nextLine_cases _ _ _ _ E) as [[-> ->]|(above & f & below & r' & c & k & Ef & -> & _ & ->)].
  - exists (names st). by rewrite app_nil_r.
  - exists (map tf_name above). unfold names. rewrite Ef, map_app. done.
Qed.
Lemma complete_keeps inl n line st line' st' : completeLoop inl n line st = Got (line', st') ->
  ctxOf st' = ctxOf st /\ pp_conds st' = pp_conds st /\ onward st st'.
Proof.
  revert line st. induction n as [|n IH]; intros line st; cbn [completeLoop]; destruct (isComplete line);
    try (by intros [= <- <-]; split_and!; [..|apply onward_refl]); try done.
  destruct (basicReadLine inl st) as [[next st1]| | |] eqn:E; cbn [bindP]; try done. apply basic_keeps in E as (E1 & E2 & E3).
  destruct (ml_content next).
  - intros H. apply IH in H as (H1 & H2 & H3). split_and!; [congruence..|by eapply onward_trans].
  - by intros [= <- <-].
Qed.
Lemma skip_keeps inl n depth d v st st' : skipLoop inl n depth d v st = Got st' ->
  ctxOf st' = ctxOf st /\ (pp_conds st' = pp_conds st \/ exists c, pp_conds st = c :: pp_conds st') /\ onward st st'.
Proof.
  revert depth d v st. induction n as [|n IH]; intros depth d v st; cbn [skipLoop]; [done|].
  destruct (basicReadLine inl st) as [[line st1]| | |] eqn:E; cbn [bindP]; try done. apply basic_keeps in E as (E1 & E2 & E3).
  destruct (ml_content line) as [c|]; [|intros [= <-]; split_and!; [done|by left|done]].
  assert (H2 : forall line2 st2, (if startsWith [33] c then completeDirective inl line st1 else Got (line, st1)) = Got (line2, st2) ->
    ctxOf st2 = ctxOf st /\ pp_conds st2 = pp_conds st /\ onward st st2).
  { intros line2 st2. destruct (startsWith [33] c); [|by intros [= <- <-]].
    intros H. apply complete_keeps in H as (H1 & H2 & H3). split_and!; [congruence..|by eapply onward_trans]. }
  destruct (if startsWith [33] c then _ else _) as [[line2 st2]| | |]; cbn [bindP]; try done.
  destruct (H2 _ _ eq_refl) as (F1 & F2 & F3). clear H2. destruct (expandP _ _) as [e| | |]; cbn [bindP]; try done.
  destruct (isDirective _ e d v) as [[[isD d'] v']| | |]; cbn [bindP]; try done.
  assert (Hrec : forall depth d v, skipLoop inl n depth d v st2 = Got st' ->
    ctxOf st' = ctxOf st /\ (pp_conds st' = pp_conds st \/ exists c, pp_conds st = c :: pp_conds st') /\ onward st st').
  { intros depth' d1 v1 H. apply IH in H as (H1 & H2 & H3). split_and!; [congruence| |by eapply onward_trans]. rewrite <- F2. done. }
  destruct (negb isD); [apply Hrec|]. destruct (qeqb d' _); [destruct depth; [|apply Hrec]|].
  { unfold exitConditional. destruct (pp_conds st2) as [|c' cs] eqn:Ec; [done|]. intros [= <-]. split_and!; [done| |done].
    right. exists c'. rewrite <- F2. done. }
  destruct (startsWith _ d'); [apply Hrec|]. destruct (startsWith _ d'); [destruct depth; [|apply Hrec]|apply Hrec].
  intros [= <-]. split_and!; [done|by left|done].
Qed.
(** What can go wrong while skipping. *)
Lemma expandP_err t s e : expandP t s = Err e -> e = EMacro.
Proof. unfold expandP. destruct (expandMacros _ _ _); congruence. Qed.
Lemma isDirective_err t l d v e : isDirective t l d v = Err e -> e = EMacro.
Proof.
  destruct (parseDir l) as [[d' v']|] eqn:E.
  - rewrite (isDirective_some _ _ _ _ _ _ E). destruct (expandP t v') eqn:Ev; cbn [bindP]; try done. intros [= <-]. by eapply expandP_err.
  - destruct (isDirective_none t l d v E) as [->| ->]; [done|]. destruct (expandP t v) eqn:Ev; cbn [bindP]; try done. intros [= <-]. by eapply expandP_err.
Qed.
Lemma nextLine_err inl files e : nextLine inl files <> Err e.
Proof. induction files as [|f fs IH]; cbn; [done|]. destruct (readerLine _ _) as [[l r]|]; [|done]. by destruct (ml_content l). Qed.
Lemma basic_err inl st e : basicReadLine inl st <> Err e.
Proof.
  unfold basicReadLine. destruct (pp_back st); [|done]. pose proof (nextLine_err inl (pp_files st) e).
  destruct (nextLine inl (pp_files st)) as [[]| | |]; cbn [bindP]; congruence.
Qed.
Lemma complete_err inl n line st e : completeLoop inl n line st <> Err e.
Proof.
  revert line st. induction n as [|n IH]; intros line st; cbn [completeLoop]; destruct (isComplete line); try done.
  pose proof (basic_err inl st e). destruct (basicReadLine inl st) as [[next st1]| | |]; cbn [bindP]; try congruence.
  by destruct (ml_content next).
Qed.
Lemma skip_err inl n depth d v st e : skipLoop inl n depth d v st = Err e -> pp_conds st <> [] -> e = EMacro.
Proof.
  revert depth d v st. induction n as [|n IH]; intros depth d v st; cbn [skipLoop]; [done|].
  pose proof (basic_err inl st e). destruct (basicReadLine inl st) as [[line st1]| | |] eqn:E; cbn [bindP]; try congruence.
  apply basic_keeps in E as (_ & E2 & _). destruct (ml_content line) as [c|]; [|done].
  assert (H2 : forall line2 st2, (if startsWith [33] c then completeDirective inl line st1 else Got (line, st1)) = Got (line2, st2) ->
    pp_conds st2 = pp_conds st).
  { intros line2 st2. destruct (startsWith [33] c); [|by intros [= <- <-]]. intros H1. apply complete_keeps in H1 as (_ & H1 & _). congruence. }
  assert (H3 : forall e', (if startsWith [33] c then completeDirective inl line st1 else Got (line, st1)) <> Err e').
  { intros e'. destruct (startsWith [33] c); [apply complete_err|done]. }
  destruct (if startsWith [33] c then _ else _) as [[line2 st2]|e'| |]; cbn [bindP]; try done; [|by destruct (H3 e')].
  specialize (H2 _ _ eq_refl). destruct (expandP _ _) as [x|e'| |] eqn:Ee; cbn [bindP]; try done; [|intros [= <-] _; by eapply expandP_err].
  destruct (isDirective _ x d v) as [[[isD d'] v']|e'| |] eqn:Ed; cbn [bindP]; try done; [|intros [= <-] _; by eapply isDirective_err].
  intros Hx Hc. assert (Hc2 : pp_conds st2 <> []) by congruence.
  destruct (negb isD); [by eapply IH|]. destruct (qeqb d' _); [destruct depth; [|by eapply IH]|].
  { unfold exitConditional in Hx. by destruct (pp_conds st2). }
  destruct (startsWith _ d'); [by eapply IH|]. destruct (startsWith _ d'); [destruct depth; [done|by eapply IH]|by eapply IH].
Qed.

(** ** The stack of files *)
Definition stacked (fs : fsenv) (st : pp) : Prop := NoDup (names st) /\ Forall (fun n => fs_open fs n <> None) (names st).
Lemma stacked_onward fs st st' : onward st st' -> stacked fs st -> stacked fs st'.
Proof. intros [above E] [H1 H2]. unfold stacked. rewrite E in H1, H2. apply NoDup_app in H1 as (_ & _ & H1). apply Forall_app in H2 as [_ H2]. done. Qed.
Lemma open_stacked fs name st st' : internalOpenFile fs name st = Got st' -> stacked fs st -> stacked fs st'.
Proof.
  unfold internalOpenFile. destruct (negb _); [done|]. destruct (existsb _ _) eqn:E; [done|].
  destruct (fs_open fs _) as [[uni text]|] eqn:Eo; [|done]. intros [= <-] [H1 H2]. unfold stacked, names. cbn. split; constructor; try done; [|congruence].
  intros Hin. apply elem_of_list_In, in_map_iff in Hin as (f & Ef & Hf).
  assert (true = false); [|done]. rewrite <- E. symmetry. apply existsb_exists. exists f. split; [done|]. by apply qeqb_spec.
Qed.
(** A directive reads on, or opens one file. *)
Lemma eval_files fs v st z st' : evaluateExpression fs v st = Got (z, st') -> pp_files st' = pp_files st /\ pp_back st' = pp_back st /\ pp_macros st' = pp_macros st.
Proof.
  unfold evaluateExpression. destruct (expandP _ v); cbn [bindP]; try done. destruct (parseText _ _ _) as [[[[] lx] cmds]|]; try done.
  intros [= <- <-]. done.
Qed.
Inductive moves (inl : bool) (fs : fsenv) (st : pp) : pp -> Prop :=
| mv_same st' : pp_files st' = pp_files st -> pp_back st' = pp_back st -> moves inl fs st st'
| mv_skip st1 st' : pp_files st1 = pp_files st -> pp_back st1 = pp_back st -> skipConditional inl st1 = Got st' -> moves inl fs st st'
| mv_open name st' : internalOpenFile fs name st = Got st' -> moves inl fs st st'.
Lemma run_moves inl fs d v st st' : runDirective inl fs d v st = Got st' -> moves inl fs st st'.
Proof.
  assert (Henter : forall b st0, pp_files st0 = pp_files st -> pp_back st0 = pp_back st -> enterIf inl b st0 = Got st' -> moves inl fs st st').
  { intros b st0 H1 H2. unfold enterIf. destruct b; [intros [= <-]; by apply mv_same|]. intros H. by eapply mv_skip; [..|exact H]. }
  assert (Helse : forall b st0, pp_files st0 = pp_files st -> pp_back st0 = pp_back st -> elseif inl b st0 = Got st' -> moves inl fs st st').
  { intros b st0 H1 H2. unfold elseif. destruct (pp_conds st0); [done|]. destruct b; [intros [= <-]; by apply mv_same|].
    intros H. by eapply mv_skip; [..|exact H]. }
  unfold runDirective. cbv zeta. destruct (qeqb d _); [intros [= <-]; by apply mv_same|]. destruct (qeqb d _); [done|].
  destruct (qeqb d _); [intros [= <-]; by apply mv_same|].
  destruct (qeqb d _). { destruct (findIncludeFile _ _ _); cbn [bindP]; try done. apply mv_open. }
  destruct (qeqb d _). { destruct (evaluateExpression _ _ _) as [[z st1]| | |] eqn:E; cbn [bindP]; try done. apply eval_files in E as (E1 & E2 & _). by apply Henter. }
  destruct (qeqb d _); [by apply Henter|]. destruct (qeqb d _); [by apply Henter|].
  destruct (qeqb d _). { destruct (pp_conds st) as [|[] cs]; [done|intros [= <-]; by apply mv_same|intros H; by eapply mv_skip; [..|exact H]]. }
  destruct (qeqb d _). { destruct (pp_conds st) as [|[] cs]; [done| |intros H; by eapply mv_skip; [..|exact H]].
    destruct (evaluateExpression _ _ _) as [[z st1]| | |] eqn:E; cbn [bindP]; try done. apply eval_files in E as (E1 & E2 & _). by apply Helse. }
  destruct (qeqb d _). { destruct (pp_conds st) as [|f cs]; [done|]. by apply Helse. }
  destruct (qeqb d _). { destruct (pp_conds st) as [|f cs]; [done|]. by apply Helse. }
  destruct (qeqb d _). { unfold exitConditional. destruct (pp_conds st); [done|]. intros [= <-]. by apply mv_same. }
  destruct (qeqb d _); [intros [= <-]; by apply mv_same|done].
Qed.
Lemma parse_moves inl fs l st st' : parseDirective inl fs l st = Got (Some st') -> moves inl fs st st'.
Proof.
  unfold parseDirective. destruct (expandP _ l) as [e| | |]; cbn [bindP]; try done.
  destruct (isDirective _ e _ _) as [[[isD d] v]| | |]; cbn [bindP]; try done. destruct isD; [|done].
  destruct (runDirective _ _ _ _ _) as [st1| | |] eqn:E; cbn [bindP]; try done. intros [= <-]. by eapply run_moves.
Qed.
Lemma moves_stacked inl fs st st' : moves inl fs st st' -> stacked fs st -> stacked fs st'.
Proof.
  intros [st1 E _|st1 st2 E _ H|name st1 H] Hs.
  - eapply stacked_onward; [|exact Hs]. eapply onward_eq; [apply onward_refl|done].
  - apply skip_keeps in H as (_ & _ & H). eapply stacked_onward; [exact H|].
    eapply stacked_onward; [|exact Hs]. eapply onward_eq; [apply onward_refl|done].
  - by eapply open_stacked.
Qed.
Lemma parseMacro_files l st st' : parseMacro l st = Got (Some st') -> pp_files st' = pp_files st /\ pp_back st' = pp_back st.
Proof.
  unfold parseMacro. destruct l as [|c r]; [done|]. destruct (isMacroStart c); [|done]. destruct (equalsPos _ _ _); [|done].
  destruct (setMacroValue _ _ _); [|done]. by intros [= <-].
Qed.
Lemma step_stacked inl fs line st s : readStep inl fs line st = Got s -> stacked fs st ->
  match s with Again _ st' | Deliver _ st' => stacked fs st' end.
Proof.
  unfold readStep. destruct (basicReadLine inl st) as [[next st1]| | |] eqn:E; cbn [bindP]; try done.
  apply basic_keeps in E as (_ & _ & E). intros H Hs. pose proof (stacked_onward _ _ _ E Hs) as Hs1. clear E Hs. revert H.
  destruct (startsWith _ _).
  - unfold completeDirective. destruct (completeLoop _ _ _ _) as [[n2 st2]| | |] eqn:E; cbn [bindP]; try done.
    apply complete_keeps in E as (_ & _ & E). pose proof (stacked_onward _ _ _ E Hs1) as Hs2.
    destruct (parseDirective _ _ _ _) as [[st3|]| | |] eqn:Ep; cbn [bindP]; try done; intros [= <-]; [|done].
    cbn. apply parse_moves in Ep. by eapply moves_stacked.
  - set (line1 := if isComplete line then next else joinLines line next). destruct (negb _); [by intros [= <-]|].
    destruct (if inl then _ else _) as [m| | |] eqn:Em; cbn [bindP]; try done. destruct m as [st2|].
    + intros [= <-]. destruct inl; [done|]. apply parseMacro_files in Em as [Em _]. unfold stacked, names in *. by rewrite Em.
    + destruct (parseDirective _ _ _ _) as [[st3|]| | |] eqn:Ep; cbn [bindP]; try done; intros [= <-]; [|done].
      apply parse_moves in Ep. by eapply moves_stacked.
Qed.
Lemma loop_stacked inl fs n line st l st' : readLoop inl fs n line st = Got (l, st') -> stacked fs st -> stacked fs st'.
Proof.
  revert line st. induction n as [|n IH]; intros line st; cbn [readLoop]; [done|].
  destruct (readStep inl fs line st) as [s| | |] eqn:E; cbn [bindP]; try done. intros H Hs. apply step_stacked in E; [|done].
  destruct s as [line1 st1|l1 st1]; [by eapply IH|]. destruct l1; [by injection H as <- <-|]. destruct (pp_conds st1); [by injection H as <- <-|done].
Qed.
Lemma called_stacked fs st st' : called fs st st' -> stacked fs st -> stacked fs st'.
Proof. induction 1 as [|st inl n l st1 st' E _ IH]; [done|]. intros H. apply IH. by eapply loop_stacked. Qed.

(** ** Reading comes to an end *)
Section term.
  Context (fs : fsenv) (known : list qstr) (Lmax : nat).
  Hypothesis Hknown : forall name, fs_open fs name <> None -> name ∈ known.
  Hypothesis Hmax : forall name uni text, fs_open fs name = Some (uni, text) -> (length text <= Lmax)%nat.
  Hypothesis Htidy : tidy fs.
  Let N := length known.
  Let K := (2 * Lmax + 1)%nat.

  Definition pow (i : nat) : nat := (K ^ (N - i))%nat.
  Fixpoint W (files : list tfile) : nat :=
    match files with [] => 0%nat | f :: r => (2 * length (rd_text (tf_reader f)) * pow (length files) + W r)%nat end.
  Definition M (st : pp) : nat := (W (pp_files st) + length (pp_back st) * pow (length (pp_files st)))%nat.
  Lemma K_pos : (1 <= K)%nat. Proof. unfold K. lia. Qed.
  Lemma pow_pos i : (1 <= pow i)%nat.
  Proof. unfold pow. pose proof (Nat.pow_nonzero K (N - i)). pose proof K_pos. lia. Qed.
  Lemma pow_step i : (i < N)%nat -> (pow i = K * pow (S i))%nat.
  Proof. intros H. unfold pow. replace (N - i)%nat with (S (N - S i)) by lia. done. Qed.
  Lemma W_app above below : (W below <= W (above ++ below))%nat.
  Proof. induction above as [|f above IH]; [done|]. rewrite <- app_comm_cons. cbn [W]. lia. Qed.

  (** The files on the stack are those on the disk. *)
  Definition onDisk (f : tfile) : Prop := exists uni text, fs_open fs (tf_name f) = Some (uni, text) /\ later (openReader uni text) (tf_reader f).
  Definition good (st : pp) : Prop := NoDup (names st) /\ Forall onDisk (pp_files st).
  Lemma good_eq st st' : pp_files st' = pp_files st -> good st -> good st'.
  Proof. unfold good, names. by intros ->. Qed.
  Lemma good_length st : good st -> (length (pp_files st) <= N)%nat.
  Proof.
    intros [H1 H2]. rewrite <- (map_length tf_name). apply NoDup_incl_length; [by apply NoDup_ListNoDup|].
    intros n Hn. apply in_map_iff in Hn as (f & <- & Hf). apply elem_of_list_In, Hknown. rewrite Forall_forall in H2.
    destruct (H2 f) as (uni & text & -> & _); [by apply elem_of_list_In|done].
  Qed.
  (** The next line comes from the topmost file. *)
  Definition more (bang : bool) (st : pp) : Prop :=
    pp_back st = [] /\ exists f rest c k r, pp_files st = f :: rest /\ readerLine false (tf_reader f) = Some (MLine (Some c) k, r) /\
      (bang = false -> startsWith [33] c = false).
  (** [st1]: after reading a line that is not null in [st]. *)
  Definition paid (w : nat) (p : nat) (st : pp) : Prop := (W (pp_files st) + p * pow (length (pp_files st)) <= w)%nat.
  Lemma read_top st l st1 : basicReadLine false st = Got (l, st1) -> pp_back st = [] -> good st ->
    pp_back st1 = [] /\ good st1 /\
    ((l = MLine None CNone /\ pp_files st1 = []) \/
     (exists c k, l = MLine (Some c) k /\ paid (W (pp_files st)) 2 st1 /\ (k <> CNone -> more (startsWith [33] c) st1))).
  Proof.
    intros E Hb [Hn Hd]. unfold basicReadLine in E. rewrite Hb in E.
    destruct (nextLine false (pp_files st)) as [[l0 files]| | |] eqn:En; cbn [bindP] in E; try done. injection E as <- <-. cbn [pp_files pp_back].
    destruct (nextLine_cases _ _ _ _ En) as [[-> ->]|(above & f & below & r' & c & k & Ef & -> & Er & ->)].
    - split_and!; [done| |by left]. split; constructor.
    - pose proof Hd as Hd0. unfold good, names in *. rewrite Ef in Hn, Hd. rewrite map_app in Hn. apply NoDup_app in Hn as (_ & _ & Hn).
      apply Forall_app in Hd as [_ Hd]. inversion Hd as [|? ? (uni & text & Ho & Hla) Hd']; subst.
      assert (Hla' : later (openReader uni text) r') by (eapply la_read; done).
      split_and!; [done|done|constructor; [|done]; exists uni, text; done|].
      right. exists c, k. split_and!; [done| |].
      + unfold paid. cbn [pp_files]. change (W (pp_files (st <| pp_files := ?x |>))) with (W x).
        rewrite Ef. pose proof (W_app above (f :: below)). cbn [W length tf_reader pp_files set] in *.
        destruct (readerLine_cases _ _ _ _ Er) as [?|(c' & k' & [= <- <-] & Hl)]; [done|].
        assert (2 * length (rd_text r') * pow (S (length below)) + 2 * pow (S (length below)) <= 2 * length (rd_text (tf_reader f)) * pow (S (length below)))%nat by nia.
        cbn. lia.
      + intros Hk. split; [done|]. destruct (Htidy _ _ _ _ _ _ _ Ho Hla Er Hk) as (c' & k' & r3 & Er3 & Hbang).
        eexists _, _, c', k', r3. split_and!; [done|done|done].
  Qed.
  Lemma read_more bang st l st1 : basicReadLine false st = Got (l, st1) -> more bang st -> exists c k, l = MLine (Some c) k /\ (bang = false -> startsWith [33] c = false).
  Proof.
    intros E (Hb & f & rest & c & k & r & Ef & Er & Hbang). unfold basicReadLine in E. rewrite Hb, Ef in E. cbn [nextLine] in E. rewrite Er in E.
    cbn [ml_content bindP] in E. injection E as <- <-. eauto.
  Qed.
  Lemma paid_mono w p q st : paid w p st -> (q <= p)%nat -> paid w q st.
  Proof. unfold paid. intros H Hq. assert (q * pow (length (pp_files st)) <= p * pow (length (pp_files st)))%nat by nia. lia. Qed.
  Lemma complete_top w p n line st line' st' : completeLoop false n line st = Got (line', st') -> pp_back st = [] -> good st ->
    paid w p st -> (p <= 2)%nat -> (isComplete line = false -> more true st) -> pp_back st' = [] /\ good st' /\ paid w p st'.
  Proof.
    revert line st. induction n as [|n IH]; intros line st; cbn [completeLoop]; destruct (isComplete line) eqn:Ec;
      try (by intros [= <- <-]); try done.
    destruct (basicReadLine false st) as [[next st1]| | |] eqn:E; cbn [bindP]; try done. intros H Hb Hg Hp Hp2 Hm.
    destruct (read_more _ _ _ _ E (Hm eq_refl)) as (c & k & -> & _). cbn [ml_content] in H.
    destruct (read_top _ _ _ E Hb Hg) as (Hb1 & Hg1 & [[? _]|(c' & k' & [= <- <-] & Hp1 & Hm1)]); [done|].
    eapply IH; [exact H|done..| |done|].
    - unfold paid in *. pose proof (paid_mono _ 2 p st1 Hp1 Hp2). unfold paid in *. lia.
    - intros Hk. assert (k <> CNone) as Hk' by (intros ->; done). destruct (Hm1 Hk') as (Hx & f & rest & c' & k' & r & ? & ? & ?). split; [done|]. by eexists _, _, _, _, _.
  Qed.
  Lemma skip_top n depth d v st st' : skipLoop false n depth d v st = Got st' -> pp_back st = [] -> good st ->
    good st' /\ (length (pp_back st') <= 1)%nat /\ paid (W (pp_files st)) (length (pp_back st')) st'.
  Proof.
    revert depth d v st. induction n as [|n IH]; intros depth d v st; cbn [skipLoop]; [done|].
    destruct (basicReadLine false st) as [[line st1]| | |] eqn:E; cbn [bindP]; try done. intros H Hb Hg. revert H.
    destruct (read_top _ _ _ E Hb Hg) as (Hb1 & Hg1 & [[-> Hf1]|(c & k & -> & Hp1 & Hm1)]); cbn [ml_content].
    { intros [= <-]. split_and!; [done|rewrite Hb1; cbn; lia|]. unfold paid. rewrite Hb1, Hf1. cbn. lia. }
    assert (H2 : forall line2 st2, (if startsWith [33] c then completeDirective false (MLine (Some c) k) st1 else Got (MLine (Some c) k, st1)) = Got (line2, st2) ->
      pp_back st2 = [] /\ good st2 /\ paid (W (pp_files st)) 2 st2).
    { intros line2 st2. destruct (startsWith [33] c) eqn:Eb; [|by intros [= <- <-]]. intros H.
      eapply complete_top; [exact H|done..|]. intros Hk. apply Hm1. by intros ->. }
    destruct (if startsWith [33] c then _ else _) as [[line2 st2]| | |]; cbn [bindP]; try done.
    destruct (H2 _ _ eq_refl) as (Hb2 & Hg2 & Hp2). clear H2. destruct (expandP _ _) as [e| | |]; cbn [bindP]; try done.
    destruct (isDirective _ e d v) as [[[isD d'] v']| | |]; cbn [bindP]; try done.
    assert (Hrec : forall depth d v, skipLoop false n depth d v st2 = Got st' ->
      good st' /\ (length (pp_back st') <= 1)%nat /\ paid (W (pp_files st)) (length (pp_back st')) st').
    { intros depth' d1 v1 H. destruct (IH _ _ _ _ H Hb2 Hg2) as (G1 & G2 & G3). split_and!; [done..|]. unfold paid in *. lia. }
    destruct (negb isD); [apply Hrec|]. destruct (qeqb d' _); [destruct depth; [|apply Hrec]|].
    { unfold exitConditional. destruct (pp_conds st2); [done|]. intros [= <-]. split_and!; [done| |].
      - cbn. rewrite Hb2. cbn. lia.
      - cbn. rewrite Hb2. cbn. apply (paid_mono _ 2); [exact Hp2|lia]. }
    destruct (startsWith _ d'); [apply Hrec|]. destruct (startsWith _ d'); [destruct depth; [|apply Hrec]|apply Hrec].
    intros [= <-]. split_and!; [done| |].
    - cbn. rewrite Hb2. cbn. lia.
    - cbn. rewrite Hb2. cbn. apply (paid_mono _ 2); [exact Hp2|lia].
  Qed.
  Lemma open_top name st st' : internalOpenFile fs name st = Got st' -> good st -> pp_back st = [] ->
    good st' /\ pp_back st' = [] /\ (W (pp_files st') < W (pp_files st) + pow (length (pp_files st)))%nat.
  Proof.
    unfold internalOpenFile. destruct (negb _); [done|]. destruct (existsb _ _) eqn:E; [done|].
    destruct (fs_open fs _) as [[uni text]|] eqn:Eo; [|done]. intros [= <-] [H1 H2] Hb. cbn.
    match goal with |- good ?s /\ _ => assert (Hg : good s) end.
    { split; unfold names; cbn; constructor; try done; [|exists uni, text; by split; [|constructor]].
      intros Hin. apply elem_of_list_In, in_map_iff in Hin as (f & Ef & Hf).
      assert (true = false); [|done]. rewrite <- E. symmetry. apply existsb_exists. exists f. split; [done|]. by apply qeqb_spec. }
    split_and!; [done..|]. pose proof (good_length _ Hg) as Hn. cbn in Hn.
    rewrite (pow_step (length (pp_files st))) by lia. pose proof (Hmax _ _ _ Eo). pose proof (pow_pos (S (length (pp_files st)))).
    assert (length text * (2 * pow (S (length (pp_files st)))) <= Lmax * (2 * pow (S (length (pp_files st)))))%nat by nia.
    unfold K. nia.
  Qed.
  Lemma moves_top w st st' : moves false fs st st' -> good st -> pp_back st = [] -> paid w 1 st ->
    good st' /\ (length (pp_back st') <= 1)%nat /\ (M st' < w)%nat.
  Proof.
    intros Hm Hg Hb Hp. unfold paid in Hp. pose proof (pow_pos (length (pp_files st))). unfold M.
    destruct Hm as [st' E1 E2|st1 st' E1 E2 Hs|name st' Ho].
    - rewrite E1, E2, Hb. cbn. split_and!; [by eapply good_eq|lia..].
    - rewrite <- E2 in Hb. assert (Hg1 : good st1) by (by eapply good_eq). destruct (skip_top _ _ _ _ _ _ Hs Hb Hg1) as (G1 & G2 & G3).
      split_and!; [done..|]. unfold paid in G3. rewrite E1 in G3. lia.
    - destruct (open_top _ _ _ Ho Hg Hb) as (G1 & G2 & G3). rewrite G2. cbn. split_and!; [done|lia..].
  Qed.

  Definition lineOk (line : mline) (st : pp) : Prop := isComplete line = true \/ more false st.
  Lemma step_top line st s : readStep false fs line st = Got s -> good st -> (length (pp_back st) <= 1)%nat -> lineOk line st ->
    match s with
    | Again line' st' => good st' /\ (length (pp_back st') <= 1)%nat /\ lineOk line' st' /\ (M st' < M st)%nat
    | Deliver (Some _) st' => good st' /\ (length (pp_back st') <= 1)%nat /\ (M st' < M st)%nat
    | Deliver None _ => True
    end.
  Proof.
    intros H Hg Hb Hl. revert H. unfold readStep. destruct (basicReadLine false st) as [[next st1]| | |] eqn:E; cbn [bindP]; try done.
    assert (Hread : pp_back st1 = [] /\ good st1 /\
      ((next = MLine None CNone /\ isComplete line = true) \/
       (exists c k, next = MLine (Some c) k /\ paid (M st) 1 st1 /\ (k <> CNone -> more (startsWith [33] c) st1) /\
          (isComplete line = false -> startsWith [33] c = false)))).
    { destruct (pp_back st) as [|b bs] eqn:Eb.
      - destruct (read_top _ _ _ E Eb Hg) as (G1 & G2 & [[-> Hf]|(c & k & -> & G3 & G4)]); split_and!; [done..| |done|done|].
        + left. split; [done|]. destruct Hl as [?|Hm]; [done|]. destruct (read_more _ _ _ _ E Hm) as (? & ? & ? & _). done.
        + right. exists c, k. split_and!; [done| |done|].
          * unfold M. rewrite Eb. cbn. rewrite Nat.add_0_r. eapply paid_mono; [exact G3|lia].
          * intros Hc. destruct Hl as [?|Hm]; [congruence|]. destruct (read_more _ _ _ _ E Hm) as (? & ? & [= <- <-] & ?). auto.
      - destruct bs; [|cbn in Hb; lia]. unfold basicReadLine in E. rewrite Eb in E. injection E as <- <-. cbn.
        split_and!; [done|by eapply good_eq|]. right. exists b, CNone. split_and!; [done| |done|].
        + unfold M, paid. rewrite Eb. cbn. lia.
        + intros Hc. destruct Hl as [?|(Hm & _)]; congruence. }
    destruct Hread as (Hb1 & Hg1 & [[-> Hc]|(c & k & -> & Hp & Hm & Hbang)]).
    - cbn [contentOf ml_content default from_option id]. rewrite Hc. cbn. by intros [= <-].
    - cbn [contentOf ml_content default from_option id]. destruct (startsWith [33] c) eqn:Ebang.
      + assert (Hc : isComplete line = true) by (destruct (isComplete line); [done|by discriminate Hbang]).
        unfold completeDirective. destruct (completeLoop _ _ _ _) as [[n2 st2]| | |] eqn:E2; cbn [bindP]; try done.
        destruct (complete_top (M st) 1 _ _ _ _ _ E2 Hb1 Hg1 Hp ltac:(lia)) as (Hb2 & Hg2 & Hp2).
        { intros Hk. apply Hm. by intros ->. }
        destruct (parseDirective _ _ _ _) as [[st3|]| | |] eqn:Ep; cbn [bindP]; try done; intros [= <-]; cbn.
        * apply parse_moves in Ep. destruct (moves_top _ _ _ Ep Hg2 Hb2 Hp2) as (? & ? & ?). split_and!; [done..|by left|done].
        * unfold paid in Hp2. pose proof (pow_pos (length (pp_files st2))). split_and!; [done|rewrite Hb2; cbn; lia|by left|].
          unfold M at 1. rewrite Hb2. cbn. lia.
      + set (line1 := if isComplete line then _ else _).
        assert (Hcont : ml_cont line1 = k) by (unfold line1; by destruct (isComplete line)).
        assert (Hsome : exists x, ml_content line1 = Some x) by (unfold line1; destruct (isComplete line); cbn; eauto).
        assert (HM : (M st1 < M st)%nat).
        { unfold paid in Hp. pose proof (pow_pos (length (pp_files st1))). unfold M at 1. rewrite Hb1. cbn. lia. }
        assert (Hb1' : (length (pp_back st1) <= 1)%nat) by (rewrite Hb1; cbn; lia).
        destruct (isComplete line1) eqn:Ec1; cbn [negb].
        2:{ intros [= <-]. split_and!; [done..| |done]. right. apply Hm. intros ->. unfold isComplete in Ec1. by rewrite Hcont in Ec1. }
        destruct (parseMacro _ _) as [m| | |] eqn:Em; cbn [bindP]; try done. destruct m as [st2|].
        * intros [= <-]. apply parseMacro_files in Em as [Em1 Em2]. split_and!; [by eapply good_eq|by rewrite Em2|by left|].
          unfold M. rewrite Em1, Em2. done.
        * destruct (parseDirective _ _ _ _) as [[st3|]| | |] eqn:Ep; cbn [bindP]; try done; intros [= <-].
          -- apply parse_moves in Ep. destruct (moves_top _ _ _ Ep Hg1 Hb1 Hp) as (? & ? & ?). split_and!; [done..|by left|done].
          -- destruct Hsome as (x & ->). done.
  Qed.
  Lemma eval_not_out v st : evaluateExpression fs v st <> Out.
  Proof.
    unfold evaluateExpression. pose proof (expandP_not_out (pp_macros st) v). destruct (expandP _ v) as [e| | |]; cbn [bindP]; try done.
    unfold parseText. destruct (C43_total (Lexenv (fun n => isMacroDefined n (pp_macros st)) (fs_exists fs) (fs_system fs)) (pp_lex st) (toLocal e)) as (ts & lx & cmds & ->).
    { apply Forall_forall. intros c Hc. unfold toLocal in Hc. unfold byte.
      assert (Hz : forall l c, c ∈ uptoChar 0 l -> c ∈ l /\ c <> 0).
      { clear. induction l as [|x l IH]; intros c; cbn; [by intros ?%not_elem_of_nil|]. destruct (N.eqb_spec x 0); [by intros ?%not_elem_of_nil|].
        intros [->|Hc]%elem_of_cons; [by split; [left|]|]. destruct (IH _ Hc). split; [by right|done]. }
      apply Hz in Hc as [Hc Hn]. apply elem_of_list_In, in_map_iff in Hc as (x & <- & _). destruct (N.ltb_spec x 256); lia. }
    pose proof (C22_terminates ts). destruct (parse ts); done.
  Qed.
  Lemma run_not_out inl d v st : runDirective inl fs d v st <> Out.
  Proof.
    assert (Henter : forall b st0, enterIf inl b st0 <> Out) by (intros [] st0; [done|apply skip_not_out]).
    assert (Helse : forall b st0, elseif inl b st0 <> Out) by (intros b st0; unfold elseif; destruct (pp_conds st0); [done|]; destruct b; [done|apply skip_not_out]).
    unfold runDirective. cbv zeta. do 3 (destruct (qeqb d _); [done|]).
    destruct (qeqb d _). { unfold findIncludeFile. cbv zeta. destruct (find _ _); cbn [bindP]; [|done]. unfold internalOpenFile. repeat case_match; done. }
    destruct (qeqb d _). { pose proof (eval_not_out v st). destruct (evaluateExpression _ _ _) as [[]| | |]; cbn [bindP]; done. }
    destruct (qeqb d _); [apply Henter|]. destruct (qeqb d _); [apply Henter|].
    destruct (qeqb d _). { destruct (pp_conds st) as [|[] ?]; [done..|apply skip_not_out]. }
    destruct (qeqb d _). { destruct (pp_conds st) as [|[] ?]; [done| |apply skip_not_out]. pose proof (eval_not_out v st).
      destruct (evaluateExpression _ _ _) as [[]| | |]; cbn [bindP]; done. }
    destruct (qeqb d _). { destruct (pp_conds st); done. }
    destruct (qeqb d _). { destruct (pp_conds st); done. }
    destruct (qeqb d _). { unfold exitConditional. by destruct (pp_conds st). }
    destruct (qeqb d _); done.
  Qed.
  Lemma parse_not_out inl l st : parseDirective inl fs l st <> Out.
  Proof.
    unfold parseDirective. pose proof (expandP_not_out (pp_macros st) l). destruct (expandP _ l) as [e| | |]; cbn [bindP]; try done.
    pose proof (isDirective_not_out (pp_macros st) e [] []). destruct (isDirective _ e _ _) as [[[[] d] v]| | |]; cbn [bindP]; try done.
    pose proof (run_not_out inl d v st). destruct (runDirective _ _ _ _ _); cbn [bindP]; done.
  Qed.
  Lemma parseMacro_not_out l st : parseMacro l st <> Out.
  Proof. unfold parseMacro. repeat case_match; done. Qed.
  Lemma step_not_out inl line st : readStep inl fs line st <> Out.
  Proof.
    unfold readStep. pose proof (basic_not_out inl st). destruct (basicReadLine inl st) as [[next st1]| | |]; cbn [bindP]; try done.
    destruct (startsWith _ _).
    - pose proof (complete_not_out inl next st1). destruct (completeDirective _ _ _) as [[n2 st2]| | |]; cbn [bindP]; try done.
      pose proof (parse_not_out inl (contentOf n2) st2). destruct (parseDirective _ _ _ _); cbn [bindP]; done.
    - set (line1 := if isComplete line then _ else _). destruct (negb _); [done|].
      assert (Hm : (if inl then Got None else parseMacro (contentOf line1) st1) <> Out) by (destruct inl; [done|apply parseMacro_not_out]).
      destruct (if inl then _ else _) as [[|]| | |]; cbn [bindP]; try done.
      pose proof (parse_not_out inl (contentOf line1) st1). destruct (parseDirective _ _ _ _) as [[]| | |]; cbn [bindP]; done.
  Qed.
  Lemma loop_ends : forall m line st, M st = m -> good st -> (length (pp_back st) <= 1)%nat -> lineOk line st ->
    exists n, match readLoop false fs n line st with
              | Out => False
              | Got (Some _, st') => good st' /\ (length (pp_back st') <= 1)%nat /\ (M st' < m)%nat
              | _ => True
              end.
  Proof.
    induction m as [m IH] using lt_wf_ind. intros line st HM Hg Hb Hl. destruct (readStep false fs line st) as [s| | |] eqn:E.
    - pose proof (step_top _ _ _ E Hg Hb Hl) as Hs. destruct s as [line' st'|l st'].
      + destruct Hs as (G1 & G2 & G3 & G4). destruct (IH (M st') ltac:(lia) line' st' eq_refl G1 G2 G3) as (n & Hn). exists (S n).
        cbn [readLoop]. rewrite E. cbn [bindP]. destruct (readLoop false fs n line' st') as [[[l|] st'']| | |]; try done.
        destruct Hn as (? & ? & ?). split_and!; [done..|lia].
      + exists 1%nat. cbn [readLoop]. rewrite E. cbn [bindP]. destruct l as [l|].
        * destruct Hs as (? & ? & ?). split_and!; [done..|lia].
        * by destruct (pp_conds st').
    - exists 1%nat. cbn [readLoop]. by rewrite E.
    - exists 1%nat. cbn [readLoop]. by rewrite E.
    - by apply step_not_out in E.
  Qed.
  Lemma calls_end : forall m st, M st = m -> good st -> (length (pp_back st) <= 1)%nat -> ends fs st.
  Proof.
    induction m as [m IH] using lt_wf_ind. intros st HM Hg Hb.
    destruct (loop_ends m (MLine None CNone) st HM Hg Hb ltac:(by left)) as (n & Hn).
    destruct (readLoop false fs n (MLine None CNone) st) as [[[l|] st']|e| |] eqn:E; [..|done].
    - destruct Hn as (? & ? & ?). eapply en_line; [exact E|]. by eapply IH.
    - by eapply en_end.
    - by eapply en_err.
    - by eapply en_ub.
  Qed.
End term.
Lemma open_good fs name st st' : openFile fs name st = Got st' -> pp_back st = [] -> good fs st' /\ stacked fs st' /\ pp_back st' = [].
Proof.
  unfold openFile, internalOpenFile. destruct (negb _); [done|]. cbn [pp_files existsb]. destruct (existsb _ _); [done|].
  destruct (fs_open fs _) as [[uni text]|] eqn:Eo; [|done]. intros [= <-] Hb. unfold good, stacked, names. cbn. split_and!; try done.
  - constructor; [apply not_elem_of_nil|constructor].
  - constructor; [|constructor]. exists uni, text. by split; [|constructor].
  - constructor; [apply not_elem_of_nil|constructor].
  - constructor; [congruence|constructor].
Qed.
Lemma texts_bound fs (known : list qstr) : (forall name, fs_open fs name <> None -> name ∈ known) ->
  exists L, forall name uni text, fs_open fs name = Some (uni, text) -> (length text <= L)%nat.
Proof.
  intros H. exists (list_max (map (fun n => match fs_open fs n with Some (_, t) => length t | None => 0%nat end) known)).
  intros name uni text E. assert (Hin : name ∈ known) by (apply H; congruence).
  assert (Hall := proj1 (list_max_le (map (fun n => match fs_open fs n with Some (_, t) => length t | None => 0%nat end) known) _) (le_n _)).
  rewrite List.Forall_forall in Hall. specialize (Hall (length text)). apply Hall. apply in_map_iff. exists name. rewrite E. split; [done|]. by apply elem_of_list_In.
Qed.
Lemma open_ends fs (known : list qstr) name st st' : (forall n, fs_open fs n <> None -> n ∈ known) -> tidy fs -> pp_back st = [] ->
  openFile fs name st = Got st' -> ends fs st'.
Proof.
  intros Hk Ht Hb E. destruct (texts_bound _ _ Hk) as (L & HL). destruct (open_good _ _ _ _ E Hb) as (Hg & _ & Hb').
  eapply (calls_end fs known L); [done..|rewrite Hb'; cbn; lia].
Qed.
