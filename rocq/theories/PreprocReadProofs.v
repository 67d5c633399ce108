(** Lemmas about reading lines in the preprocessor: progress, enough fuel, the stack of files. *)
From Coq Require Import Ascii String.
From stdpp Require Import prelude gmap relations.
From RecordUpdate Require Import RecordUpdate.
From Verif Require Import Base BaseProofs Macro MacroSpec MacroProofs MacroProps PPExpr PPExprProofs PPExprProps PPLex PPLexSpec PPLexProofs PPLexProps
  LineReader LineReaderSpec LineReaderProofs Preproc PreprocSpec PreprocProofs.
Local Open Scope N_scope.

(** ** The reader *)
Lemma cutLine_length n rest l r : cutLine n rest = (l, r) -> (length l + length r = length rest)%nat.
Proof.
  revert rest l r. induction n as [|n IH]; intros [|c rest] l r; cbn; try (by intros [= <- <-]).
  destruct (c =? 10); [by intros [= <- <-]|]. destruct (cutLine n rest) as [l1 r1] eqn:E. intros [= <- <-].
  cbn. rewrite <- (IH _ _ _ E). lia.
Qed.
Lemma cutLine_nonempty n c rest l r : cutLine (S n) (c :: rest) = (l, r) -> l <> [].
Proof. cbn. destruct (c =? 10); [by intros [= <- <-]|]. destruct (cutLine n rest). by intros [= <- <-]. Qed.
Lemma crlf_nil l : crlf l = [] -> l = [].
Proof.
  unfold crlf. destruct (endsWith [13; 10] l); [|done]. intros H. apply app_eq_nil in H as [_ H]. done.
Qed.
Lemma crlf_nil' : crlf [] = [].
Proof. done. Qed.
Lemma dev_shrinks n rest l r : devReadLine n rest = Some (l, r) -> (length r <= length rest)%nat /\ (l <> [] -> length r < length rest)%nat.
Proof.
  unfold devReadLine. destruct (Nat.ltb n 2); [done|]. destruct (cutLine (n - 1) rest) as [l0 r0] eqn:E. intros [= <- <-].
  pose proof (cutLine_length _ _ _ _ E). split; [lia|]. intros Hl. destruct l0; [done|]. cbn in *. lia.
Qed.
Lemma readMore_shrinks grow fuel size buf rest b s t : readMore grow fuel size buf rest = Some (b, s, t) -> (length t <= length rest)%nat.
Proof.
  revert size buf rest. induction fuel as [|fuel IH]; intros size buf rest; cbn [readMore]; destruct (lastIs 10 buf); [by intros [= <- <- <-]| |by intros [= <- <- <-]|].
  - destruct rest; by intros [= <- <- <-].
  - destruct rest as [|c rest]; [by intros [= <- <- <-]|]. destruct (devReadLine _ _) as [[more r]|] eqn:E; [|by intros [= <- <- <-]].
    destruct more as [|m more]; [by intros [= <- <- <-]|]. destruct (Nat.ltb _ _); [done|]. intros H. apply IH in H.
    apply dev_shrinks in E as [E _]. lia.
Qed.
Lemma read8_shrinks grow fuel size rest l s t : readLine8 grow fuel size rest = RLine l s t ->
  (length t < length rest)%nat /\ exists c k, l = MLine (Some c) k.
Proof.
  revert size rest. induction fuel as [|fuel IH]; intros size rest; cbn [readLine8]; [done|].
  destruct (devReadLine _ _) as [[l0 r]|] eqn:E; [|done]. destruct l0 as [|x l0]; [done|].
  apply dev_shrinks in E as [_ E]. specialize (E ltac:(done)).
  destruct (Nat.ltb _ _); [done|]. destruct (readMore _ _ _ _ _) as [[[buf size'] r']|] eqn:Em; [|done].
  apply readMore_shrinks in Em. destruct (match buf with [] => _ | _ => _ end).
  - intros H. apply IH in H as [H1 H2]. split; [lia|done].
  - destruct (Nat.ltb _ _); [|done]. intros [= <- <- <-]. split; [lia|]. unfold classify. repeat case_match; eauto.
Qed.
Lemma cutText_length rest l r : cutText rest = (l, r) -> (length l + length r <= length rest)%nat /\ (rest <> [] -> length r < length rest)%nat.
Proof.
  revert l r. induction rest as [|c rest IH]; intros l r; cbn; [by intros [= <- <-]|].
  destruct (c =? 10); [intros [= <- <-]; cbn; lia|]. destruct (cutText rest) as [l1 r1]. intros [= <- <-].
  destruct (IH _ _ eq_refl) as [H _]. cbn. lia.
Qed.
Lemma readU_shrinks fuel rest l t : readLineU fuel rest = Some (l, t) ->
  (length t < length rest)%nat /\ exists c k, l = MLine (Some c) k.
Proof.
  revert rest. induction fuel as [|fuel IH]; intros rest; cbn [readLineU]; [done|].
  unfold streamReadLine. destruct rest as [|c rest]; [done|]. destruct (cutText (c :: rest)) as [l0 r0] eqn:E.
  apply cutText_length in E as [_ E]. specialize (E ltac:(done)). destruct (startsWith _ _).
  - intros H. apply IH in H as [H1 H2]. split; [lia|done].
  - intros [= <- <-]. split; [done|]. unfold classifyU. repeat case_match; eauto.
Qed.
Lemma readerLine_cases inl r l r' : readerLine inl r = Some (l, r') ->
  l = MLine None CNone \/ exists c k, l = MLine (Some c) k /\ (length (rd_text r') < length (rd_text r))%nat.
Proof.
  unfold readerLine. destruct inl.
  - destruct (rd_text r) as [|c t] eqn:Et; [intros [= <- <-]; by left|].
    destruct (cutLine _ _) as [l0 r0] eqn:E. pose proof (cutLine_length _ _ _ _ E). pose proof (cutLine_nonempty _ _ _ _ _ E).
    intros [= <- <-]. right. eexists _, _. split; [done|]. cbn in *. destruct l0; [done|]. cbn in *. lia.
  - destruct (rd_uni r).
    + destruct (readLineU _ _) as [[l0 t]|] eqn:E; intros [= <- <-]; [|by left]. right.
      apply readU_shrinks in E as (H & c & k & ->). eauto.
    + destruct (readLine8 _ _ _ _) as [l0 s t| |] eqn:E; [..|done]; intros [= <- <-]; [|by left]. right.
      apply read8_shrinks in E as (H & c & k & ->). eauto.
Qed.

(** ** Progress of basicReadLine *)
Lemma nextLine_cases inl files l files' : nextLine inl files = Got (l, files') ->
  (l = MLine None CNone /\ files' = []) \/
  exists above f below r' c k, files = above ++ f :: below /\ files' = Tfile (tf_name f) (tf_dir f) r' :: below /\
    readerLine inl (tf_reader f) = Some (l, r') /\ l = MLine (Some c) k.
Proof.
  induction files as [|f files IH]; cbn [nextLine]; [intros [= <- <-]; by left|].
  destruct (readerLine inl (tf_reader f)) as [[l0 r0]|] eqn:E; [|done].
  destruct (readerLine_cases _ _ _ _ E) as [->|(c & k & -> & Hl)]; cbn [ml_content].
  - intros H. destruct (IH H) as [?|(above & f1 & below & r' & c & k & -> & H2)]; [by left|]. right.
    exists (f :: above), f1, below, r', c, k. by split.
  - intros [= <- <-]. right. by exists [], f, files, r0, c, k.
Qed.
Definition textLeft (files : list tfile) : nat := list_sum (map (fun f => length (rd_text (tf_reader f))) files).
Lemma textLeft_app a b : textLeft (a ++ b) = (textLeft a + textLeft b)%nat.
Proof. unfold textLeft. by rewrite map_app, list_sum_app. Qed.
Lemma nextLine_left inl files l files' : nextLine inl files = Got (l, files') ->
  (textLeft files' <= textLeft files)%nat /\ (ml_content l <> None -> textLeft files' < textLeft files)%nat.
Proof.
  intros H. destruct (nextLine_cases _ _ _ _ H) as [[-> ->]|(above & f & below & r' & c & k & -> & -> & E & ->)].
  - split; [apply Nat.le_0_l|done].
  - destruct (readerLine_cases _ _ _ _ E) as [?|(c' & k' & [= <- <-] & Hl)]; [done|].
    rewrite textLeft_app. unfold textLeft. cbn. lia.
Qed.
Lemma basic_left inl st l st' : basicReadLine inl st = Got (l, st') ->
  (left st' <= left st)%nat /\ (ml_content l <> None -> left st' < left st)%nat.
Proof.
  unfold basicReadLine, left. fold (textLeft (pp_files st)). fold (textLeft (pp_files st')).
  destruct (pp_back st) as [|b bs] eqn:Eb.
  - destruct (nextLine inl (pp_files st)) as [[l0 fs]| | |] eqn:E; cbn; try done. intros [= <- <-]. cbn.
    apply nextLine_left in E. rewrite Eb. cbn. done.
  - intros [= <- <-]. split; [apply le_S, le_n|intros _; apply le_n].
Qed.
Lemma basic_not_out inl st : basicReadLine inl st <> Out.
Proof.
  unfold basicReadLine. destruct (pp_back st); [|done]. assert (nextLine inl (pp_files st) <> Out).
  { induction (pp_files st) as [|f fs IH]; [done|]. cbn. destruct (readerLine _ _) as [[l r]|]; [|done].
    by destruct (ml_content l). }
  by destruct (nextLine inl (pp_files st)) as [[]| | |].
Qed.

(** ** Enough fuel *)
Lemma complete_enough inl fuel line st : (left st < fuel)%nat -> completeLoop inl fuel line st <> Out.
Proof.
  revert line st. induction fuel as [|fuel IH]; intros line st Hl; [lia|]. cbn. destruct (isComplete line); [done|].
  destruct (basicReadLine inl st) as [[next st1]| | |] eqn:E; cbn; [|done..|by apply basic_not_out in E].
  destruct (ml_content next) eqn:En; [|done]. apply IH. apply basic_left in E as [_ E]. rewrite En in E. specialize (E ltac:(done)). lia.
Qed.
Lemma complete_mono inl n m line st r : completeLoop inl n line st = r -> r <> Out -> (n <= m)%nat -> completeLoop inl m line st = r.
Proof.
  revert m line st. induction n as [|n IH]; intros [|m] line st H Hr Hle; cbn in *; try lia; destruct (isComplete line); try done; try congruence.
  destruct (basicReadLine inl st) as [[next st1]| | |]; cbn in *; try done.
  destruct (ml_content next); [|done]. apply IH; [done..|lia].
Qed.
Lemma complete_fuel inl n line st r : completeLoop inl n line st = r -> r <> Out -> completeDirective inl line st = r.
Proof.
  intros H Hr. unfold completeDirective. destruct (Nat.le_gt_cases n (S (left st))).
  - by eapply complete_mono.
  - rewrite <- H. symmetry. eapply complete_mono; [done| |lia]. apply complete_enough. lia.
Qed.
Lemma complete_not_out inl line st : completeDirective inl line st <> Out.
Proof. apply complete_enough. lia. Qed.
Lemma expandP_got t s r : expandP t s = Got r <-> expands t s r.
Proof.
  unfold expandP, expands. rewrite <- expand_ok_iff. destruct (expandMacros _ _ _); split; intros H; try done; by injection H as ->.
Qed.
Lemma expandP_not_out t s : expandP t s <> Out.
Proof. unfold expandP. pose proof (C14_terminates (mt_macros t) false s). by destruct (expandMacros _ _ _). Qed.
Lemma expandP_plain t s : 36 ∉ s -> expandP t s = Got s.
Proof. intros H. unfold expandP. by rewrite expand_plain. Qed.
Lemma isDirective_not_out t e d v : isDirective t e d v <> Out.
Proof.
  destruct (parseDir e) as [[d' v']|] eqn:E.
  - rewrite (isDirective_some _ _ _ _ _ _ E). pose proof (expandP_not_out t v'). by destruct (expandP t v').
  - destruct (isDirective_none t e d v E) as [->| ->]; [done|]. pose proof (expandP_not_out t v). by destruct (expandP t v).
Qed.
Lemma complete_left inl n line st line' st' : completeLoop inl n line st = Got (line', st') -> (left st' <= left st)%nat.
Proof.
  revert line st. induction n as [|n IH]; intros line st; cbn; destruct (isComplete line); try done; try (by intros [= <- <-]).
  destruct (basicReadLine inl st) as [[next st1]| | |] eqn:E; cbn; try done. apply basic_left in E as [E _].
  destruct (ml_content next); [intros H; apply IH in H; lia|by intros [= <- <-]].
Qed.
Lemma skip_enough inl fuel depth d v st : (left st < fuel)%nat -> skipLoop inl fuel depth d v st <> Out.
Proof.
  revert depth d v st. induction fuel as [|fuel IH]; intros depth d v st Hl; [lia|]. cbn [skipLoop].
  destruct (basicReadLine inl st) as [[line st1]| | |] eqn:E; cbn [bindP]; [|done..|by apply basic_not_out in E].
  apply basic_left in E as [_ E]. destruct (ml_content line) as [c|] eqn:Ec; [|done]. specialize (E ltac:(done)).
  assert (H2 : forall line2 st2, (if startsWith [33] c then completeDirective inl line st1 else Got (line, st1)) = Got (line2, st2) ->
    (left st2 < fuel)%nat).
  { intros line2 st2. destruct (startsWith [33] c); [|intros [= <- <-]; lia]. intros H. apply complete_left in H. lia. }
  assert (H1 : (if startsWith [33] c then completeDirective inl line st1 else Got (line, st1)) <> Out).
  { destruct (startsWith [33] c); [apply complete_not_out|done]. }
  destruct (if startsWith [33] c then _ else _) as [[line2 st2]| | |]; cbn [bindP]; try done.
  specialize (H2 _ _ eq_refl). pose proof (expandP_not_out (pp_macros st2) (contentOf line2)).
  destruct (expandP (pp_macros st2) (contentOf line2)) as [e| | |]; cbn [bindP]; try done.
  pose proof (isDirective_not_out (pp_macros st2) e d v). destruct (isDirective (pp_macros st2) e d v) as [[[isD d'] v']| | |]; cbn [bindP]; try done.
  destruct (negb isD); [by apply IH|]. destruct (qeqb d' _); [destruct depth; [|by apply IH]|].
  { unfold exitConditional. by destruct (pp_conds st2). }
  destruct (startsWith _ d'); [by apply IH|]. destruct (startsWith _ d'); [destruct depth; [done|by apply IH]|by apply IH].
Qed.
Lemma skip_mono inl n m depth d v st r : skipLoop inl n depth d v st = r -> r <> Out -> (n <= m)%nat -> skipLoop inl m depth d v st = r.
Proof.
  revert m depth d v st. induction n as [|n IH]; intros [|m] depth d v st H Hr Hle; [|subst; done|lia|]; [cbn in H; congruence|].
  cbn [skipLoop] in *. destruct (basicReadLine inl st) as [[line st1]| | |]; cbn [bindP] in *; try done.
  destruct (ml_content line) as [c|]; [|done]. destruct (if startsWith [33] c then _ else _) as [[line2 st2]| | |]; cbn [bindP] in *; try done.
  destruct (expandP _ _) as [e| | |]; cbn [bindP] in *; try done.
  destruct (isDirective _ e d v) as [[[isD d'] v']| | |]; cbn [bindP] in *; try done.
  assert (n <= m)%nat by lia.
  destruct (negb isD); [by apply IH|]. destruct (qeqb d' _); [destruct depth; [done|by apply IH]|].
  destruct (startsWith _ d'); [by apply IH|]. destruct (startsWith _ d'); [destruct depth; [done|by apply IH]|by apply IH].
Qed.
Lemma skip_fuel inl n st r : skipLoop inl n 0 [] [] st = r -> r <> Out -> skipConditional inl st = r.
Proof.
  intros H Hr. unfold skipConditional. destruct (Nat.le_gt_cases n (S (left st))).
  - by eapply skip_mono.
  - rewrite <- H. symmetry. eapply skip_mono; [done| |lia]. apply skip_enough. lia.
Qed.
Lemma skip_not_out inl st : skipConditional inl st <> Out.
Proof. apply skip_enough. lia. Qed.
