(** What is remembered about files is true of the files that are not being made. *)
From stdpp Require Import prelude gmap.
From RecordUpdate Require Import RecordUpdate.
From Verif Require Import Base Data Infer UpToDate Graph Exec ExecSpec GraphProofs BuildProofs PruneProofs SchedInv TraceInv ExecProofs TermProofs ExecFacts FileCache.

Local Arguments markParents : simpl never.
Local Arguments removeLeaf : simpl never.
Local Arguments passes : simpl never.
Local Arguments cmdsRunning : simpl never.

(** *** The names of the targets never change. *)
Definition sameNames (mk mk' : mkfile) : Prop :=
  forall x, b_name <$> mk_targets mk' !! x = b_name <$> mk_targets mk !! x.
Lemma sameNames_refl mk : sameNames mk mk.
Proof. done. Qed.
Lemma sameNames_trans a b c : sameNames a b -> sameNames b c -> sameNames a c.
Proof. intros H1 H2 x. by rewrite (H2 x). Qed.
Lemma sameNames_setBlock' mk t b b0 : mk_targets mk !! t = Some b0 -> b_name b = b_name b0 -> sameNames mk (setBlock mk t b).
Proof.
  intros H Hn x. unfold setBlock; cbn. destruct (decide (t = x)) as [->|Hne].
  - rewrite lookup_insert, H. cbn. by rewrite Hn.
  - by rewrite lookup_insert_ne.
Qed.

Lemma upToDateCore_names sn mk t u mk' : upToDateCore sn mk t = (u, mk') -> sameNames mk mk'.
Proof.
  unfold upToDateCore. destruct (mk_targets mk !! t) as [b|] eqn:E; [|by intros [= <- <-]].
  set (b1 := match sn_stat sn (b_name b) with Some tm => setExists tm b | None => b end).
  assert (b_name b1 = b_name b) as Hb1 by (unfold b1; by destruct (sn_stat sn (b_name b))).
  assert (sameNames mk (setBlock mk t b1)) as H1 by by eapply sameNames_setBlock'.
  destruct (isNil _); intros [= <- <-]; [done|].
  eapply sameNames_trans; [exact H1|]. eapply sameNames_setBlock'; [cbn; by rewrite lookup_insert|]. by destruct (b_exists b1).
Qed.
Lemma forgetTime_names r t u mk' : forgetTime r t = (u, mk') -> sameNames (snd r) mk'.
Proof.
  destruct r as [u0 mk]. cbn. destruct (mk_targets mk !! t) as [b|] eqn:E; [|by intros [= <- <-]].
  destruct (negb u0 && b_exists b); intros [= <- <-]; [by eapply sameNames_setBlock'|done].
Qed.
Lemma isTargetUpToDateSnap_names sn mk t u mk' : isTargetUpToDateSnap sn mk t = (u, mk') -> sameNames mk mk'.
Proof.
  unfold isTargetUpToDateSnap. destruct (upToDateCore sn mk t) as [u1 mk1] eqn:E1. apply upToDateCore_names in E1.
  destruct (mk_targets mk1 !! t) as [b|] eqn:Eb; [|by intros [= <- <-]].
  destruct (if u1 && negb (isNil (b_rules b)) then _ else _) as [u2 mk2] eqn:E2.
  intros H%forgetTime_names. cbn in H. eapply sameNames_trans; [exact E1|]. eapply sameNames_trans; [|exact H]. clear H.
  destruct (u1 && negb (isNil (b_rules b))); [|by injection E2 as <- <-].
  cbv zeta in E2. destruct (_ <? _)%nat; [|by injection E2 as <- <-].
  set (mkx := setBlock mk1 t _) in E2.
  destruct (forgetTime (upToDateCore sn mkx t) t) as [u' mkx'] eqn:E3.
  destruct (upToDateCore sn mkx t) as [u3 mk3] eqn:E4.
  apply forgetTime_names in E3. cbn in E3. apply upToDateCore_names in E4.
  assert (sameNames mk1 mkx') as Hd.
  { eapply sameNames_trans; [|exact E3]. eapply sameNames_trans; [|exact E4]. by eapply sameNames_setBlock'. }
  destruct (mk_targets mkx' !! t) as [bx|] eqn:Ex; injection E2 as <- <-; [|done].
  eapply sameNames_trans; [exact Hd|]. by eapply sameNames_setBlock'.
Qed.
Lemma isTargetUpToDate_names w mk t u mk' : isTargetUpToDate w mk t = (u, mk') -> sameNames mk mk'.
Proof.
  unfold isTargetUpToDate. destruct (isTargetUpToDateSnap _ mk t) as [u1 mk1] eqn:E.
  intros [= <- <-]. apply isTargetUpToDateSnap_names in E. intros x. apply E.
Qed.

Section InferNames.
Context (xp : qstr -> option qstr).
Lemma applyToTarget_names be sn mk q t mk' q' : applyToTarget xp be sn mk q t = Some (mk', q') -> sameNames mk mk'.
Proof.
  unfold applyToTarget. destruct (mk_targets mk !! t) as [b|] eqn:E; [|by intros [= <- <-]].
  destruct (chooseRule sn mk b) as [r|]; [|by intros [= <- <-]].
  destruct (be && r_batch r); [intros [= <- <-]; by eapply sameNames_setBlock'|].
  unfold applySingle. destruct (instCommands _ _ _); [|done]. intros [= <- <-]. by eapply sameNames_setBlock'.
Qed.
Lemma applyToTargets_names be sn ts : forall mk q mk' q', applyToTargets xp be sn mk q ts = Some (mk', q') -> sameNames mk mk'.
Proof.
  induction ts as [|t ts IH]; intros mk q mk' q'; cbn; [by intros [= <- <-]|].
  destruct (applyToTarget xp be sn mk q t) as [[mk1 q1]|] eqn:E; [|done].
  intros H. eapply sameNames_trans; [by eapply applyToTarget_names|by eapply IH].
Qed.
Lemma batchCollect_names exe r ts : forall mk acc mk' ds, batchCollect mk exe r ts acc = (mk', ds) -> sameNames mk mk'.
Proof.
  induction ts as [|t ts IH]; intros mk acc mk' ds; cbn; [by intros [= <- <-]|].
  intros H. apply IH in H. eapply sameNames_trans; [|exact H].
  set (mk1 := match mk_targets mk !! t with Some b => setBlock mk t (clearRules b) | None => mk end).
  assert (sameNames mk mk1) as H1. { unfold mk1. destruct (mk_targets mk !! t) eqn:E; [by eapply sameNames_setBlock'|done]. }
  destruct (mk_targets mk1 !! exe) eqn:E; [|done]. eapply sameNames_trans; [exact H1|]. by eapply sameNames_setBlock'.
Qed.
Lemma applyBatch_names mk r b mk' : applyBatch xp mk r b = Some mk' -> sameNames mk mk'.
Proof.
  destruct b as [|exe b]; [by intros [= <-]|]. unfold applyBatch.
  destruct (batchCollect mk exe r (exe :: b) []) as [mk1 ds] eqn:E. apply batchCollect_names in E.
  destruct (instCommands _ _ _); [|done]. destruct (mk_targets mk1 !! exe) eqn:E1; intros [= <-]; [|done].
  eapply sameNames_trans; [exact E|]. by eapply sameNames_setBlock'.
Qed.
Lemma applyBatches_names r bs : forall mk mk', applyBatches xp mk r bs = Some mk' -> sameNames mk mk'.
Proof.
  induction bs as [|b bs IH]; intros mk mk'; cbn; [by intros [= <-]|].
  destruct (applyBatch xp mk r b) eqn:E; [|done]. intros H. eapply sameNames_trans; [by eapply applyBatch_names|by eapply IH].
Qed.
Lemma applyQueue_names j q rs : forall mk mk', applyQueue xp j mk q rs = Some mk' -> sameNames mk mk'.
Proof.
  induction rs as [|r rs IH]; intros mk mk'; cbn; [by intros [= <-]|].
  destruct (applyBatches xp mk r _) eqn:E; [|done]. intros H. eapply sameNames_trans; [by eapply applyBatches_names|by eapply IH].
Qed.
Lemma applyInferenceRules_names o sn mk ts mk' : applyInferenceRules xp o sn mk ts = Some mk' -> sameNames mk mk'.
Proof.
  unfold applyInferenceRules. destruct (applyToTargets xp (o_batch o) sn mk [] ts) as [[mk1 q]|] eqn:E; [|done].
  intros H. eapply sameNames_trans; [by eapply applyToTargets_names|by eapply applyQueue_names].
Qed.
End InferNames.

Section StepNames.
Context (xp : qstr -> option qstr) (prep : mkfile -> tid -> nat -> option (list command))
        (kind : command -> ckind) (w : world) (o : bopts).
Lemma collect_names g ls : forall mk ups mk', collectUpToDate w mk g ls = (ups, mk') -> sameNames mk mk'.
Proof.
  induction ls as [|t ls IH]; intros mk ups mk'; cbn -[decide]; [by intros [= <- <-]|].
  destruct (decide (stateOf g t = ExecutingState)); [apply IH|].
  destruct (isTargetUpToDate w mk t) as [u mk1] eqn:Eu. destruct (collectUpToDate w mk1 g ls) as [r mk2] eqn:Er.
  intros [= <- <-]. eapply sameNames_trans; [by eapply isTargetUpToDate_names|by eapply IH].
Qed.
Lemma pruneLoop_names fuel : forall mk g acc mk' g' acc', pruneLoop fuel w mk g acc = Some (mk', g', acc') -> sameNames mk mk'.
Proof.
  induction fuel as [|fuel IH]; intros mk g acc mk' g' acc'; cbn.
  { destruct (g_dirty g); [done|]. by intros [= <- <- <-]. }
  destruct (g_dirty g); [|by intros [= <- <- <-]].
  destruct (collectUpToDate w mk _ (g_leaves g)) as [ups mk1] eqn:Ec. intros H.
  eapply sameNames_trans; [by eapply collect_names|by eapply IH].
Qed.
Lemma findAvailable_names mk g r mk' g' ups : findAvailableTarget xp o w mk g = Ok (r, mk', g', ups) -> sameNames mk mk'.
Proof.
  unfold findAvailableTarget. destruct (isNil (g_leaves g)); [by intros [= <- <- <- <-]|].
  destruct (if o_all o then Some (mk, g, []) else pruneLoop _ w mk g []) as [[[mk1 g1] ups1]|] eqn:Ep; [|done].
  assert (sameNames mk mk1) as D. { destruct (o_all o); [by injection Ep as <- <- <-|by eapply pruneLoop_names]. }
  destruct (applyInferenceRules _ _ _ _ _) as [mk2'|] eqn:Ei; [|done].
  apply applyInferenceRules_names in Ei.
  set (mk2 := Mkfile (mk_targets mk2') _ _ _).
  assert (sameNames mk mk2) as D2 by (eapply sameNames_trans; [exact D|exact Ei]).
  destruct (firstIdle g1) as [t|]; intros [= <- <- <- <-]; [|done].
  destruct (o_all o); [|done]. destruct (isTargetUpToDate w mk2 t) as [u mk3] eqn:Eu.
  eapply sameNames_trans; [exact D2|]. by eapply isTargetUpToDate_names.
Qed.
Lemma findNextTarget_names fuel : forall mk g log r mk' g' log', findNextTarget xp w o fuel mk g log = Ok (r, mk', g', log') -> sameNames mk mk'.
Proof.
  induction fuel as [|fuel IH]; intros mk g log r mk' g' log'; [done|]. cbn [findNextTarget].
  destruct (findAvailableTarget xp o w mk g) as [[[[[t|] mk1] g1] ups]| |c| |] eqn:Ea; try done; apply findAvailable_names in Ea.
  2: { intros H. by injection H as <- <- <- <-. }
  cbv zeta. destruct (isNil _); [intros H; eapply sameNames_trans; [exact Ea|by eapply IH]|].
  destruct (o_keep o && _); [intros H; eapply sameNames_trans; [exact Ea|by eapply IH]|].
  intros H. by injection H as <- <- <- <-.
Qed.

Local Arguments findNextTarget : simpl never.

(** The events after the search for a target. *)
Definition lateEvent (mk : mkfile) (e : logev) : Prop :=
  match e with LUpToDate _ _ => False | LRoot _ m => sameNames mk m | _ => True end.
Definition later (s s' : est) : Prop :=
  (sameNames (e_mk s) (e_mk s') /\ (mk_tick (e_mk s) <= mk_tick (e_mk s'))%nat)
  /\ exists l, e_log s' = e_log s ++ l /\ Forall (lateEvent (e_mk s)) l.
Lemma later_refl s s' : e_mk s' = e_mk s -> e_log s' = e_log s -> later s s'.
Proof. intros E1 E2. split; [by rewrite E1|]. exists []. by rewrite E2, app_nil_r. Qed.
Lemma later_trans a b c : later a b -> later b c -> later a c.
Proof.
  intros [[N T] (l & E & F)] [[N' T'] (l' & E' & F')]. split; [split; [by eapply sameNames_trans|lia]|].
  exists (l ++ l'). split; [by rewrite E', E, app_assoc|]. apply Forall_app. split; [done|].
  eapply Forall_impl; [exact F'|]. intros [] H; cbn in *; try done. by eapply sameNames_trans.
Qed.
Lemma later_addLog l s : Forall (lateEvent (e_mk s)) l -> later s (addLog l s).
Proof. intros H. split; [done|]. by exists l. Qed.
Lemma late_cmds mk l : Forall cmdEvent l -> Forall (lateEvent mk) l.
Proof. intros H. eapply Forall_impl; [exact H|]. by intros []. Qed.
Lemma runCmds_late t cmds : forall codes launch r, runCmds kind t cmds codes launch = Some r ->
  Forall cmdEvent match r with RDone _ l | RProc _ l | RFatal l => l end.
Proof.
  induction cmds as [|c cmds IH]; intros codes launch r; cbn; [destruct codes; [|done]; intros [= <-]; constructor|].
  destruct (kind c).
  - destruct codes; [|done]. destruct launch; intros [= <-]; repeat constructor.
  - destruct codes as [|k codes]; [done|]. destruct (existsb _ _); [|done].
    destruct (c_max c <? k)%N; [destruct codes; [|done]; intros [= <-]; repeat constructor|].
    destruct (runCmds kind t cmds codes launch) as [r'|] eqn:E; [|done]. intros [= <-]. apply IH in E.
    destruct r'; cbn; by repeat constructor.
Qed.
Lemma later_wait n : forall k s, later s (waitFrom o n k s).
Proof.
  induction n as [|n IH]; intros k s; cbn; [by destruct (e_acquiring s); apply later_refl|].
  destruct (jobOf k s) as [j|]; [|apply IH]. destruct (procRunning j); [by apply later_refl|apply IH].
Qed.
Lemma later_child k t f s : later s (childFinished o k t f s).
Proof.
  rewrite childFinished_eq.
  assert (forall s', e_mk s' = e_mk s -> e_log s' = e_log s ++ [LEnd t f] -> later s s') as H0.
  { intros s' E1 E2. split; [by rewrite E1|]. exists [LEnd t f]. split; [done|by repeat constructor]. }
  assert (forall g2, later s (continue o k t f g2 s)) as Hc.
  { intros g2. unfold continue. destruct (f && negb (o_keep o)).
    - eapply later_trans; [|apply later_wait]. apply H0; unfold abort, afterChild; destruct f, (e_acq s); done.
    - apply H0; unfold afterChild; destruct f, (e_acq s); done. }
  destruct (f && o_keep o); [|done]. destruct (g_nodes (e_g s) !! t); [|by apply H0].
  destruct (markParents _ t (e_g s)); [done|by apply H0].
Qed.
Local Arguments childFinished : simpl never.
Lemma later_next ch s s' : buildNextTarget prep kind o ch s = Some s' -> later s s'.
Proof.
  intros Hb. unfold buildNextTarget in Hb. destruct (e_aborted s); [injection Hb as <-; by apply later_refl|].
  destruct (e_avail s) as [|k avail]; [injection Hb as <-; by apply later_refl|]. destruct (e_next s) as [t|]; [|injection Hb as <-; by apply later_refl].
  destruct (mk_targets (e_mk s) !! t) as [b|] eqn:Eb; [|injection Hb as <-; by apply later_refl].
  destruct (isNil (b_cmds b)).
  { injection Hb as <-. match goal with |- later _ (set _ _ (set _ _ (childFinished ?a ?b ?c ?d ?x))) => pose proof (later_child b c d x) as H; set (y := childFinished a b c d x) in * end.
    eapply (later_trans _ y); [|by apply later_refl]. eapply later_trans; [|exact H].
    split; [done|]. exists [LStart t []]. split; [done|by repeat constructor]. }
  destruct (prep (e_mk s) t (ch_prep ch)) as [[|c0 cmds0]|]; [injection Hb as <-; by apply later_refl| |injection Hb as <-; by apply later_refl].
  destruct (runCmds kind t (c0 :: cmds0) (ch_codes ch) (ch_launch ch)) as [r|] eqn:Er; [|done]. apply runCmds_late in Er.
  set (s1 := addLog [LStart t (c0 :: cmds0)] _) in Hb.
  assert (later s s1) as H1.
  { split; [split; [by eapply sameNames_setBlock'|done]|]. exists [LStart t (c0 :: cmds0)]. split; [done|by repeat constructor]. }
  assert (forall l, Forall cmdEvent l -> later s (addLog l s1)) as H2.
  { intros l Hl. eapply later_trans; [exact H1|]. by apply later_addLog, late_cmds. }
  destruct r as [failed l|rest l|l]; injection Hb as <-.
  - set (y := childFinished _ _ _ _ _). eapply (later_trans _ y); [|by apply later_refl].
    eapply later_trans; [by apply (H2 l)|apply later_child].
  - eapply later_trans; [by apply (H2 l)|by apply later_refl].
  - eapply later_trans; [by apply (H2 l)|by apply later_refl].
Qed.
Lemma inval_names mk : sameNames mk (invalidateTimeStamps mk).
Proof. intros t. cbn. rewrite lookup_fmap. by destruct (mk_targets mk !! t). Qed.
Lemma later_newRoot t s : later s (newRoot w t s).
Proof.
  unfold newRoot. destruct (buildGraph _ _ _ _); try by apply later_refl.
  split; [split; [done|cbn; lia]|]. exists [LRoot t (e_mk s)]. split; [done|]. by repeat constructor.
Qed.

(** A step: perhaps a search for a target, and then something else. *)
Definition searched (s : est) (es : list logev) (s1 : est) : Prop :=
  exists next mk g, e_next s = None /\ e_aborted s = false /\ e_acquiring s = AIdle
    /\ findNextTarget xp w o (S (S (size (g_nodes (e_g s))))) (e_mk s) (e_g s) [] = Ok (next, mk, g, es)
    /\ e_mk s1 = mk /\ e_log s1 = e_log s ++ es.
Lemma startProcesses_shape ch s s' : startProcesses xp prep kind w o ch s = Some s' ->
  later s s' \/ exists es s1, searched s es s1 /\ later s1 s'.
Proof.
  intros Hs. unfold startProcesses in Hs.
  destruct (e_aborted s) eqn:Eab; cbn [orb] in Hs; [injection Hs as <-; left; by apply later_refl|].
  destruct (bool_decide (e_acquiring s = AIdle)) eqn:Eaq; cbn [negb orb] in Hs; [|injection Hs as <-; left; by apply later_refl].
  apply bool_decide_eq_true in Eaq.
  destruct (isNil (e_avail s)); [injection Hs as <-; left; by apply later_refl|].
  assert (forall next mk g log, let s2 := addLog log (s <| e_next := next |> <| e_mk := mk |> <| e_g := g |>) in
    match next with
      | Some t =>
        if noneRunning o s2 then buildNextTarget prep kind o ch s2
        else Some (s2 <| e_acq ::= S |> <| e_acquiring := ARequested |>)
      | None =>
        if noneRunning o s2 then
          match e_pending s2 with
          | [] => Some (finishBuild o 0 s2)
          | None :: _ => Some (ended ECrash s2)
          | Some t :: pending =>
            let s1 := newRoot w t (s2 <| e_g ::= clearGraph |> <| e_mk ::= invalidateTimeStamps |>
                                   <| e_pending := pending |>) in
            Some (if e_end s1 then s1 else s1 <| e_queue ::= S |>)
          end
        else Some s2
    end = Some s' -> later s2 s') as Hrest.
  { intros next mk g log s2 H. destruct next as [t|].
    - destruct (noneRunning o s2); [by eapply later_next|]. injection H as <-. by apply later_refl.
    - destruct (noneRunning o s2); [|injection H as <-; by apply later_refl].
      destruct (e_pending s2) as [|[t|] pending]; [injection H as <-; by apply later_refl| |injection H as <-; by apply later_refl].
      cbv zeta in H. set (x := s2 <| e_g ::= clearGraph |> <| e_mk ::= invalidateTimeStamps |> <| e_pending := pending |>) in H.
      assert (later s2 (newRoot w t x)) as Hx.
      { eapply (later_trans _ x); [|apply later_newRoot]. split; [split; [apply inval_names|done]|]. exists []. by rewrite app_nil_r. }
      injection H as <-. destruct (e_end (newRoot w t x)); [done|]. eapply later_trans; [exact Hx|by apply later_refl]. }
  destruct (e_next s) as [t|] eqn:En.
  - left. apply (Hrest (Some t) (e_mk s) (e_g s) []) in Hs. eapply later_trans; [|exact Hs]. apply later_refl; [done|].
    cbn. by rewrite app_nil_r.
  - destruct (findNextTarget xp w o _ (e_mk s) (e_g s) []) as [[[[next mk] g] log]| |c| |] eqn:Ef;
      try (injection Hs as <-; left; by apply later_refl).
    right. exists log, (addLog log (s <| e_next := next |> <| e_mk := mk |> <| e_g := g |>)).
    split; [|by apply (Hrest next mk g log)]. exists next, mk, g. done.
Qed.
Lemma step_shape s e s' : step xp prep kind w o s e = Some s' -> later s s' \/ exists es s1, searched s es s1 /\ later s1 s'.
Proof.
  intros Hs. unfold step in Hs. destruct (e_end s); [done|]. destruct e as [ch| |ch|k code ch|k].
  - destruct (e_queue s) as [|q]; [done|]. by apply startProcesses_shape in Hs.
  - left. destruct (e_acquiring s); try done. injection Hs as <-. by apply later_refl.
  - left. destruct (e_acquiring s); try done. destruct (buildNextTarget _ _ _ _ _) as [s1|] eqn:Eb; [|done].
    apply later_next in Eb. assert (later s s1) as H1 by (eapply later_trans; [|exact Eb]; by apply later_refl).
    destruct (e_end s1); [by injection Hs as <-|].
    destruct (e_wait s) as [[k'|]|]; injection Hs as <-; done.
  - left. destruct (jobOf k s) as [j|] eqn:Ej; [|done]. destruct (decide (j_state j = JWatched)); [|done].
    destruct (code =? stillActive)%N; [injection Hs as <-; by apply later_refl|].
    unfold processExit in Hs. destruct (j_cmds j) as [|c rest]; [injection Hs as <-; by apply later_refl|].
    set (sx := addLog [LExit (j_target j) c code] s) in Hs.
    assert (later s sx) as H1 by (apply later_addLog; by repeat constructor).
    destruct (c_max c <? effectiveCode code)%N.
    { destruct (ch_codes ch); [|done]. injection Hs as <-. eapply later_trans; [exact H1|apply later_child]. }
    destruct (runCmds _ _ _ _ _) as [r|] eqn:Er; [|done]. apply runCmds_late in Er.
    assert (forall l, Forall cmdEvent l -> later s (addLog l sx)) as H2.
    { intros l Hl. eapply later_trans; [exact H1|]. by apply later_addLog, late_cmds. }
    destruct r as [failed l|rest' l|l]; injection Hs as <-.
    + match goal with |- later _ (match e_end ?x with _ => _ end) =>
        assert (later s x) as Hx by (eapply later_trans; [by apply (H2 l)|apply later_child]); destruct (e_end x); [done|] end.
      destruct (e_wait _) as [[k'|]|]; try done. destruct (failed && negb (o_keep o)); [done|]. destruct (Nat.eqb k k'); [|done].
      eapply later_trans; [exact Hx|apply later_wait].
    + match goal with |- later _ (if ?b then waitFrom _ _ _ ?x else _) =>
        assert (later s x) as Hx by (eapply later_trans; [by apply (H2 l)|by apply later_refl]); destruct b end; [|exact Hx].
      eapply later_trans; [exact Hx|apply later_wait].
    + eapply later_trans; [by apply (H2 l)|by apply later_refl].
  - left. destruct (jobOf k s) as [j|] eqn:Ej; [|done]. destruct (j_state j); try done. injection Hs as <-. by apply later_refl.
Qed.
Lemma step_names s e s' : step xp prep kind w o s e = Some s' -> sameNames (e_mk s) (e_mk s').
Proof.
  intros [[[H _] _]|(es & s1 & (next & mk & g & _ & _ & _ & Hf & Em & _) & [[H _] _])]%step_shape; [done|].
  apply findNextTarget_names in Hf. rewrite Em in H. by eapply sameNames_trans.
Qed.
End StepNames.

(** *** What is remembered *)
Section CacheOk.
Context (P : qstr -> Prop).
Definition remembersOk (c : cache) (d : disk) : Prop := forall name v, c !! name = Some v -> P name \/ d name = Some v.
Lemma ok_empty d : remembersOk ∅ d.
Proof. intros name v. by rewrite lookup_empty. Qed.
Lemma ok_ask d name c : remembersOk c d -> remembersOk (snd (fileInfo d name c)) d.
Proof.
  intros H. unfold fileInfo. destruct (c !! name); [done|]. destruct (d name) eqn:E; [|done]. cbn.
  intros x v. destruct (decide (name = x)) as [<-|Hne].
  - rewrite lookup_insert. intros [= <-]. by right.
  - rewrite lookup_insert_ne by done. apply H.
Qed.
Lemma ok_consults d names : forall c, remembersOk c d -> remembersOk (consults d names c) d.
Proof. induction names as [|n names IH]; intros c H; [done|]. cbn. by apply IH, ok_ask. Qed.
Lemma ok_change c d d' : (forall name, d' name <> d name -> P name) -> remembersOk c d -> remembersOk c d'.
Proof.
  intros Hd H name v Hc. destruct (H name v Hc) as [?|E]; [by left|].
  destruct (decide (d' name = d name)) as [->|Hn]; [by right|left; by apply Hd].
Qed.
Lemma ok_looks w c d n c' d' m : looks w P c d n c' d' m -> remembersOk c d -> remembersOk c' d'.
Proof.
  induction 1 as [|c d d1 n c' d' m Hd _ IH|c d names n c' d' m _ IH|c d names n c' d' m _ _ IH]; intros H; [done| | |]; apply IH.
  - by eapply ok_change.
  - by apply ok_consults.
  - by apply ok_consults.
Qed.
Lemma ok_current c d name : remembersOk c d -> not (P name) -> fst (fileInfo d name c) = d name.
Proof.
  intros H Hn. unfold fileInfo. destruct (c !! name) as [v|] eqn:E; [|by destruct (d name)].
  destruct (H _ _ E) as [?|Ed]; [done|]. by rewrite Ed.
Qed.
Lemma looks_sees w c d n c' d' m : looks w P c d n c' d' m -> remembersOk c d -> forall name, not (P name) ->
  forall k, (n <= k < m)%nat -> sn_stat (w k) name = d name.
Proof.
  induction 1 as [|c d d1 n c' d' m Hd _ IH|c d names n c' d' m _ IH|c d names n c' d' m Hs _ IH]; intros H name Hn k Hk; [lia| | |].
  - rewrite (IH ltac:(by eapply ok_change) name Hn k Hk).
    destruct (decide (d1 name = d name)) as [|Hne]; [done|]. by apply Hd in Hne.
  - apply (IH ltac:(by apply ok_consults) name Hn k Hk).
  - destruct (decide (k = n)) as [->|].
    + rewrite Hs. by apply ok_current.
    + apply (IH ltac:(by apply ok_consults) name Hn k ltac:(lia)).
Qed.
End CacheOk.

Lemma cleared_lookup mk l : forall c name v, clearFinished mk l c !! name = Some v ->
  c !! name = Some v /\ forall t f b, LEnd t f ∈ l -> mk_targets mk !! t = Some b -> b_name b <> name.
Proof.
  induction l as [|e l IH]; intros c name v; cbn.
  { intros H. split; [done|]. intros t f b Hin%elem_of_nil. done. }
  intros [H1 H2]%IH. destruct e as [r0 m0|t m0|t m0|t|t cs|t c0|t c0 k0|t f]; cbn in H1;
    try (split; [exact H1|]; intros t1 f1 b1 Hin; apply elem_of_cons in Hin as [Hin|Hin]; [discriminate Hin|]; by eapply H2).
  destruct (mk_targets mk !! t) as [b|] eqn:Eb.
  - unfold clearCacheForFile in H1. apply lookup_delete_Some in H1 as [Hne H1]. split; [done|].
    intros t1 f1 b1 Hin. apply elem_of_cons in Hin as [[= -> ->]|Hin]; [|by eapply H2].
    rewrite Eb. intros [= <-]. done.
  - split; [done|]. intros t1 f1 b1 Hin. apply elem_of_cons in Hin as [[= -> ->]|Hin]; [|by eapply H2]. by rewrite Eb.
Qed.

Section Own.
Context (xp : qstr -> option qstr) (prep : mkfile -> tid -> nat -> option (list command))
        (kind : command -> ckind) (w : world) (o : bopts) (own : tid -> qstr -> Prop).
Local Notation ownsOk := (ownsOk own).
Lemma ownsOk_names mk mk' : sameNames mk mk' -> ownsOk mk -> ownsOk mk'.
Proof.
  intros Hs H t name Ho. destruct (H t name Ho) as (b & Hb & Hn). specialize (Hs t). rewrite Hb in Hs. cbn in Hs.
  apply fmap_Some in Hs as (b' & Hb' & E). exists b'. split; [done|congruence].
Qed.
Lemma underWay_app log l t : underWay log t -> (forall f, LEnd t f ∉ l) -> underWay (log ++ l) t.
Proof.
  intros (pre & cmds & post & -> & Hn) Hl. exists pre, cmds, (post ++ l). split; [by rewrite <- app_assoc|].
  intros f [H|H]%elem_of_app; [by eapply Hn|by eapply Hl].
Qed.
Lemma underWay_new log l t cmds : LStart t cmds ∈ l -> (forall f, LEnd t f ∉ l) -> underWay (log ++ l) t.
Proof.
  intros (a & b & ->)%elem_of_list_split Hl. exists (log ++ a), cmds, b. split; [by rewrite <- app_assoc|].
  intros f H. apply (Hl f), elem_of_app. right. by right.
Qed.
Lemma endsIn_dec t (l : list logev) : (exists f, LEnd t f ∈ l) \/ (forall f, LEnd t f ∉ l).
Proof.
  induction l as [|e l [[f IH]|IH]]; [right; intros f; apply not_elem_of_nil|left; exists f; by right|].
  assert (forall e', e' ∈ e :: l -> e' = e \/ e' ∈ l) as Hc by (intros e' H; by apply elem_of_cons in H).
  destruct e as [r0 m0|t' m0|t' m0|t'|t' cs|t' c0|t' c0 k0|t' f]; try (right; intros f0 H; apply Hc in H as [H|H]; [discriminate H|by eapply IH]).
  destruct (decide (t' = t)) as [->|Hne].
  - left. exists f. by left.
  - right. intros f0 [[= -> ->]|H]%Hc; [done|by eapply IH].
Qed.
Lemma ok_step log l mk c d d2 : ownsOk mk -> remembersOk (beingMade own log) c d ->
  (forall name, d2 name <> d name -> beingMade own log name \/ madeBy own l name) ->
  remembersOk (beingMade own (log ++ l)) (clearFinished mk l c) d2.
Proof.
  intros Ho H Hd name v [Hc Hcl]%cleared_lookup.
  assert (forall t f, own t name -> LEnd t f ∈ l -> False) as Hend.
  { intros t f Hot He. destruct (Ho t name Hot) as (b & Hb & Hn). by eapply Hcl. }
  assert (beingMade own log name -> beingMade own (log ++ l) name) as H1.
  { intros (t & Hu & Hot). exists t. split; [|done]. apply underWay_app; [done|]. intros f He. by eapply Hend. }
  destruct (H name v Hc) as [Hb|E]; [left; auto|].
  destruct (decide (d2 name = d name)) as [Hs|Hne]; [right; congruence|]. left.
  destruct (Hd name Hne) as [Hb|(t & cmds & Hin & Hot)]; [auto|].
  exists t. split; [|done]. eapply underWay_new; [exact Hin|]. intros f He. by eapply Hend.
Qed.
Lemma cachedRun_ok s c d es s' c' d' : cachedRun xp prep kind w o own s c d es s' c' d' ->
  ownsOk (e_mk s) -> remembersOk (beingMade own (e_log s)) c d ->
  ownsOk (e_mk s') /\ remembersOk (beingMade own (e_log s')) c' d'.
Proof.
  induction 1 as [|s c d e s1 l c1 d1 d2 es s' c' d' (Hs & El & Hl) Hd _ IH]; intros Ho H; [done|].
  pose proof (ownsOk_names _ _ (step_names _ _ _ _ _ _ _ _ Hs) Ho) as Ho1. apply IH; [done|].
  rewrite El. apply (ok_step _ _ _ _ d1); [done| |done]. by eapply ok_looks.
Qed.
Lemma cachedRun_run s c d es s' c' d' : cachedRun xp prep kind w o own s c d es s' c' d' -> run xp prep kind w o s es = Some s'.
Proof. induction 1 as [|s c d e s1 l c1 d1 d2 es s' c' d' (Hs & El & Hl) Hd _ IH]; [done|]. cbn. by rewrite Hs. Qed.
Lemma apply_names mk names s0 : apply w o mk names = Ok s0 -> sameNames mk (e_mk s0).
Proof.
  assert (forall t rest q, sameNames mk (e_mk (newRoot w t (initState o mk rest q)))) as Hn.
  { intros t rest q. apply (later_newRoot w t (initState o mk rest q)). }
  unfold apply. destruct names as [|n ns].
  - destruct (decide (mk_targets mk = ∅)); [by intros [= <-]|]. destruct (mk_first mk) as [t|]; [|done].
    repeat case_match; intros; simplify_eq; apply Hn.
  - repeat case_match; intros; simplify_eq; try apply Hn; done.
Qed.
Lemma cachedBuild_ok mk names es s c d : ownsOk mk -> cachedBuild xp prep kind w o own mk names es s c d ->
  ownsOk (e_mk s) /\ remembersOk (beingMade own (e_log s)) c d.
Proof.
  intros Ho (s0 & d0 & c1 & d1 & Ha & Hl & Hr). eapply cachedRun_ok; [exact Hr| |].
  - eapply ownsOk_names; [by eapply apply_names|done].
  - eapply ok_looks in Hl; [|apply ok_empty]. intros name v Hc. destruct (Hl _ _ Hc) as [[]|]. by right.
Qed.
Lemma cachedBuild_run mk names es s c d : cachedBuild xp prep kind w o own mk names es s c d -> buildRun xp prep kind w o mk names es s.
Proof. intros (s0 & d0 & c1 & d1 & Ha & Hl & Hr). exists s0. split; [done|]. by eapply cachedRun_run. Qed.
End Own.

(** *** Which observations a decision uses *)
Section Ticks.
Context (xp : qstr -> option qstr) (prep : mkfile -> tid -> nat -> option (list command))
        (kind : command -> ckind) (w : world) (o : bopts).
Lemma isTargetUpToDate_tick mk t u mk' : isTargetUpToDate w mk t = (u, mk') -> mk_tick mk' = S (mk_tick mk).
Proof. unfold isTargetUpToDate. destruct (isTargetUpToDateSnap _ _ _). by intros [= <- <-]. Qed.
Definition within (mk mk' m : mkfile) : Prop := (mk_tick mk <= mk_tick m < mk_tick mk')%nat.
Lemma collect_tick g ls : forall mk ups mk', collectUpToDate w mk g ls = (ups, mk') ->
  (mk_tick mk <= mk_tick mk')%nat /\ forall t m, (t, m) ∈ ups -> within mk mk' m.
Proof.
  unfold within. induction ls as [|t ls IH]; intros mk ups mk'; cbn -[decide].
  { intros [= <- <-]. split; [done|]. by intros ? ? ?%elem_of_nil. }
  destruct (decide (stateOf g t = ExecutingState)); [apply IH|].
  destruct (isTargetUpToDate w mk t) as [u mk1] eqn:Eu. destruct (collectUpToDate w mk1 g ls) as [r mk2] eqn:Er.
  intros [= <- <-]. apply isTargetUpToDate_tick in Eu. destruct (IH _ _ _ Er) as [I1 I2]. split; [lia|].
  intros x m Hx. assert ((x, m) = (t, mk) \/ (x, m) ∈ r) as [[= -> ->]|H].
  { destruct u; [by apply elem_of_cons in Hx|by right]. }
  - lia.
  - specialize (I2 _ _ H). lia.
Qed.
Lemma pruneLoop_tick fuel : forall mk g acc mk' g' acc', pruneLoop fuel w mk g acc = Some (mk', g', acc') ->
  (mk_tick mk <= mk_tick mk')%nat /\ forall t m, (t, m) ∈ acc' -> (t, m) ∈ acc \/ within mk mk' m.
Proof.
  unfold within. induction fuel as [|fuel IH]; intros mk g acc mk' g' acc'; cbn.
  { destruct (g_dirty g); [done|]. intros [= <- <- <-]. split; [done|]. by left. }
  destruct (g_dirty g); [|intros [= <- <- <-]; split; [done|by left]].
  destruct (collectUpToDate w mk _ (g_leaves g)) as [ups mk1] eqn:Ec. intros H. apply collect_tick in Ec as [C1 C2].
  destruct (IH _ _ _ _ _ _ H) as [I1 I2]. split; [lia|]. intros t m Hin.
  destruct (I2 _ _ Hin) as [[?|Hu]%elem_of_app|?]; [by left| |right; lia].
  right. specialize (C2 _ _ Hu). unfold within in C2. lia.
Qed.
Lemma findAvailable_tick mk g r mk' g' ups : findAvailableTarget xp o w mk g = Ok (r, mk', g', ups) ->
  (mk_tick mk <= mk_tick mk')%nat /\ forall t m, (t, m) ∈ ups -> within mk mk' m.
Proof.
  unfold findAvailableTarget, within. destruct (isNil (g_leaves g)).
  { intros [= <- <- <- <-]. split; [done|]. by intros ? ? ?%elem_of_nil. }
  destruct (if o_all o then Some (mk, g, []) else pruneLoop _ w mk g []) as [[[mk1 g1] ups1]|] eqn:Ep; [|done].
  assert ((mk_tick mk <= mk_tick mk1)%nat /\ forall t m, (t, m) ∈ ups1 -> within mk mk1 m) as [D1 D2].
  { destruct (o_all o).
    - injection Ep as <- <- <-. split; [done|]. by intros ? ? ?%elem_of_nil.
    - apply pruneLoop_tick in Ep as [P1 P2]. split; [done|]. intros t m Hin. destruct (P2 t m Hin) as [?%elem_of_nil|?]; done. }
  unfold within in D2.
  destruct (applyInferenceRules _ _ _ _ _) as [mk2'|] eqn:Ei; [|done].
  set (mk2 := Mkfile (mk_targets mk2') _ _ _).
  assert (mk_tick mk2 = S (mk_tick mk1)) as T2 by done.
  assert (forall mk3, (mk_tick mk2 <= mk_tick mk3)%nat -> (mk_tick mk <= mk_tick mk3)%nat /\ forall t m, (t, m) ∈ ups1 -> (mk_tick mk <= mk_tick m < mk_tick mk3)%nat) as H.
  { intros mk3 H3. split; [lia|]. intros t m Hin%D2. lia. }
  destruct (firstIdle g1) as [t|]; intros [= <- <- <- <-]; [|by apply H].
  apply H. destruct (o_all o); [|done]. destruct (isTargetUpToDate w mk2 t) as [u mk3] eqn:Eu.
  apply isTargetUpToDate_tick in Eu. cbn [snd]. lia.
Qed.
Lemma findNextTarget_tick fuel : forall mk g log r mk' g' log', findNextTarget xp w o fuel mk g log = Ok (r, mk', g', log') ->
  (mk_tick mk <= mk_tick mk')%nat /\ forall t m, LUpToDate t m ∈ log' -> LUpToDate t m ∈ log \/ within mk mk' m.
Proof.
  unfold within. induction fuel as [|fuel IH]; intros mk g log r mk' g' log'; [done|]. cbn [findNextTarget].
  destruct (findAvailableTarget xp o w mk g) as [[[[[t|] mk1] g1] ups]| |c| |] eqn:Ea; try done; apply findAvailable_tick in Ea as [A1 A2]; unfold within in A2.
  all: assert (forall x m, LUpToDate x m ∈ log ++ map (fun p => LUpToDate (fst p) (snd p)) ups ->
         LUpToDate x m ∈ log \/ (mk_tick mk <= mk_tick m < mk_tick mk1)%nat) as Hl.
  1,3: intros x m [Hin|Hin]%elem_of_app; [by left|]; right; apply elem_of_list_In, in_map_iff in Hin as ([x' m'] & E & Hin);
       cbn in E; injection E as -> ->; apply (A2 x m); by apply elem_of_list_In.
  2: { intros H. injection H as <- <- <- <-. done. }
  assert (forall e fuel g0 r mk' g' log', (forall x m, e <> LUpToDate x m) ->
    findNextTarget xp w o fuel mk1 g0 ((log ++ map (fun p => LUpToDate (fst p) (snd p)) ups) ++ [e]) = Ok (r, mk', g', log') ->
    ((mk_tick mk1 <= mk_tick mk')%nat /\ forall t m, LUpToDate t m ∈ log' -> LUpToDate t m ∈ (log ++ map (fun p => LUpToDate (fst p) (snd p)) ups) ++ [e] \/ (mk_tick mk1 <= mk_tick m < mk_tick mk')%nat) ->
    (mk_tick mk <= mk_tick mk')%nat /\ forall t m, LUpToDate t m ∈ log' -> LUpToDate t m ∈ log \/ (mk_tick mk <= mk_tick m < mk_tick mk')%nat) as Hrec.
  { intros e fl g0 r0 mk'0 g'0 log'0 He _ [I1 I2]. split; [lia|]. intros x m Hin.
    destruct (I2 _ _ Hin) as [[Hx|Hx%elem_of_list_singleton]%elem_of_app|?]; [|by destruct (He x m)|right; lia].
    destruct (Hl _ _ Hx) as [?|?]; [by left|right; lia]. }
  cbv zeta. destruct (isNil _); [intros H; eapply Hrec; [|exact H|by eapply IH]; done|].
  destruct (o_keep o && _); [intros H; eapply Hrec; [|exact H|by eapply IH]; done|].
  intros H. by injection H as <- <- <- <-.
Qed.
Lemma waitFrom_tick n : forall k s, e_mk (waitFrom o n k s) = e_mk s.
Proof.
  induction n as [|n IH]; intros k s; cbn; [by destruct (e_acquiring s)|].
  destruct (jobOf k s) as [j|]; [|apply IH]. destruct (procRunning j); [done|apply IH].
Qed.
End Ticks.

(** *** Decisions *)
Section Decide.
Context (xp : qstr -> option qstr) (prep : mkfile -> tid -> nat -> option (list command))
        (kind : command -> ckind) (w : world) (o : bopts) (roots : list (option tid)).
Lemma searched_JI pre r mk0 evs s es s1 : CI kind w o roots pre r mk0 evs s -> NA o roots r mk0 evs s -> searched xp w o s es s1 ->
  JI w o r mk0 (jt (e_jobs s)) (evs ++ es).
Proof.
  intros C [N1 N2 N3 N4 N5 N6 N7 N8 N9 N10] (next & mk & g & En & Eab & Eaq & Ef & _ & _).
  rewrite En in N1.
  pose proof (findNextTarget_spec w o xp (S (S (size (g_nodes (e_g s))))) (e_mk s) (e_g s) [] (gi_wf _ _ _ _ _ _ _ _ N1)) as Hfn.
  rewrite Ef in Hfn. destruct Hfn as (D & g1 & es' & E & P & W & Hr); [lia|]. cbn [app] in E. subst es'.
  by destruct (GI_prunes w _ _ _ (e_mk s) _ _ _ _ _ P evs N1 (ci_ji _ _ _ _ _ _ _ _ _ C) eq_refl) as [G1 J1].
Qed.
Lemma decision s e s1 l t m : SInv kind w o roots s -> step xp prep kind w o s e = Some s1 -> e_log s1 = e_log s ++ l ->
  LUpToDate t m ∈ l ->
  freshS o roots s \/ exists pre r mk0 evs, CI kind w o roots pre r mk0 evs s /\ within (e_mk s) (e_mk s1) m
    /\ t ∉ jt (e_jobs s) /\ forall d, dependsOn mk0 t d -> d ∉ jt (e_jobs s).
Proof.
  intros [F|(pre & r & mk0 & evs & C & HA)] Hs El Hin; [by left|]. right. exists pre, r, mk0, evs. split; [done|].
  assert (forall a l', Forall (lateEvent a) l' -> LUpToDate t m ∉ l') as Hlate.
  { intros a l' Hf Hx. rewrite Forall_forall in Hf. by apply Hf in Hx. }
  destruct (step_shape xp prep kind w o _ _ _ Hs) as [[_ (l' & El' & Hf)]|(es & sx & Hse & [[_ Ht] (l' & El' & Hf)])].
  { exfalso. rewrite El in El'. apply app_inv_head in El' as ->. by eapply Hlate. }
  assert (e_aborted s = false) as Hab by (destruct Hse as (? & ? & ? & ? & ? & ?); done).
  rewrite Hab in HA. destruct HA as [NN _].
  pose proof (searched_JI _ _ _ _ _ _ _ C NN Hse) as J.
  destruct Hse as (next & mk & g & En & _ & Eaq & Ef & Em & Elx).
  assert (l = es ++ l') as ->. { rewrite El, Elx, <- app_assoc in El'. by apply app_inv_head in El'. }
  apply elem_of_app in Hin as [Hin|Hin]; [|exfalso; by eapply Hlate].
  split_and!.
  - destruct (findNextTarget_tick xp w o _ _ _ _ _ _ _ _ Ef) as [_ T]. destruct (T t m Hin) as [?%elem_of_nil|[T1 T2]]; [done|].
    rewrite Em in Ht. unfold within. lia.
  - intros Ht'. apply (ji_jobs _ _ _ _ _ _ J) in Ht' as [_ Hn]. apply Hn, dealtWith_app. right. right. left. by exists m.
  - intros d Hd Hj. apply (ji_jobs _ _ _ _ _ _ J) in Hj as [_ Hn]. apply Hn.
    apply elem_of_list_split in Hin as (a & b & ->).
    destruct (pp_closed _ _ _ _ _ (ji_pp _ _ _ _ _ _ J) (evs ++ a) (LUpToDate t m) b t d) as [H|[H|[H|H]]]; try done; [by rewrite <- app_assoc| | | |];
      apply dealtWith_app.
    all: assert (dealtWith (evs ++ a) d) as Hd' by (unfold dealtWith; tauto).
    all: apply dealtWith_app in Hd' as [?|?]; [by left|right; apply dealtWith_app; by left].
Qed.
Lemma underWay_job pre r mk0 evs s u : headed (e_log s) -> CI kind w o roots pre r mk0 evs s -> underWay (e_log s) u -> u ∈ jt (e_jobs s).
Proof.
  intros Hh C (a & cmds & b & E & Hn). pose proof C as [C1 C2 C3 C4 C5 C6 C7 C8 C9 C10 C11 C12].
  rewrite C1 in E. destruct (split_app _ _ _ _ _ E) as [(q & Eb & Ep)|(a' & Ea & E')].
  - (* an earlier pass *)
    exfalso. assert (headed pre) as Hhp.
    { rewrite C1, Ep in Hh. destruct Hh as [Hh|(r0 & m0 & l0 & Hh)]; [by destruct a|]. right. rewrite Ep.
      destruct a as [|x a]; cbn in Hh; injection Hh; [done|]. intros _ ->. by exists r0, m0, (a ++ LStart u cmds :: q). }
    pose proof (passes_flat _ Hhp) as Hfl. rewrite Ep in Hfl at 1. symmetry in Hfl.
    destruct (in_concat_split _ _ _ _ Hfl) as (l1 & x & y & l2 & Em & Ex & Ey).
    assert (x ++ LStart u cmds :: y ∈ map unpass (passes pre)) as Hp by (rewrite Em; apply elem_of_app; right; by left).
    apply elem_of_list_In, in_map_iff in Hp as (p & Ep' & Hp). apply elem_of_list_In in Hp.
    destruct (C2 p Hp) as (_ & _ & [T _]). unfold unpass in Ep'. destruct x as [|x0 x]; [done|]. cbn in Ep'. injection Ep' as _ Ep'.
    destruct (ti_start _ _ _ T x u cmds y Ep') as (_ & st & _ & Hst).
    destruct st as [rest|rest|f]; cbn in Hst; try (destruct Hst as [Hst _]; by apply elem_of_nil in Hst).
    apply (Hn f). rewrite Eb, Ey. do 2 (apply elem_of_app; left). done.
  - (* this pass *)
    destruct a' as [|x a']; cbn in E'; [done|]. injection E' as <- E'. subst evs.
    apply (ji_jobs _ _ _ _ _ _ C3). pose proof (ji_pp _ _ _ _ _ _ C3) as PPx.
    assert (started (a' ++ LStart u cmds :: b) u) as Hst by (exists cmds; apply elem_of_app; right; by left). split; [done|].
    destruct (pp_once _ _ _ _ _ PPx a' u cmds b eq_refl) as [_ Hna].
    intros [Hd|Hd]%dealtWith_app; [done|].
    assert (forall e, e ∈ LStart u cmds :: b -> removedBy e = Some u -> (forall f, e <> LEnd u f) -> False) as Hx.
    { intros e He Hr Hf. apply elem_of_cons in He as [->|He]; [done|].
      apply elem_of_list_split in He as (b1 & b2 & ->).
      assert (a' ++ LStart u cmds :: b1 ++ e :: b2 = (a' ++ LStart u cmds :: b1) ++ e :: b2) as Ee by by rewrite <- app_assoc.
      assert (started (a' ++ LStart u cmds :: b1) u) as Hs' by (exists cmds; apply elem_of_app; right; by left).
      destruct e as [r0 m0|t m0|t m0|t|t cs|t c0|t c0 k0|t f]; cbn in Hr; try done; injection Hr as ->.
      - by destruct (pp_upd _ _ _ _ _ PPx _ _ _ _ Ee) as (_ & ? & _).
      - by destruct (pp_nocmd _ _ _ _ _ PPx _ _ _ _ Ee) as (_ & ? & _).
      - by destruct (pp_unb _ _ _ _ _ PPx _ _ _ Ee) as (_ & _ & ? & _).
      - by destruct (Hf f). }
    destruct Hd as [[f Hd]|[[m Hd]|[[m Hd]|Hd]]]; [|by eapply Hx..].
    apply elem_of_cons in Hd as [?|Hd]; [done|by eapply Hn].
Qed.
End Decide.

(** *** Builds *)
Lemma keyed_names mk mk' : sameNames mk mk' -> keyed mk -> keyed mk'.
Proof.
  intros Hs Hk t b Hb.
  assert (forall x, is_Some (mk_targets mk' !! x) <-> is_Some (mk_targets mk !! x)) as Hd.
  { intros x. rewrite <- (fmap_is_Some b_name (mk_targets mk' !! x)), <- (fmap_is_Some b_name (mk_targets mk !! x)). by rewrite (Hs x). }
  assert (forall n, mk_find mk' n = mk_find mk n) as Hf.
  { intros n. unfold mk_find. cbv zeta. unfold tid, qstr, qchar in *.
    repeat case_match; try done;
    repeat match goal with
    | E : mk_targets mk' !! ?x = Some _, E' : mk_targets mk !! ?x = None |- _ => exfalso; destruct (proj1 (Hd x) ltac:(eauto)) as [? E0]; congruence
    | E : mk_targets mk !! ?x = Some _, E' : mk_targets mk' !! ?x = None |- _ => exfalso; destruct (proj2 (Hd x) ltac:(eauto)) as [? E0]; congruence
    end. }
  rewrite Hf. pose proof (Hs t) as Ht. rewrite Hb in Ht. cbn in Ht. symmetry in Ht. apply fmap_Some in Ht as (b0 & Hb0 & ->). by apply Hk.
Qed.

Section Top.
Context (xp : qstr -> option qstr) (prep : mkfile -> tid -> nat -> option (list command))
        (kind : command -> ckind) (w : world) (o : bopts) (own : tid -> qstr -> Prop).
Lemma run_roots mk es : forall s s', run xp prep kind w o s es = Some s' -> sameNames mk (e_mk s) ->
  (forall r m, LRoot r m ∈ e_log s -> sameNames mk m) -> forall r m, LRoot r m ∈ e_log s' -> sameNames mk m.
Proof.
  induction es as [|e es IH]; intros s s' Hr Hm Hl; cbn in Hr; [by injection Hr as <-|].
  destruct (step xp prep kind w o s e) as [s1|] eqn:Es; [|done].
  pose proof (sameNames_trans _ _ _ Hm (step_names _ _ _ _ _ _ _ _ Es)) as Hm1.
  apply (IH _ _ Hr Hm1). intros r m.
  assert (forall a l, sameNames mk a -> Forall (lateEvent a) l -> LRoot r m ∈ l -> sameNames mk m) as Hlate.
  { intros a l Ha Hf Hin. rewrite Forall_forall in Hf. apply Hf in Hin. cbn in Hin. by eapply sameNames_trans. }
  destruct (step_shape _ _ _ _ _ _ _ _ Es) as [[_ (l & -> & Hf)]|(es' & sx & Hse & [_ (l & -> & Hf)])].
  - intros [Hin|Hin]%elem_of_app; [by eapply Hl|by apply (Hlate (e_mk s) l)].
  - destruct Hse as (next & mk1 & g & _ & _ & _ & Hf1 & Em & ->). rewrite Em in Hf.
    pose proof (findNextTarget_names _ _ _ _ _ _ _ _ _ _ _ Hf1) as N1.
    intros [[Hin|Hin]%elem_of_app|Hin]%elem_of_app; [by eapply Hl| |].
    + exfalso. clear -Hf1 Hin.
      assert (forall fuel mk g log r0 mk' g' log', findNextTarget xp w o fuel mk g log = Ok (r0, mk', g', log') -> LRoot r m ∈ log' -> LRoot r m ∈ log) as H.
      { clear. intros fuel. induction fuel as [|fuel IH]; intros mk g log r0 mk' g' log'; [done|]. cbn [findNextTarget].
        destruct (findAvailableTarget xp o w mk g) as [[[[[t|] mk1] g1] ups]| |c| |]; try done.
        all: assert (LRoot r m ∉ map (fun p => LUpToDate (fst p) (snd p)) ups) as Hu
          by (intros Hin; apply elem_of_list_In, in_map_iff in Hin as (? & ? & _); done).
        2: { intros [= <- <- <- <-]. intros [?|?]%elem_of_app; done. }
        cbv zeta. destruct (isNil _); [|destruct (o_keep o && _)].
        1,2: intros H Hin; apply (IH _ _ _ _ _ _ _ H) in Hin; apply elem_of_app in Hin as [Hin|Hin%elem_of_list_singleton]; [|done];
             apply elem_of_app in Hin as [?|?]; done.
        intros [= <- <- <- <-]. intros [?|?]%elem_of_app; done. }
      apply (H _ _ _ _ _ _ _ _ Hf1) in Hin. by apply elem_of_nil in Hin.
    + eapply Hlate; [|exact Hf|exact Hin]. exact (sameNames_trans _ _ _ Hm N1).
Qed.
Lemma apply_roots mk names s0 r m : apply w o mk names = Ok s0 -> LRoot r m ∈ e_log s0 -> sameNames mk m.
Proof.
  assert (forall t rest q, LRoot r m ∈ e_log (newRoot w t (initState o mk rest q)) -> sameNames mk m) as Hn.
  { intros t rest q. unfold newRoot. change (e_mk (initState o mk rest q)) with mk. change (e_g (initState o mk rest q)) with emptyGraph.
    destruct (buildGraph (w (mk_tick mk)) mk emptyGraph t); cbn; try by intros ?%elem_of_nil.
    intros H%elem_of_list_singleton. by injection H as _ ->. }
  unfold apply. destruct names as [|n ns].
  - destruct (decide (mk_targets mk = ∅)); [intros [= <-]; by intros ?%elem_of_nil|]. destruct (mk_first mk) as [t|]; [|done].
    repeat case_match; intros; simplify_eq; match goal with H : LRoot r m ∈ _ |- _ => exact (Hn _ _ _ H) end.
  - repeat case_match; intros; simplify_eq; match goal with H : LRoot r m ∈ _ |- _ => exact (Hn _ _ _ H) end.
Qed.

Context (mk : mkfile) (names : list qstr) (es : list event) (s : est) (c : cache) (d : disk).
Context (Hst : startable o mk) (Hown : ownsOk own mk) (Hb : cachedBuild xp prep kind w o own mk names es s c d).

Lemma step_alive s0 e s1 : step xp prep kind w o s0 e = Some s1 -> e_end s0 = None.
Proof using. unfold step. by destruct (e_end s0). Qed.
Lemma sees e s1 l c1 d1 name k : looksAndStep xp prep kind w o own s c d e s1 l c1 d1 -> not (beingMade own (e_log s) name) ->
  (mk_tick (e_mk s) <= k < mk_tick (e_mk s1))%nat -> sn_stat (w k) name = d name.
Proof using Hown Hb.
  intros (Hs & El & Hl) Hn Hk. destruct (cachedBuild_ok _ _ _ _ _ _ _ _ _ _ _ _ Hown Hb) as [_ H].
  by eapply looks_sees.
Qed.
Lemma decision_sees e s1 l c1 d1 t m p b name : keyed mk -> looksAndStep xp prep kind w o own s c d e s1 l c1 d1 ->
  LUpToDate t m ∈ l -> last (passes (e_log s)) = Some p -> mk_targets (p_mk p) !! t = Some b -> name = b_name b \/ name ∈ b_deps b ->
  (mk_tick (e_mk s) <= mk_tick m < mk_tick (e_mk s1))%nat /\ not (beingMade own (e_log s) name).
Proof using Hst Hown Hb.
  intros Hkey (Hs & El & Hl) Hin Hp Htb Hname.
  pose proof (cachedBuild_run _ _ _ _ _ _ _ _ _ _ _ _ Hb) as Hrun.
  pose proof (step_alive _ _ _ Hs) as Hend.
  destruct (build_good _ _ _ _ _ _ _ _ _ Hst Hrun) as [[_ HI]|[[x Hx] _]]; [|congruence].
  destruct (decision _ _ _ _ _ _ _ _ _ _ _ _ HI Hs El Hin) as [F|(pre & r & mk0 & evs & C & Hw & Ht & Hd)].
  { destruct F as (F1 & _). rewrite F1 in Hp. done. }
  split; [exact Hw|]. intros (u & Hu & Hou).
  assert (headed (e_log s)) as Hh by by eapply build_headed.
  apply (underWay_job _ _ _ _ _ _ _ _ _ _ Hh C) in Hu.
  assert (p = Pass r mk0 evs) as ->.
  { pose proof (ci_log _ _ _ _ _ _ _ _ _ C) as E. rewrite E, passes_split, last_snoc in Hp by apply C. by injection Hp. }
  cbn in Htb.
  assert (sameNames mk mk0) as N0.
  { destruct Hrun as (s0 & Ha & Hr). eapply run_roots; [exact Hr| | |].
    - by eapply apply_names.
    - intros r0 m0. by eapply apply_roots.
    - rewrite (ci_log _ _ _ _ _ _ _ _ _ C). apply elem_of_app. right. by left. }
  pose proof (keyed_names _ _ N0 Hkey) as Hk0.
  destruct (ownsOk_names _ _ _ N0 Hown u name Hou) as (bu & Hbu & Hnu).
  destruct Hname as [Hname|Hname].
  - assert (u = t) as ->; [|done]. apply Hk0 in Hbu. apply Hk0 in Htb. rewrite Hname in Hnu. rewrite Hnu in Hbu. congruence.
  - apply (Hd u); [|done]. exists b, name. split_and!; [done|done|]. unfold resolveDep. apply Hk0 in Hbu. rewrite Hnu in Hbu. by rewrite Hbu.
Qed.
End Top.
