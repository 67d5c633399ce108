(** Where the commands that are run come from. *)
From stdpp Require Import prelude gmap.
From RecordUpdate Require Import RecordUpdate.
From Verif Require Import Base Data Infer UpToDate Graph Exec ExecSpec GraphProofs BuildProofs PruneProofs SchedInv TraceInv ExecProofs TermProofs ExecFacts FileCacheProofs.

Local Arguments markParents : simpl never.
Local Arguments removeLeaf : simpl never.

(** The ways a list of commands of target [t] comes about: it is written in the makefile [mk0]; it is made from the commands of
    one of the inference rules; it is what the preparation of a list that is there leaves. *)
Inductive originates (xp : qstr -> option qstr) (prep : mkfile -> tid -> nat -> option (list command)) (mk0 : mkfile) (irules : list rule) (t : tid) : list command -> Prop :=
| og_written b : mk_targets mk0 !! t = Some b -> originates xp prep mk0 irules t (b_cmds b)
| og_inferred r d cs : r ∈ irules -> instCommands xp d (r_cmds r) = Some cs -> originates xp prep mk0 irules t cs
| og_prepared m n b b0 cs : originates xp prep mk0 irules t (b_cmds b) -> mk_targets m !! t = Some b -> mk_targets mk0 !! t = Some b0 -> b_name b = b_name b0 ->
    prep m t n = Some cs ->
    originates xp prep mk0 irules t cs.

Lemma addDep_in d x ds : x ∈ ds -> x ∈ addDep d ds.
Proof. intros H. unfold addDep. destruct (containsStr d ds); [done|]. apply elem_of_app. by left. Qed.
Lemma addInferred_in sn name rs : forall ds x, x ∈ ds -> x ∈ addInferred sn name rs ds.
Proof. induction rs as [|r rs IH]; intros ds x H; cbn; [done|]. apply IH. destruct (_ && _); [apply elem_of_app; by left|done]. Qed.
Section Origin.
Context (xp : qstr -> option qstr) (prep : mkfile -> tid -> nat -> option (list command))
        (kind : command -> ckind) (w : world) (o : bopts) (mk0 : mkfile) (irules : list rule).
Notation orig := (originates xp prep mk0 irules).

(** No dependent gets lost. *)
Definition keepsDeps (t : tid) (b : block) : Prop := forall b0 d, mk_targets mk0 !! t = Some b0 -> d ∈ b_deps b0 -> d ∈ b_deps b.
Definition goodBlock (t : tid) (b : block) : Prop := orig t (b_cmds b) /\ (forall r, r ∈ b_rules b -> r ∈ irules) /\ keepsDeps t b.
Definition goodMk (mk : mkfile) : Prop := forall t b, mk_targets mk !! t = Some b -> goodBlock t b.
Lemma good_set mk t b : goodMk mk -> goodBlock t b -> goodMk (setBlock mk t b).
Proof.
  intros H Hb x bx. cbn. destruct (decide (t = x)) as [<-|Hne]; [rewrite lookup_insert; by intros [= <-]|rewrite lookup_insert_ne by done; apply H].
Qed.
Lemma good_same mk t b b' : goodMk mk -> mk_targets mk !! t = Some b -> b_cmds b' = b_cmds b -> b_rules b' = b_rules b -> (forall d, d ∈ b_deps b -> d ∈ b_deps b') ->
  goodMk (setBlock mk t b').
Proof. intros H Hb E1 E2 E3. apply good_set; [done|]. destruct (H _ _ Hb) as (H1 & H2 & H3). split_and!; [by rewrite E1|by rewrite E2|]. intros b0 d H0 Hd. apply E3. by eapply H3. Qed.
Lemma good_clear mk t b : goodMk mk -> mk_targets mk !! t = Some b -> goodMk (setBlock mk t (clearRules b)).
Proof. intros H Hb. apply good_set; [done|]. destruct (H _ _ Hb) as (H1 & _ & H3). split_and!; [done| |done]. intros r Hr. by apply elem_of_nil in Hr. Qed.

Lemma core_good sn mk t : goodMk mk -> goodMk (snd (upToDateCore sn mk t)).
Proof.
  intros H. unfold upToDateCore. destruct (mk_targets mk !! t) as [b|] eqn:E; [|done].
  set (b1 := match sn_stat sn (b_name b) with Some tm => setExists tm b | None => b end).
  assert (b_cmds b1 = b_cmds b /\ b_rules b1 = b_rules b /\ b_deps b1 = b_deps b) as (H1 & H2 & H4) by (unfold b1; by destruct (sn_stat sn (b_name b))).
  assert (goodMk (setBlock mk t b1)) as H3 by (eapply good_same; [done..|by rewrite H4]).
  destruct (isNil _); [done|]. cbn [snd]. eapply good_same; [done|cbn; by rewrite lookup_insert| | |]; by destruct (b_exists b1).
Qed.
Lemma forget_good r t : goodMk (snd r) -> goodMk (snd (forgetTime r t)).
Proof. destruct r as [u mk]. cbn. intros H. destruct (mk_targets mk !! t) as [b|] eqn:E; [|done]. destruct (_ && _); [|done]. by eapply good_same. Qed.
Lemma core_rules sn mk t b : mk_targets mk !! t = Some b -> exists b', mk_targets (snd (upToDateCore sn mk t)) !! t = Some b' /\ b_cmds b' = b_cmds b /\ b_rules b' = b_rules b.
Proof.
  intros E. unfold upToDateCore. rewrite E.
  set (b1 := match sn_stat sn (b_name b) with Some tm => setExists tm b | None => b end).
  assert (b_cmds b1 = b_cmds b /\ b_rules b1 = b_rules b) as [H1 H2] by (unfold b1; by destruct (sn_stat sn (b_name b))).
  destruct (isNil _); cbn; rewrite lookup_insert; eexists; (split; [done|]); [done|]. by destruct (b_exists b1).
Qed.
Lemma forget_rules r t b : mk_targets (snd r) !! t = Some b -> exists b', mk_targets (snd (forgetTime r t)) !! t = Some b' /\ b_cmds b' = b_cmds b.
Proof.
  destruct r as [u mk]. cbn. intros E. rewrite E. destruct (_ && _); cbn; [rewrite lookup_insert|]; by eexists.
Qed.
Lemma utd_good mk t : goodMk mk -> goodMk (snd (isTargetUpToDate w mk t)).
Proof.
  intros H. unfold isTargetUpToDate. set (sn := w (mk_tick mk)). clearbody sn.
  assert (HS : goodMk (snd (isTargetUpToDateSnap sn mk t))).
  { unfold isTargetUpToDateSnap. pose proof (core_good sn mk t H) as H1. destruct (upToDateCore sn mk t) as [u1 mk1]. cbn [snd] in H1.
    destruct (mk_targets mk1 !! t) as [b|] eqn:Eb; [|done].
    destruct (if u1 && negb (isNil (b_rules b)) then _ else _) as [u2 mk2] eqn:E2.
    apply forget_good. cbn [snd]. destruct (u1 && negb (isNil (b_rules b))); [|by injection E2 as <- <-].
    cbv zeta in E2. destruct (_ <? _)%nat; [|by injection E2 as <- <-].
    set (bx0 := setDeps _ (setRules [] b)) in E2. set (mkx := setBlock mk1 t bx0) in E2.
    assert (Hx : goodMk mkx). { apply good_set; [done|]. destruct (H1 _ _ Eb) as (Hc & _ & Hd). split_and!; [done| |].
      - intros r Hr. by apply elem_of_nil in Hr.
      - intros b0 d H0 Hd0. cbn. apply addInferred_in. by eapply Hd. }
    assert (Hl : mk_targets mkx !! t = Some bx0) by (cbn; by rewrite lookup_insert).
    pose proof (forget_good _ t (core_good sn mkx t Hx)) as Hg.
    destruct (core_rules sn mkx t _ Hl) as (b1 & Hb1 & Ec1 & _). destruct (forget_rules _ t _ Hb1) as (b2 & Hb2 & Ec2).
    destruct (forgetTime (upToDateCore sn mkx t) t) as [u' mkx']. cbn [snd] in Hg, Hb2. rewrite Hb2 in E2. injection E2 as <- <-.
    apply good_set; [done|]. destruct (H1 _ _ Eb) as (Hc & Hr & Hd). split_and!; [|exact Hr|exact Hd]. cbn. by rewrite Ec2, Ec1. }
  destruct (isTargetUpToDateSnap sn mk t) as [u mk']. exact HS.
Qed.

(** *** Inference rules *)
Lemma insert_in r x l : x ∈ insertRule r l -> x = r \/ x ∈ l.
Proof.
  induction l as [|y l IH]; cbn; [intros H; apply elem_of_list_singleton in H; by left|].
  destruct (_ <? _)%Z; rewrite !elem_of_cons; [by intuition|]. intros [->|[->|?]%IH]; auto.
Qed.
Lemma choose_in sn mk b r : chooseRule sn mk b = Some r -> r ∈ b_rules b.
Proof.
  unfold chooseRule, sortRules. intros H.
  assert (G : forall l acc, r ∈ fold_left (fun l r => insertRule r l) l acc -> r ∈ l \/ r ∈ acc).
  { induction l as [|y l IH]; intros acc; cbn; [by right|]. intros [?|[->|?]%insert_in]%IH; rewrite ?elem_of_cons; auto. }
  apply last_Some_elem_of, G in H as [H|H]; [|by apply elem_of_nil in H].
  apply elem_of_list_In, filter_In in H as [H _]. by apply elem_of_list_In.
Qed.
Definition goodQ (q : batchq) : Prop := forall r t, (r, t) ∈ q -> r ∈ irules.
Lemma applyToTarget_good be sn mk q t mk' q' : goodMk mk -> goodQ q -> applyToTarget xp be sn mk q t = Some (mk', q') -> goodMk mk' /\ goodQ q'.
Proof.
  intros H HQ. unfold applyToTarget. destruct (mk_targets mk !! t) as [b|] eqn:E; [|by intros [= <- <-]].
  destruct (chooseRule sn mk b) as [r|] eqn:Ec; [|by intros [= <- <-]]. apply choose_in in Ec. destruct (H _ _ E) as (H1 & H2 & H3). specialize (H2 _ Ec).
  destruct (be && r_batch r).
  - intros [= <- <-]. split; [by apply good_clear|]. intros r' t'. rewrite elem_of_app, elem_of_list_singleton. intros [?|[= -> ->]]; [by eapply HQ|done].
  - unfold applySingle. destruct (instCommands _ _ _) as [cs|] eqn:Ei; [|done]. intros [= <- <-]. split; [|done]. apply good_set; [done|].
    split_and!; [by eapply og_inferred|intros x Hx; by apply elem_of_nil in Hx|]. intros b0 d H0 Hd. cbn. apply addDep_in. by eapply H3.
Qed.
Lemma applyToTargets_good be sn ts : forall mk q mk' q', goodMk mk -> goodQ q -> applyToTargets xp be sn mk q ts = Some (mk', q') -> goodMk mk' /\ goodQ q'.
Proof.
  induction ts as [|t ts IH]; intros mk q mk' q' H HQ; cbn; [by intros [= <- <-]|].
  destruct (applyToTarget xp be sn mk q t) as [[mk1 q1]|] eqn:E; [|done]. destruct (applyToTarget_good _ _ _ _ _ _ _ H HQ E). by apply IH.
Qed.
Lemma batchCollect_good exe r ts : forall mk acc mk' ds, goodMk mk -> batchCollect mk exe r ts acc = (mk', ds) -> goodMk mk'.
Proof.
  induction ts as [|t ts IH]; intros mk acc mk' ds H; cbn; [by intros [= <- <-]|].
  apply IH. set (mk1 := match mk_targets mk !! t with Some b => setBlock mk t (clearRules b) | None => mk end).
  assert (goodMk mk1) as H1. { unfold mk1. destruct (mk_targets mk !! t) eqn:E; [by apply good_clear|done]. }
  destruct (mk_targets mk1 !! exe) eqn:E; [|done]. eapply good_same; [done..|]. intros d. apply addDep_in.
Qed.
Lemma applyBatch_good mk r b mk' : goodMk mk -> r ∈ irules -> applyBatch xp mk r b = Some mk' -> goodMk mk'.
Proof.
  intros H Hr. destruct b as [|exe b]; [by intros [= <-]|]. unfold applyBatch.
  destruct (batchCollect mk exe r (exe :: b) []) as [mk1 ds] eqn:E. apply batchCollect_good in E; [|done].
  destruct (instCommands _ _ _) as [cs|] eqn:Ei; [|done]. destruct (mk_targets mk1 !! exe) as [e|] eqn:E1; intros [= <-]; [|done].
  apply good_set; [done|]. destruct (E _ _ E1) as (_ & H2 & H3). split_and!; [by eapply og_inferred|done|done].
Qed.
Lemma applyBatches_good r bs : r ∈ irules -> forall mk mk', goodMk mk -> applyBatches xp mk r bs = Some mk' -> goodMk mk'.
Proof.
  intros Hr. induction bs as [|b bs IH]; intros mk mk' H; cbn; [by intros [= <-]|].
  destruct (applyBatch xp mk r b) eqn:E; [|done]. apply IH. by eapply applyBatch_good.
Qed.
Lemma applyQueue_good j q rs : (forall r, r ∈ rs -> r ∈ irules) -> forall mk mk', goodMk mk -> applyQueue xp j mk q rs = Some mk' -> goodMk mk'.
Proof.
  induction rs as [|r rs IH]; intros Hr mk mk' H; cbn; [by intros [= <-]|].
  destruct (applyBatches xp mk r _) eqn:E; [|done]. apply IH; [intros x Hx; apply Hr; by right|]. eapply applyBatches_good; [|done|exact E]. apply Hr. by left.
Qed.
Lemma queueRules_in q : forall seen r, r ∈ queueRules q seen -> exists t, (r, t) ∈ q.
Proof.
  induction q as [|[x t] q IH]; intros seen r; cbn; [intros H; by apply elem_of_nil in H|].
  destruct (existsb _ _); [intros (t' & ?)%IH; exists t'; by right|].
  rewrite elem_of_cons. intros [->|(t' & ?)%IH]; [exists t; by left|exists t'; by right].
Qed.
Lemma inference_good sn mk ts mk' : goodMk mk -> applyInferenceRules xp o sn mk ts = Some mk' -> goodMk mk'.
Proof.
  intros H. unfold applyInferenceRules. destruct (applyToTargets xp (o_batch o) sn mk [] ts) as [[mk1 q]|] eqn:E; [|done].
  apply applyToTargets_good in E as [H1 H2]; [|done|intros r t Hr; by apply elem_of_nil in Hr].
  intros HQ. eapply applyQueue_good; [|exact H1|exact HQ]. intros r (t & Ht)%queueRules_in. by eapply H2.
Qed.

(** *** Steps *)
Definition wasPrepared (t : tid) (cs : list command) : Prop :=
  exists m n b b0, mk_targets m !! t = Some b /\ mk_targets mk0 !! t = Some b0 /\ b_name b = b_name b0 /\ prep m t n = Some cs.
Definition goodEv (e : logev) : Prop :=
  match e with LStart t cs => orig t cs /\ is_Some (mk_targets mk0 !! t) /\ (cs = [] \/ wasPrepared t cs) | LRoot _ mk => goodMk mk /\ sameNames mk0 mk | _ => True end.
Record goodSt (s : est) : Prop := { gs_mk : goodMk (e_mk s); gs_log : Forall goodEv (e_log s) }.
Lemma collect_good g ls : forall mk, goodMk mk -> goodMk (snd (collectUpToDate w mk g ls)).
Proof.
  induction ls as [|t ls IH]; intros mk H; cbn -[decide]; [done|].
  destruct (decide (stateOf g t = ExecutingState)); [by apply IH|].
  pose proof (utd_good mk t H) as H1. destruct (isTargetUpToDate w mk t) as [u mk1]. cbn [snd] in H1.
  specialize (IH _ H1). by destruct (collectUpToDate w mk1 g ls) as [r mk2].
Qed.
Lemma pruneLoop_good fuel : forall mk g acc mk' g' acc', goodMk mk -> pruneLoop fuel w mk g acc = Some (mk', g', acc') -> goodMk mk'.
Proof.
  induction fuel as [|fuel IH]; intros mk g acc mk' g' acc' H; cbn.
  { destruct (g_dirty g); [done|]. by intros [= <- <- <-]. }
  destruct (g_dirty g); [|by intros [= <- <- <-]].
  pose proof (collect_good (Graph (g_nodes g) (g_leaves g) false) (g_leaves g) mk H) as Hc.
  destruct (collectUpToDate w mk _ (g_leaves g)) as [ups mk1]. by apply IH.
Qed.
Lemma findAvailable_good mk g r mk' g' ups : goodMk mk -> findAvailableTarget xp o w mk g = Ok (r, mk', g', ups) -> goodMk mk'.
Proof.
  intros H. unfold findAvailableTarget. destruct (isNil (g_leaves g)); [by intros [= <- <- <- <-]|].
  destruct (if o_all o then Some (mk, g, []) else pruneLoop _ w mk g []) as [[[mk1 g1] ups1]|] eqn:Ep; [|done].
  assert (goodMk mk1) as D. { destruct (o_all o); [by injection Ep as <- <- <-|by eapply pruneLoop_good]. }
  destruct (applyInferenceRules _ _ _ _ _) as [mk2'|] eqn:Ei; [|done].
  apply inference_good in Ei; [|exact D].
  set (mk2 := Mkfile (mk_targets mk2') _ _ _). assert (goodMk mk2) as D2 by exact Ei.
  destruct (firstIdle g1) as [t|]; intros [= <- <- <- <-]; [|done].
  destruct (o_all o); [|done]. pose proof (utd_good mk2 t D2) as Hu. by destruct (isTargetUpToDate w mk2 t) as [u mk3].
Qed.
Lemma findNextTarget_good fuel : forall mk g log r mk' g' log', goodMk mk -> Forall goodEv log ->
  findNextTarget xp w o fuel mk g log = Ok (r, mk', g', log') -> goodMk mk' /\ Forall goodEv log'.
Proof.
  assert (HU : forall ups, Forall goodEv (map (fun p => LUpToDate (fst p) (snd p)) ups)) by (intros ups; by induction ups; constructor).
  induction fuel as [|fuel IH]; intros mk g log r mk' g' log' H HL; [done|]. cbn [findNextTarget].
  destruct (findAvailableTarget xp o w mk g) as [[[[[t|] mk1] g1] ups]| |c| |] eqn:Ea; try done; apply findAvailable_good in Ea; try done.
  2: { intros E. injection E as <- <- <- <-. split; [done|]. apply Forall_app. by split. }
  cbv zeta. destruct (isNil _); [apply IH; [done|]; rewrite !Forall_app; split_and!; [done|done|by repeat constructor]|].
  destruct (o_keep o && _); [apply IH; [done|]; rewrite !Forall_app; split_and!; [done|done|by repeat constructor]|].
  intros E. injection E as <- <- <- <-. split; [done|]. apply Forall_app. by split.
Qed.
Local Arguments findNextTarget : simpl never.

Lemma good_ext s s' : goodSt s -> e_mk s' = e_mk s -> e_log s' = e_log s -> goodSt s'.
Proof. intros [H1 H2] E1 E2. split; [by rewrite E1|by rewrite E2]. Qed.
Lemma good_addLog l s : goodSt s -> Forall goodEv l -> goodSt (addLog l s).
Proof. intros [H1 H2] Hl. split; [done|]. apply Forall_app. by split. Qed.
Lemma good_cmds l : Forall cmdEvent l -> Forall goodEv l.
Proof. intros H. eapply Forall_impl; [exact H|]. by intros []. Qed.
Lemma good_wait n : forall k s, goodSt s -> goodSt (waitFrom o n k s).
Proof.
  induction n as [|n IH]; intros k s H; cbn; [by destruct (e_acquiring s); apply (good_ext s)|].
  destruct (jobOf k s) as [j|]; [|by apply IH]. destruct (procRunning j); [by apply (good_ext s)|by apply IH].
Qed.
Lemma good_child k t f s : goodSt s -> goodSt (childFinished o k t f s).
Proof.
  intros H. rewrite childFinished_eq.
  assert (forall s', e_mk s' = e_mk s -> e_log s' = e_log s ++ [LEnd t f] -> goodSt s') as H0.
  { intros s' E1 E2. destruct H as [H1 H2]. split; [by rewrite E1|]. rewrite E2. apply Forall_app. split; [done|by repeat constructor]. }
  assert (forall g2, goodSt (continue o k t f g2 s)) as Hc.
  { intros g2. unfold continue. destruct (f && negb (o_keep o)).
    - apply good_wait. apply H0; unfold abort, afterChild; destruct f, (e_acq s); done.
    - apply H0; unfold afterChild; destruct f, (e_acq s); done. }
  destruct (f && o_keep o); [|done]. destruct (g_nodes (e_g s) !! t); [|by apply H0].
  destruct (markParents _ t (e_g s)); [done|by apply H0].
Qed.
Local Arguments childFinished : simpl never.
Lemma good_ended e s : goodSt s -> goodSt (ended e s).
Proof. intros [H1 H2]. split; [exact H1|exact H2]. Qed.
Lemma good_upd s : goodSt s -> goodSt (s <| e_next := None |> <| e_queue ::= S |>).
Proof. intros [H1 H2]. split; [exact H1|exact H2]. Qed.
Lemma good_begun s t b cs av : goodSt s -> goodBlock t (setCmds cs b) -> is_Some (mk_targets mk0 !! t) -> wasPrepared t cs ->
  goodSt (addLog [LStart t cs] (s <| e_avail := av |> <| e_mk ::= fun mk => setBlock mk t (setCmds cs b) |>)).
Proof.
  intros [H1 H2] Hb Ht Hp. split; [by apply good_set|]. cbn. apply Forall_app. split; [exact H2|]. constructor; [split_and!; [apply Hb|exact Ht|by right]|constructor].
Qed.
Lemma good_begun0 s t av : goodSt s -> orig t [] -> is_Some (mk_targets mk0 !! t) -> goodSt (addLog [LStart t []] s <| e_avail := av |>).
Proof. intros [H1 H2] Hb Ht. split; [exact H1|]. cbn. apply Forall_app. split; [exact H2|]. constructor; [split_and!; [exact Hb|exact Ht|by left]|constructor]. Qed.
Lemma good_job s l j : goodSt (addLog l s) -> goodSt (addLog l s <| e_jobs ::= fun js => js ++ [j] |> <| e_next := None |> <| e_queue ::= S |>).
Proof. intros [H1 H2]. split; [exact H1|exact H2]. Qed.
Lemma good_next ch s s' : goodSt s -> sameNames mk0 (e_mk s) -> buildNextTarget prep kind o ch s = Some s' -> goodSt s'.
Proof.
  intros H HS Hb. unfold buildNextTarget in Hb. destruct (e_aborted s); [by injection Hb as <-|].
  destruct (e_avail s) as [|k avail]; [injection Hb as <-; by apply good_ended|]. destruct (e_next s) as [t|]; [|injection Hb as <-; by apply good_ended].
  destruct (mk_targets (e_mk s) !! t) as [b|] eqn:Eb; [|injection Hb as <-; by apply good_ended].
  destruct (gs_mk _ H _ _ Eb) as (Ho & Hr & Hd).
  assert (Ht : is_Some (mk_targets mk0 !! t)). { specialize (HS t). rewrite Eb in HS. destruct (mk_targets mk0 !! t) as [b0|]; [by eexists|done]. }
  destruct (isNil (b_cmds b)) eqn:En.
  { apply isNil_true in En. rewrite En in Ho. injection Hb as <-. apply good_upd, good_child. by apply good_begun0. }
  destruct (prep (e_mk s) t (ch_prep ch)) as [[|c0 cmds0]|] eqn:Ep; [injection Hb as <-; by apply good_ended| |].
  2: { injection Hb as <-. apply good_ended. destruct H as [H1 H2]. split; [exact H1|exact H2]. }
  assert (Hn : orig t (c0 :: cmds0)).
  { specialize (HS t). rewrite Eb in HS. destruct (mk_targets mk0 !! t) as [b0|] eqn:E0; [|done]. injection HS as HS. by eapply og_prepared. }
  assert (Hw : wasPrepared t (c0 :: cmds0)).
  { specialize (HS t). rewrite Eb in HS. destruct (mk_targets mk0 !! t) as [b0|] eqn:E0; [|done]. injection HS as HS. exists (e_mk s), (ch_prep ch), b, b0. by split_and!. }
  destruct (runCmds kind t (c0 :: cmds0) (ch_codes ch) (ch_launch ch)) as [r|] eqn:Er; [|done]. apply runCmds_late in Er.
  pose proof (good_begun s t b (c0 :: cmds0) avail H (conj Hn (conj Hr Hd)) Ht Hw) as H1.
  set (s1 := addLog [LStart t (c0 :: cmds0)] _) in *. clearbody s1. clear Ep.
  assert (forall l, Forall cmdEvent l -> goodSt (addLog l s1)) as H2.
  { intros l Hl. by apply good_addLog, good_cmds. }
  destruct r as [failed l|rest l|l]; injection Hb as <-; specialize (H2 l Er).
  - by apply good_upd, good_child.
  - by apply good_job.
  - by apply good_ended.
Qed.
Lemma good_newRoot t s : goodSt s -> sameNames mk0 (e_mk s) -> goodSt (newRoot w t s).
Proof.
  intros H HS. unfold newRoot. destruct (buildGraph _ _ _ _); try by apply (good_ext s). destruct H as [H1 H2].
  split; [exact H1|]. cbn. apply Forall_app. split; [done|]. constructor; [by split|constructor].
Qed.
Lemma inval_good mk : goodMk mk -> goodMk (invalidateTimeStamps mk).
Proof. intros H t b. cbn. rewrite lookup_fmap. destruct (mk_targets mk !! t) as [b0|] eqn:E; [|done]. intros [= <-]. exact (H _ _ E). Qed.
Lemma good_startProcesses ch s s' : goodSt s -> sameNames mk0 (e_mk s) -> startProcesses xp prep kind w o ch s = Some s' -> goodSt s'.
Proof.
  intros H HN. unfold startProcesses. destruct (_ || _); [by intros [= <-]|].
  destruct (match e_next s with Some t => _ | None => _ end) as [[[[next mk] g] l]| | | |] eqn:EF; [|intros [= <-]; by apply (good_ext s)..].
  assert (Hl : goodMk mk /\ Forall goodEv l).
  { destruct (e_next s); [injection EF as _ <- _ <-; split; [by apply gs_mk|done]|]. eapply findNextTarget_good; [by apply gs_mk|done|exact EF]. }
  assert (HN1 : sameNames mk0 mk).
  { destruct (e_next s); [by injection EF as _ <- _ _|]. apply findNextTarget_names in EF. by eapply sameNames_trans. }
  cbv zeta. set (s1 := addLog l _). assert (N1 : sameNames mk0 (e_mk s1)) by exact HN1. assert (G1 : goodSt s1). { destruct Hl. split; [done|]. cbn. apply Forall_app. split; [by apply gs_log|done]. }
  clearbody s1. destruct next as [t|].
  - destruct (noneRunning o s1); [by apply good_next|]. intros [= <-]. by apply (good_ext s1).
  - destruct (noneRunning o s1); [|by intros [= <-]]. destruct (e_pending s1) as [|[t|] pending].
    + intros [= <-]. by apply (good_ext s1).
    + intros [= <-]. match goal with |- goodSt (if e_end ?x then _ else _) => set (s2 := x); assert (D2 : goodSt s2) end.
      { apply good_newRoot; [destruct G1; split; [by apply inval_good|done]|]. eapply sameNames_trans; [exact N1|apply inval_names]. }
      clearbody s2. destruct (e_end s2); [done|]. by apply (good_ext s2).
    + intros [= <-]. by apply (good_ext s1).
Qed.
Lemma good_step s e s' : goodSt s -> sameNames mk0 (e_mk s) -> step xp prep kind w o s e = Some s' -> goodSt s'.
Proof.
  intros H HN Hs. unfold step in Hs. destruct (e_end s); [done|]. destruct e as [ch| |ch|k code ch|k].
  - destruct (e_queue s) as [|q]; [done|]. apply (good_startProcesses ch (s <| e_queue := q |>)); [by apply (good_ext s)|exact HN|exact Hs].
  - destruct (e_acquiring s); try done. injection Hs as <-. by apply (good_ext s).
  - destruct (e_acquiring s); try done. destruct (buildNextTarget _ _ _ _ _) as [s1|] eqn:Eb; [|done].
    apply good_next in Eb; [|by apply (good_ext s)|exact HN].
    destruct (e_end s1); [by injection Hs as <-|].
    destruct (e_wait s) as [[k'|]|]; injection Hs as <-; by apply (good_ext s1).
  - destruct (jobOf k s) as [j|] eqn:Ej; [|done]. destruct (decide (j_state j = JWatched)); [|done].
    destruct (code =? stillActive)%N; [injection Hs as <-; by apply (good_ext s)|].
    unfold processExit in Hs. destruct (j_cmds j) as [|c rest]; [injection Hs as <-; by apply (good_ext s)|].
    set (sx := addLog [LExit (j_target j) c code] s) in Hs.
    assert (goodSt sx) as H1 by (apply good_addLog; [done|by repeat constructor]).
    destruct (c_max c <? effectiveCode code)%N.
    { destruct (ch_codes ch); [|done]. injection Hs as <-. by apply good_child. }
    destruct (runCmds _ _ _ _ _) as [r|] eqn:Er; [|done]. apply runCmds_late in Er.
    assert (forall l, Forall cmdEvent l -> goodSt (addLog l sx)) as H2.
    { intros l Hl. by apply good_addLog, good_cmds. }
    destruct r as [failed l|rest' l|l]; injection Hs as <-.
    + match goal with |- goodSt (match e_end ?x with _ => _ end) =>
        assert (goodSt x) as Hx by (by apply good_child, H2); destruct (e_end x); [done|] end.
      destruct (e_wait _) as [[k'|]|]; try done. destruct (failed && negb (o_keep o)); [done|]. destruct (Nat.eqb k k'); [|done].
      by apply good_wait.
    + match goal with |- goodSt (if ?b then waitFrom _ _ _ ?x else _) =>
        assert (goodSt x) as Hx by (eapply good_ext; [by apply (H2 l)|done|done]); destruct b end; [|exact Hx].
      by apply good_wait.
    + eapply good_ext; [by apply (H2 l)|done|done].
  - destruct (jobOf k s) as [j|] eqn:Ej; [|done]. destruct (j_state j); try done. injection Hs as <-. by apply (good_ext s).
Qed.
Lemma good_run es : forall s s', goodSt s -> sameNames mk0 (e_mk s) -> run xp prep kind w o s es = Some s' -> goodSt s'.
Proof.
  induction es as [|e es IH]; intros s s' H HN; cbn [run]; [by intros [= <-]|].
  destruct (step _ _ _ _ _ _ _) as [s1|] eqn:E; [|done]. apply IH; [by eapply good_step|].
  apply step_names in E. by eapply sameNames_trans.
Qed.
Lemma good_apply names s : goodMk mk0 -> apply w o mk0 names = Ok s -> goodSt s /\ sameNames mk0 (e_mk s).
Proof.
  intros H0. assert (D0 : forall rest q, goodSt (initState o mk0 rest q) /\ sameNames mk0 (e_mk (initState o mk0 rest q))) by (intros rest q; split; [split; [exact H0|constructor]|done]).
  unfold apply. intros H.
  assert (HS : forall t rest, (let s0 := newRoot w t (initState o mk0 rest 1) in
      match e_end s0 with Some (EExit c) => Exits c | Some EError => Throws | Some ECrash => Crashes | Some EDiverge => Diverges
      | None => if o_dump o then match dumpNode (S (size (g_nodes (e_g s0)))) (e_g s0) 0 t with Some _ => Ok s0 | None => Diverges end
                else Ok (s0 <| e_queue := 2%nat |>) end) = Ok s -> goodSt s /\ sameNames mk0 (e_mk s)).
  { intros t rest. cbv zeta. destruct (D0 rest 1%nat) as [D1 D2]. pose proof (good_newRoot t _ D1 D2) as D. destruct (later_newRoot w t (initState o mk0 rest 1)) as [[D3 _] _].
    assert (D4 := sameNames_trans _ _ _ D2 D3). clear D2 D3. set (s0 := newRoot w t _) in *. clearbody s0.
    destruct (e_end s0) as [[]|]; try done. destruct (o_dump o); [destruct (dumpNode _ _ _ _); [by intros [= <-]|done]|].
    intros [= <-]. split; [by apply (good_ext s0)|exact D4]. }
  destruct names as [|n ns].
  - destruct (decide _); [injection H as <-; apply D0|]. destruct (mk_first mk0) as [t|]; [|done]. by apply (HS t []).
  - destruct (mk_find mk0 n) as [t|]; [|done]. by apply (HS t (map (mk_find mk0) ns)).
Qed.
(** Every started target has commands that come from the makefile. *)
Lemma origin_build names es s t cs : (forall t b r, mk_targets mk0 !! t = Some b -> r ∈ b_rules b -> r ∈ irules) ->
  buildRun xp prep kind w o mk0 names es s -> LStart t cs ∈ e_log s -> orig t cs /\ is_Some (mk_targets mk0 !! t) /\ (cs = [] \/ wasPrepared t cs).
Proof.
  intros Hr (s0 & Ha & Hrun) Hin.
  assert (H0 : goodMk mk0). { intros x b Hb. split_and!; [by apply og_written|intros r; by eapply Hr|]. intros b0 d H1 Hd. rewrite Hb in H1. by injection H1 as <-. }
  apply good_apply in Ha as [Ha HN]; [|done]. destruct (good_run _ _ _ Ha HN Hrun) as [_ HL]. rewrite Forall_forall in HL. exact (HL _ Hin).
Qed.
(** At the beginning of every pass the dependents of the makefile are all there. *)
Lemma roots_build names es s r mk : (forall t b r, mk_targets mk0 !! t = Some b -> r ∈ b_rules b -> r ∈ irules) ->
  buildRun xp prep kind w o mk0 names es s -> LRoot r mk ∈ e_log s ->
  sameNames mk0 mk /\ forall t b0, mk_targets mk0 !! t = Some b0 -> exists b, mk_targets mk !! t = Some b /\ b_name b = b_name b0 /\ forall d, d ∈ b_deps b0 -> d ∈ b_deps b.
Proof.
  intros Hr (s0 & Ha & Hrun) Hin.
  assert (H0 : goodMk mk0). { intros x b Hb. split_and!; [by apply og_written|intros r0; by eapply Hr|]. intros b0 d H1 Hd. rewrite Hb in H1. by injection H1 as <-. }
  apply good_apply in Ha as [Ha HN]; [|done]. destruct (good_run _ _ _ Ha HN Hrun) as [_ HL]. rewrite Forall_forall in HL. destruct (HL _ Hin) as [H1 H2].
  split; [done|]. intros t b0 Hb. pose proof (H2 t) as H3. rewrite Hb in H3. destruct (mk_targets mk !! t) as [b|] eqn:E; [|done]. injection H3 as H3.
  exists b. split_and!; [done|done|]. intros d Hd. destruct (H1 _ _ E) as (_ & _ & HD). by apply (HD b0).
Qed.
End Origin.
