(** Looking for the next target: DependencyGraph::findAvailableTarget and
    TargetExecutor::findNextTarget only remove leaves and mark one. *)
From Coq Require Import Relations.
From stdpp Require Import prelude gmap.
From Verif Require Import Base Data Infer UpToDate Graph Exec ExecSpec GraphProofs.

(** *** The set of targets never changes. *)
Definition sameDom (mk mk' : mkfile) : Prop :=
  forall x, is_Some (mk_targets mk' !! x) <-> is_Some (mk_targets mk !! x).
Lemma sameDom_refl mk : sameDom mk mk.
Proof. done. Qed.
Lemma sameDom_trans a b c : sameDom a b -> sameDom b c -> sameDom a c.
Proof. intros H1 H2 x. by rewrite (H2 x). Qed.
Lemma sameDom_setBlock mk t b : is_Some (mk_targets mk !! t) -> sameDom mk (setBlock mk t b).
Proof.
  intros H x. unfold setBlock; cbn. rewrite lookup_insert_is_Some. destruct (decide (t = x)) as [->|]; naive_solver.
Qed.
Lemma sameDom_setBlock' mk t b b0 : mk_targets mk !! t = Some b0 -> sameDom mk (setBlock mk t b).
Proof. intros. apply sameDom_setBlock. eauto. Qed.

Ltac dom1 := repeat match goal with
  | |- sameDom ?a ?a => apply sameDom_refl
  | |- sameDom _ (setBlock _ _ _) => eapply sameDom_trans; [|eapply sameDom_setBlock']
  end.

Lemma upToDateCore_dom sn mk t u mk' : upToDateCore sn mk t = (u, mk') -> sameDom mk mk'.
Proof.
  unfold upToDateCore. destruct (mk_targets mk !! t) as [b|] eqn:E; [|by intros [= <- <-]].
  set (b1 := match sn_stat sn (b_name b) with Some tm => setExists tm b | None => b end).
  assert (sameDom mk (setBlock mk t b1)) as H1 by by eapply sameDom_setBlock'.
  destruct (isNil _); intros [= <- <-]; [done|].
  eapply sameDom_trans; [exact H1|]. apply sameDom_setBlock. cbn. rewrite lookup_insert. eauto.
Qed.
Lemma forgetTime_dom r t u mk' : forgetTime r t = (u, mk') -> sameDom (snd r) mk'.
Proof.
  destruct r as [u0 mk]. cbn. destruct (mk_targets mk !! t) as [b|] eqn:E; [|by intros [= <- <-]].
  destruct (negb u0 && b_exists b); intros [= <- <-]; [by eapply sameDom_setBlock'|done].
Qed.
Lemma isTargetUpToDateSnap_dom sn mk t u mk' : isTargetUpToDateSnap sn mk t = (u, mk') -> sameDom mk mk'.
Proof.
  unfold isTargetUpToDateSnap. destruct (upToDateCore sn mk t) as [u1 mk1] eqn:E1. apply upToDateCore_dom in E1.
  destruct (mk_targets mk1 !! t) as [b|] eqn:Eb; [|by intros [= <- <-]].
  destruct (if u1 && negb (isNil (b_rules b)) then _ else _) as [u2 mk2] eqn:E2.
  intros H%forgetTime_dom. cbn in H. eapply sameDom_trans; [exact E1|]. eapply sameDom_trans; [|exact H]. clear H.
  destruct (u1 && negb (isNil (b_rules b))); [|by injection E2 as <- <-].
  cbv zeta in E2. destruct (_ <? _)%nat; [|by injection E2 as <- <-].
  set (mkx := setBlock mk1 t _) in E2.
  destruct (forgetTime (upToDateCore sn mkx t) t) as [u' mkx'] eqn:E3.
  destruct (upToDateCore sn mkx t) as [u3 mk3] eqn:E4.
  apply forgetTime_dom in E3. cbn in E3. apply upToDateCore_dom in E4.
  assert (sameDom mk1 mkx') as Hd.
  { eapply sameDom_trans; [|exact E3]. eapply sameDom_trans; [|exact E4]. by eapply sameDom_setBlock'. }
  destruct (mk_targets mkx' !! t) as [bx|] eqn:Ex; injection E2 as <- <-; [|done].
  eapply sameDom_trans; [exact Hd|]. by eapply sameDom_setBlock'.
Qed.
Lemma isTargetUpToDate_dom w mk t u mk' : isTargetUpToDate w mk t = (u, mk') -> sameDom mk mk'.
Proof.
  unfold isTargetUpToDate. destruct (isTargetUpToDateSnap _ mk t) as [u1 mk1] eqn:E.
  intros [= <- <-]. apply isTargetUpToDateSnap_dom in E. intros x. apply E.
Qed.

Section InferDom.
Context (xp : qstr -> option qstr).
Lemma applyToTarget_dom be sn mk q t mk' q' : applyToTarget xp be sn mk q t = Some (mk', q') -> sameDom mk mk'.
Proof.
  unfold applyToTarget. destruct (mk_targets mk !! t) as [b|] eqn:E; [|by intros [= <- <-]].
  destruct (chooseRule sn mk b) as [r|]; [|by intros [= <- <-]].
  destruct (be && r_batch r); [intros [= <- <-]; by eapply sameDom_setBlock'|].
  unfold applySingle. destruct (instCommands _ _ _); [|done]. intros [= <- <-]. by eapply sameDom_setBlock'.
Qed.
Lemma applyToTargets_dom be sn ts : forall mk q mk' q', applyToTargets xp be sn mk q ts = Some (mk', q') -> sameDom mk mk'.
Proof.
  induction ts as [|t ts IH]; intros mk q mk' q'; cbn; [by intros [= <- <-]|].
  destruct (applyToTarget xp be sn mk q t) as [[mk1 q1]|] eqn:E; [|done].
  intros H. eapply sameDom_trans; [by eapply applyToTarget_dom|by eapply IH].
Qed.
Lemma batchCollect_dom exe r ts : forall mk acc mk' ds, batchCollect mk exe r ts acc = (mk', ds) -> sameDom mk mk'.
Proof.
  induction ts as [|t ts IH]; intros mk acc mk' ds; cbn; [by intros [= <- <-]|].
  intros H. apply IH in H. eapply sameDom_trans; [|exact H].
  set (mk1 := match mk_targets mk !! t with Some b => setBlock mk t (clearRules b) | None => mk end).
  assert (sameDom mk mk1) as H1. { unfold mk1. destruct (mk_targets mk !! t) eqn:E; [by eapply sameDom_setBlock'|done]. }
  destruct (mk_targets mk1 !! exe) eqn:E; [|done]. eapply sameDom_trans; [exact H1|]. by eapply sameDom_setBlock'.
Qed.
Lemma applyBatch_dom mk r b mk' : applyBatch xp mk r b = Some mk' -> sameDom mk mk'.
Proof.
  destruct b as [|exe b]; [by intros [= <-]|]. unfold applyBatch.
  destruct (batchCollect mk exe r (exe :: b) []) as [mk1 ds] eqn:E. apply batchCollect_dom in E.
  destruct (instCommands _ _ _); [|done]. destruct (mk_targets mk1 !! exe) eqn:E1; intros [= <-]; [|done].
  eapply sameDom_trans; [exact E|]. by eapply sameDom_setBlock'.
Qed.
Lemma applyBatches_dom r bs : forall mk mk', applyBatches xp mk r bs = Some mk' -> sameDom mk mk'.
Proof.
  induction bs as [|b bs IH]; intros mk mk'; cbn; [by intros [= <-]|].
  destruct (applyBatch xp mk r b) eqn:E; [|done]. intros H. eapply sameDom_trans; [by eapply applyBatch_dom|by eapply IH].
Qed.
Lemma applyQueue_dom j q rs : forall mk mk', applyQueue xp j mk q rs = Some mk' -> sameDom mk mk'.
Proof.
  induction rs as [|r rs IH]; intros mk mk'; cbn; [by intros [= <-]|].
  destruct (applyBatches xp mk r _) eqn:E; [|done]. intros H. eapply sameDom_trans; [by eapply applyBatches_dom|by eapply IH].
Qed.
Lemma applyInferenceRules_dom o sn mk ts mk' : applyInferenceRules xp o sn mk ts = Some mk' -> sameDom mk mk'.
Proof.
  unfold applyInferenceRules. destruct (applyToTargets xp (o_batch o) sn mk [] ts) as [[mk1 q]|] eqn:E; [|done].
  intros H. eapply sameDom_trans; [by eapply applyToTargets_dom|by eapply applyQueue_dom].
Qed.
End InferDom.

(** *** Graphs that differ in the dirty flag only. *)
Definition gsim (g g' : graph) : Prop := g_nodes g' = g_nodes g /\ g_leaves g' = g_leaves g.
Lemma gsim_refl g : gsim g g. Proof. done. Qed.
Lemma gsim_trans a b c : gsim a b -> gsim b c -> gsim a c.
Proof. unfold gsim. intuition congruence. Qed.
Lemma gsim_in g g' x : gsim g g' -> (inG g' x <-> inG g x).
Proof. intros [H _]. unfold inG. by rewrite H. Qed.
Lemma gsim_children g g' x : gsim g g' -> childrenOf g' x = childrenOf g x.
Proof. intros [H _]. unfold childrenOf. by rewrite H. Qed.
Lemma gsim_parents g g' x : gsim g g' -> parentsOf g' x = parentsOf g x.
Proof. intros [H _]. unfold parentsOf. by rewrite H. Qed.
Lemma gsim_state g g' x : gsim g g' -> stateOf g' x = stateOf g x.
Proof. intros [H _]. unfold stateOf. by rewrite H. Qed.
Lemma gsim_edgesOk g g' : gsim g g' -> edgesOk g -> edgesOk g'.
Proof.
  intros H [E1 E2 E3]. split; intros.
  - by rewrite (gsim_children g g'), (gsim_parents g g').
  - by rewrite (gsim_children g g').
  - by rewrite (gsim_parents g g').
Qed.
Lemma gsim_gwf g g' : gsim g g' -> gwf g -> gwf g'.
Proof.
  intros H [E1 E2 E3 E4]. split.
  - by eapply gsim_edgesOk.
  - destruct H as [_ ->]. done.
  - intros t. rewrite (gsim_in g g'), (gsim_children g g') by done. destruct H as [_ ->]. apply E3.
  - intros t. rewrite (gsim_state g g'), (gsim_in g g'), (gsim_children g g') by done. apply E4.
Qed.
Lemma detach_sim t p g g' : gsim g g' -> gsim (detachFrom t p g) (detachFrom t p g').
Proof.
  intros [H1 H2]. unfold detachFrom. rewrite H1. destruct (g_nodes g !! p); [|done].
  cbv zeta. destruct (isNil _); split; cbn; congruence.
Qed.
Lemma removeLeaf_sim t g g' : gsim g g' -> gsim (removeLeaf t g) (removeLeaf t g').
Proof.
  intros H. unfold removeLeaf. destruct H as [H1 H2]. rewrite H1. destruct (g_nodes g !! t) as [n|]; [|done].
  assert (forall ps a b, gsim a b -> gsim (fold_left (fun g p => detachFrom t p g) ps a) (fold_left (fun g p => detachFrom t p g) ps b)) as Hf.
  { induction ps as [|p ps IH]; intros a b Hab; [done|]. cbn. apply IH. by apply detach_sim. }
  edestruct Hf as [Ha Hb]; [|split; cbn; [f_equal; exact Ha|exact Hb]]. split; cbn; congruence.
Qed.

(** *** setState *)
Lemma setState_lookup s t g x :
  g_nodes (setState s t g) !! x =
  (fun n => Node (if decide (x = t) then s else nd_state n) (nd_children n) (nd_parents n)) <$> g_nodes g !! x.
Proof.
  unfold setState. rewrite updNode_lookup. destruct (decide (x = t)) as [->|]; [done|].
  by destruct (g_nodes g !! x) as [[]|].
Qed.
Lemma setState_in s t g x : inG (setState s t g) x <-> inG g x.
Proof. unfold inG. by rewrite setState_lookup, fmap_is_Some. Qed.
Lemma setState_children s t g x : childrenOf (setState s t g) x = childrenOf g x.
Proof. unfold childrenOf. rewrite setState_lookup. by destruct (g_nodes g !! x). Qed.
Lemma setState_parents s t g x : parentsOf (setState s t g) x = parentsOf g x.
Proof. unfold parentsOf. rewrite setState_lookup. by destruct (g_nodes g !! x). Qed.
Lemma setState_state s t g x : inG g t -> stateOf (setState s t g) x = if decide (x = t) then s else stateOf g x.
Proof.
  intros [n Hn]. unfold stateOf. rewrite setState_lookup. destruct (decide (x = t)) as [->|]; [by rewrite Hn|].
  by destruct (g_nodes g !! x).
Qed.
Lemma setState_edgesOk s t g : edgesOk g -> edgesOk (setState s t g).
Proof. intros [E1 E2 E3]. split; intros; rewrite ?setState_children, ?setState_parents; auto. Qed.
Lemma setState_size s t g : size (g_nodes (setState s t g)) = size (g_nodes g).
Proof.
  rewrite <- !size_dom. f_equal. apply set_eq. intros x. rewrite !elem_of_dom. apply setState_in.
Qed.
Lemma setState_gwf s t g : gwf g -> inG g t -> s <> ExecutingState \/ childrenOf g t = [] -> gwf (setState s t g).
Proof.
  intros [E1 E2 E3 E4] Ht Hs. split.
  - by apply setState_edgesOk.
  - done.
  - intros x. rewrite setState_in, setState_children. apply E3.
  - intros x. rewrite setState_state, setState_in, setState_children by done.
    destruct (decide (x = t)) as [->|]; [|apply E4]. intros -> _. naive_solver.
Qed.
Lemma removeLeaf_setState s t g : edgesOk g -> inG g t -> childrenOf g t = [] ->
  gsim (removeLeaf t g) (removeLeaf t (setState s t g)).
Proof.
  intros He Ht Hc. split.
  - apply map_eq. intros x. rewrite !removeLeaf_lookup; try done.
    + rewrite setState_lookup. destruct (decide (x = t)); [done|]. by destruct (g_nodes g !! x).
    + by apply setState_edgesOk.
    + by apply setState_in.
    + by rewrite setState_children.
  - destruct (removeLeaf_leaves g t He Ht Hc) as [-> _].
    destruct (removeLeaf_leaves (setState s t g) t) as [-> _].
    + by apply setState_edgesOk.
    + by apply setState_in.
    + by rewrite setState_children.
    + rewrite setState_parents. f_equal. apply filter_ext. intros x. by rewrite setState_children.
Qed.

(** *** Removing leaves, with the history it leaves behind. *)
Section Prune.
Context (w : world) (o : bopts).

(** One removal is justified. *)
Definition justified (g : graph) (e : logev) : Prop :=
  match e with
  | LUpToDate t mk => fst (isTargetUpToDate w mk t) = true /\ stateOf g t <> ExecutingState
  | LNoCmds t mk => (forall b, mk_targets mk !! t = Some b -> b_cmds b = []) /\ stateOf g t <> ExecutingState
  | LUnbuildable t => o_keep o = true /\ stateOf g t = Unbuildable
  | _ => False
  end.
Definition removedBy (e : logev) : option tid :=
  match e with
  | LUpToDate t _ | LNoCmds t _ | LUnbuildable t | LEnd t _ => Some t
  | _ => None
  end.

Inductive prunes : graph -> list logev -> graph -> Prop :=
| pr_nil g g' : gsim g g' -> prunes g [] g'
| pr_cons g t e es g' : removedBy e = Some t -> inG g t -> childrenOf g t = [] -> justified g e ->
    prunes (removeLeaf t g) es g' -> prunes g (e :: es) g'.

Lemma justified_sim g g' e : gsim g g' -> justified g e -> justified g' e.
Proof.
  intros H. destruct e; cbn; try done; by rewrite (gsim_state g g').
Qed.
Lemma prunes_sim g g1 es g' : gsim g g1 -> prunes g1 es g' -> prunes g es g'.
Proof.
  intros Hs Hp. revert g Hs. induction Hp as [g1 g' H|g1 t e es g' He Hin Hc Hj Hp IH]; intros g Hs.
  - constructor. by eapply gsim_trans.
  - assert (gsim g1 g) as Hs' by (destruct Hs; split; congruence).
    econstructor; [done|by apply (gsim_in g g1)| |by eapply justified_sim|].
    + by rewrite <- (gsim_children g g1).
    + apply IH. by apply removeLeaf_sim.
Qed.
Lemma prunes_sim_r g es g' g'' : prunes g es g' -> gsim g' g'' -> prunes g es g''.
Proof.
  induction 1 as [g1 g' H|g1 t e es g' He Hin Hc Hj Hp IH]; intros Hs.
  - constructor. by eapply gsim_trans.
  - econstructor; eauto.
Qed.
Lemma prunes_app g es g' es' g'' : prunes g es g' -> prunes g' es' g'' -> prunes g (es ++ es') g''.
Proof.
  induction 1 as [g1 g' H|g1 t e es g' He Hin Hc Hj Hp IH]; intros Hs.
  - by eapply prunes_sim.
  - cbn. econstructor; eauto.
Qed.
Lemma prunes_gwf g es g' : prunes g es g' -> gwf g -> gwf g'.
Proof.
  induction 1 as [g1 g' H|g1 t e es g' He Hin Hc Hj Hp IH]; intros Hw.
  - by eapply gsim_gwf.
  - apply IH. by apply removeLeaf_gwf.
Qed.
Lemma prunes_size g es g' : prunes g es g' -> gwf g -> length es + size (g_nodes g') = size (g_nodes g).
Proof.
  induction 1 as [g1 g' [H _]|g1 t e es g' He Hin Hc Hj Hp IH]; intros Hw.
  - by rewrite H.
  - cbn. rewrite IH by by apply removeLeaf_gwf. apply removeLeaf_size; [done|apply Hw|done].
Qed.

(** A step of the loop: collect and remove. *)
Definition upEv (p : tid * mkfile) : logev := LUpToDate (fst p) (snd p).

Lemma collect_spec g ls : forall mk ups mk', collectUpToDate w mk g ls = (ups, mk') ->
  sameDom mk mk' /\ (forall t m, (t, m) ∈ ups -> t ∈ ls /\ stateOf g t <> ExecutingState /\ fst (isTargetUpToDate w m t) = true)
  /\ (NoDup ls -> NoDup (map fst ups)).
Proof.
  induction ls as [|t ls IH]; intros mk ups mk'; cbn -[decide].
  { intros [= <- <-]. split_and!; [done| |constructor]. by intros ? ? ?%elem_of_nil. }
  destruct (decide (stateOf g t = ExecutingState)) as [Hs|Hs].
  - intros H. destruct (IH _ _ _ H) as (I1 & I2 & I3). split_and!; [done| |].
    + intros x m Hx. destruct (I2 x m Hx) as (? & ? & ?). split_and!; [set_solver|done|done].
    + intros [_ ?]%NoDup_cons. auto.
  - destruct (isTargetUpToDate w mk t) as [u mk1] eqn:Eu.
    destruct (collectUpToDate w mk1 g ls) as [r mk2] eqn:Er. intros [= <- <-].
    destruct (IH _ _ _ Er) as (I1 & I2 & I3). split_and!.
    + eapply sameDom_trans; [by eapply isTargetUpToDate_dom|done].
    + intros x m Hx. destruct u.
      * apply elem_of_cons in Hx as [[= -> ->]|Hx].
        -- split_and!; [set_solver|done|by rewrite Eu].
        -- destruct (I2 x m Hx) as (? & ? & ?). split_and!; [set_solver|done|done].
      * destruct (I2 x m Hx) as (? & ? & ?). split_and!; [set_solver|done|done].
    + intros [Hn Hnd]%NoDup_cons. destruct u; [|auto]. cbn. apply NoDup_cons. split; [|auto].
      intros ([x m] & Hx & Hm)%elem_of_list_In%in_map_iff. cbn in Hx. subst x.
      apply elem_of_list_In in Hm. destruct (I2 t m Hm) as (? & _). done.
Qed.

Lemma removeAll_spec ups : forall g, gwf g -> NoDup (map fst ups) ->
  (forall t m, (t, m) ∈ ups -> t ∈ g_leaves g /\ stateOf g t <> ExecutingState /\ fst (isTargetUpToDate w m t) = true) ->
  prunes g (map upEv ups) (fold_left (fun g t => removeLeaf t g) (map fst ups) g)
  /\ (g_dirty (fold_left (fun g t => removeLeaf t g) (map fst ups) g) = true -> g_dirty g = true \/ ups <> []).
Proof.
  induction ups as [|[t m] ups IH]; intros g Hw Hnd H; cbn.
  { split; [by constructor|]. auto. }
  apply NoDup_cons in Hnd as [Hn Hnd].
  destruct (H t m ltac:(set_solver)) as (Hl & Hs & Hu).
  apply (gw_leaves g Hw) in Hl as [Hin Hc].
  destruct (IH (removeLeaf t g)) as [I1 I2].
  - by apply removeLeaf_gwf.
  - done.
  - intros x mx Hx. destruct (H x mx ltac:(set_solver)) as (Hlx & Hsx & Hux).
    assert (x <> t) as Hne. { intros ->. apply Hn. apply elem_of_list_In, in_map_iff. exists (t, mx). split; [done|]. by apply elem_of_list_In. }
    split_and!; [|by rewrite removeLeaf_state by (done || apply Hw)|done].
    apply gw_leaves; [by apply removeLeaf_gwf|]. apply (gw_leaves g Hw) in Hlx as [Hx1 Hx2].
    rewrite removeLeaf_in, removeLeaf_children by (done || apply Hw). rewrite Hx2. done.
  - split; [|by right]. econstructor; [done|done|done| |exact I1]. cbn. done.
Qed.

Lemma pruneLoop_spec fuel : forall mk g acc r, gwf g -> pruneLoop fuel w mk g acc = Some r ->
  exists mk' g' ups, r = (mk', g', acc ++ ups) /\ sameDom mk mk' /\ prunes g (map upEv ups) g' /\ g_dirty g' = false.
Proof.
  induction fuel as [|fuel IH]; intros mk g acc r Hw; cbn.
  { destruct (g_dirty g) eqn:Ed; [done|]. intros [= <-]. exists mk, g, []. rewrite app_nil_r. split_and!; try done. by constructor. }
  destruct (g_dirty g) eqn:Ed.
  - destruct (collectUpToDate w mk _ (g_leaves g)) as [ups mk1] eqn:Ec. intros H.
    destruct (collect_spec _ _ _ _ _ Ec) as (C1 & C2 & C3).
    set (g1 := Graph (g_nodes g) (g_leaves g) false) in *.
    assert (gsim g g1) as Hs1 by done. assert (gwf g1) as Hw1 by by eapply gsim_gwf.
    destruct (removeAll_spec ups g1 Hw1 (C3 (gw_ndl g Hw))) as [P1 P2]; [done|].
    assert (gwf (fold_left (fun g t => removeLeaf t g) (map fst ups) g1)) as Hw2 by by eapply prunes_gwf.
    destruct (IH _ _ _ _ Hw2 H) as (mk' & g' & ups' & -> & D & P & Hd).
    exists mk', g', (ups ++ ups'). rewrite app_assoc. split_and!; try done.
    + by eapply sameDom_trans.
    + rewrite map_app. eapply prunes_app; [|exact P]. by eapply prunes_sim.
  - intros [= <-]. exists mk, g, []. rewrite app_nil_r. split_and!; try done. by constructor.
Qed.

Lemma pruneLoop_fuel fuel : forall mk g acc, gwf g -> (size (g_nodes g) + (if g_dirty g then 1 else 0) < S fuel)%nat ->
  pruneLoop fuel w mk g acc <> None.
Proof.
  induction fuel as [|fuel IH]; intros mk g acc Hw Hf; cbn.
  { destruct (g_dirty g); [lia|done]. }
  destruct (g_dirty g) eqn:Ed; [|done].
  destruct (collectUpToDate w mk _ (g_leaves g)) as [ups mk1] eqn:Ec.
  destruct (collect_spec _ _ _ _ _ Ec) as (C1 & C2 & C3).
  set (g1 := Graph (g_nodes g) (g_leaves g) false) in *.
  assert (gwf g1) as Hw1 by by eapply (gsim_gwf g).
  destruct (removeAll_spec ups g1 Hw1 (C3 (gw_ndl g Hw))) as [P1 P2]; [done|].
  pose proof (prunes_size _ _ _ P1 Hw1) as Hsz. rewrite map_length in Hsz. change (g_nodes g1) with (g_nodes g) in Hsz.
  apply IH; [by eapply prunes_gwf|].
  destruct (g_dirty (fold_left _ _ g1)) eqn:Ed2.
  - destruct (P2 eq_refl) as [?|Hne]; [done|]. destruct ups; [done|]. cbn [length] in Hsz. cbn in *. lia.
  - cbn in *. lia.
Qed.

Context (xp : qstr -> option qstr).

Definition allExecuting (g : graph) : Prop := forall t, t ∈ g_leaves g -> stateOf g t = ExecutingState.

Lemma firstIdle_spec g :
  match firstIdle g with
  | Some t => t ∈ g_leaves g /\ stateOf g t <> ExecutingState
  | None => allExecuting g
  end.
Proof.
  unfold firstIdle. destruct (List.find _ _) as [t|] eqn:E.
  - apply find_some in E as [H1 H2]. apply bool_decide_eq_true in H2. split; [by apply elem_of_list_In|done].
  - intros t Ht. destruct (decide (stateOf g t = ExecutingState)) as [|Hn]; [done|].
    pose proof (find_none _ _ E t) as Hf. cbn in Hf. rewrite bool_decide_eq_false in Hf.
    exfalso. apply Hf; [by apply elem_of_list_In|done].
Qed.

(** Macro expansion fails in an inference rule. *)
Definition inferThrows : Prop := exists sn mk ts, applyInferenceRules xp o sn mk ts = None.

Lemma findAvailable_spec mk g : gwf g ->
  match findAvailableTarget xp o w mk g with
  | Ok (r, mk', g', ups) =>
    sameDom mk mk' /\ exists g1, prunes g (map upEv ups) g1 /\ gwf g1
      /\ match r with
         | None => g' = g1 /\ allExecuting g1
         | Some t => t ∈ g_leaves g1 /\ stateOf g1 t <> ExecutingState
                     /\ g' = (if decide (stateOf g1 t = Unbuildable) then g1 else setState ExecutingState t g1)
         end
  | Throws => inferThrows
  | _ => False
  end.
Proof.
  intros Hw. unfold findAvailableTarget. destruct (isNil (g_leaves g)) eqn:En.
  { apply isNil_true in En. split; [done|]. exists g. split_and!; try done; [by constructor|].
    intros t. rewrite En. by intros ?%elem_of_nil. }
  destruct (if o_all o then Some (mk, g, []) else pruneLoop _ w mk g []) as [[[mk1 g1] ups]|] eqn:Ep.
  2: { destruct (o_all o); [done|]. eapply pruneLoop_fuel in Ep; [done|done|]. destruct (g_dirty g); lia. }
  assert (sameDom mk mk1 /\ prunes g (map upEv ups) g1) as [D P].
  { destruct (o_all o).
    - injection Ep as <- <- <-. split; [done|by constructor].
    - destruct (pruneLoop_spec _ _ _ _ _ Hw Ep) as (mk' & g' & ups' & [= -> -> ->] & ? & ? & ?). done. }
  assert (gwf g1) as Hw1 by by eapply prunes_gwf.
  destruct (applyInferenceRules xp o (w (mk_tick mk1)) mk1 (rev (g_leaves g1))) as [mk2'|] eqn:Ei; [|by do 3 eexists].
  apply applyInferenceRules_dom in Ei.
  set (mk2 := Mkfile (mk_targets mk2') _ _ _).
  assert (sameDom mk mk2) as D2 by (eapply sameDom_trans; [exact D|exact Ei]).
  pose proof (firstIdle_spec g1) as Hfi. destruct (firstIdle g1) as [t|].
  - destruct Hfi as [Hl Hs]. split.
    + destruct (o_all o); [|done]. destruct (isTargetUpToDate w mk2 t) as [u mk3] eqn:Eu.
      eapply sameDom_trans; [exact D2|]. by eapply isTargetUpToDate_dom.
    + exists g1. done.
  - split; [done|]. exists g1. done.
Qed.

Lemma findNextTarget_spec fuel : forall mk g log, gwf g -> size (g_nodes g) < fuel ->
  match findNextTarget xp w o fuel mk g log with
  | Ok (r, mk', g', log') =>
    sameDom mk mk' /\ exists g1 es, log' = log ++ es /\ prunes g es g1 /\ gwf g1
      /\ match r with
         | None => g' = g1 /\ allExecuting g1
         | Some t => t ∈ g_leaves g1 /\ stateOf g1 t <> ExecutingState
                     /\ (o_keep o = true -> stateOf g1 t <> Unbuildable)
                     /\ (exists b, mk_targets mk' !! t = Some b /\ b_cmds b <> [])
                     /\ g' = (if decide (stateOf g1 t = Unbuildable) then g1 else setState ExecutingState t g1)
         end
  | Throws => inferThrows
  | _ => False
  end.
Proof.
  induction fuel as [|fuel IH]; intros mk g log Hw Hf; [lia|]. cbn [findNextTarget].
  pose proof (findAvailable_spec mk g Hw) as Ha.
  destruct (findAvailableTarget xp o w mk g) as [[[[r mk1] g'] ups]| |c| |]; try done.
  destruct Ha as (D & g1 & P & Hw1 & Hr). destruct r as [t|].
  2: { destruct Hr as [-> Hr]. split; [done|]. exists g1, (map upEv ups). done. }
  destruct Hr as (Hl & Hs & ->). cbv zeta.
  pose proof (proj1 (gw_leaves g1 Hw1 t) Hl) as [Hin Hc].
  pose proof (prunes_size _ _ _ P Hw) as Hsz.
  set (g2 := if decide (stateOf g1 t = Unbuildable) then g1 else setState ExecutingState t g1).
  assert (gsim (removeLeaf t g1) (removeLeaf t g2)) as Hsim.
  { unfold g2. destruct (decide _); [done|]. apply removeLeaf_setState; [apply Hw1|done|done]. }
  assert (gwf (removeLeaf t g2)) as Hw2.
  { eapply gsim_gwf; [exact Hsim|]. by apply removeLeaf_gwf. }
  assert (size (g_nodes (removeLeaf t g2)) < fuel) as Hf2.
  { destruct Hsim as [-> _]. pose proof (removeLeaf_size g1 t Hin (gw_edges g1 Hw1) Hc). lia. }
  assert (forall e, removedBy e = Some t -> justified g1 e ->
    match findNextTarget xp w o fuel mk1 (removeLeaf t g2) ((log ++ map upEv ups) ++ [e]) with
    | Ok (r, mk', g', log') =>
      sameDom mk mk' /\ exists g1 es, log' = log ++ es /\ prunes g es g1 /\ gwf g1
        /\ match r with
           | None => g' = g1 /\ allExecuting g1
           | Some t => t ∈ g_leaves g1 /\ stateOf g1 t <> ExecutingState
                       /\ (o_keep o = true -> stateOf g1 t <> Unbuildable)
                       /\ (exists b, mk_targets mk' !! t = Some b /\ b_cmds b <> [])
                       /\ g' = (if decide (stateOf g1 t = Unbuildable) then g1 else setState ExecutingState t g1)
           end
    | Throws => inferThrows
    | _ => False
    end) as Hrec.
  { intros e He Hj. specialize (IH mk1 (removeLeaf t g2) ((log ++ map upEv ups) ++ [e]) Hw2 Hf2).
    destruct (findNextTarget xp w o fuel mk1 _ _) as [[[[r mk'] g'] log']| |c| |]; try done.
    destruct IH as (D' & g3 & es & -> & P' & Hw3 & Hr'). split; [by eapply sameDom_trans|].
    exists g3, (map upEv ups ++ e :: es). split_and!; try done.
    - by rewrite <- !app_assoc.
    - eapply prunes_app; [exact P|]. econstructor; [done|done|done|done|]. by eapply prunes_sim. }
  destruct (mk_targets mk1 !! t) as [b|] eqn:Eb.
  - destruct (isNil (b_cmds b)) eqn:En.
    + apply isNil_true in En. apply Hrec; [done|]. cbn. split; [|done]. intros b' Hb'. naive_solver.
    + apply isNil_false in En.
      assert (stateOf g2 t = Unbuildable <-> stateOf g1 t = Unbuildable) as Hst.
      { unfold g2. destruct (decide _); [done|]. rewrite setState_state by done. destruct (decide _); naive_solver. }
      destruct (o_keep o && bool_decide (stateOf g2 t = Unbuildable)) eqn:Ek.
      * apply andb_true_iff in Ek as [Ek1 Ek2]. apply bool_decide_eq_true in Ek2.
        apply Hrec; [done|]. cbn. split; [done|]. by apply Hst.
      * split; [done|]. exists g1, (map upEv ups). split_and!; try done; [|by eauto].
        intros Hk Hu. rewrite Hk in Ek. cbn in Ek. apply bool_decide_eq_false in Ek. apply Ek. by apply Hst.
  - cbn [isNil]. apply Hrec; [done|]. cbn. split; [|done]. intros b' Hb'. naive_solver.
Qed.
End Prune.
