(** Every build ends: a measure that every step decreases; and there is always an event to wait for. *)
From Coq Require Import Relations Wellfounded.
From stdpp Require Import prelude gmap.
From RecordUpdate Require Import RecordUpdate.
From Verif Require Import Base Data Infer UpToDate Graph Exec ExecSpec GraphProofs BuildProofs PruneProofs SchedInv TraceInv ExecProofs.

Lemma markParents_orphan fuel t g g2 : parentsOf g t = [] -> markParents fuel t g = Some g2 -> g2 = g.
Proof. intros H. destruct fuel; cbn; [done|]. rewrite H. cbn. by intros [= <-]. Qed.

Local Arguments markParents : simpl never.
Local Arguments removeLeaf : simpl never.
Local Arguments findNextTarget : simpl never.
Local Arguments dropped : simpl never.
Local Arguments replaced : simpl never.
Local Arguments jt : simpl never.
Local Arguments childFinished : simpl never.
Local Arguments buildNextTarget : simpl never.

(** *** A lexicographic order *)
Definition mu5 : Type := nat * nat * nat * nat * nat.
Definition lt5 (x y : mu5) : Prop :=
  let '(a, b, c, d, e) := x in let '(a', b', c', d', e') := y in
  a < a' \/ a = a' /\ (b < b' \/ b = b' /\ (c < c' \/ c = c' /\ (d < d' \/ d = d' /\ e < e'))).
Lemma lt5_wf : well_founded lt5.
Proof.
  intros [[[[a b] c] d] e].
  revert b c d e. induction (lt_wf a) as [a _ IHa]. intros b.
  induction (lt_wf b) as [b _ IHb]. intros c.
  induction (lt_wf c) as [c _ IHc]. intros d.
  induction (lt_wf d) as [d _ IHd]. intros e.
  induction (lt_wf e) as [e _ IHe].
  constructor. intros [[[[a' b'] c'] d'] e'] H. cbn in H.
  destruct H as [H|[-> [H|[-> [H|[-> [H|[-> H]]]]]]]]; auto.
Qed.

(** *** The measure *)
Definition idleSet (g : graph) : gset tid := filter (fun x => stateOf g x <> ExecutingState) (dom (g_nodes g)).
Definition idle (g : graph) : nat := size (idleSet g).
Lemma idle_in g x : x ∈ idleSet g <-> inG g x /\ stateOf g x <> ExecutingState.
Proof. unfold idleSet. rewrite elem_of_filter, elem_of_dom. unfold inG. tauto. Qed.
Lemma idle_le g g' : (forall x, inG g' x -> stateOf g' x <> ExecutingState -> inG g x /\ stateOf g x <> ExecutingState) ->
  idle g' <= idle g.
Proof. intros H. unfold idle. apply subseteq_size. intros x [H1 H2]%idle_in. apply idle_in. auto. Qed.
Lemma idle_lt g g' t : (forall x, inG g' x -> stateOf g' x <> ExecutingState -> inG g x /\ stateOf g x <> ExecutingState) ->
  inG g t -> stateOf g t <> ExecutingState -> not (inG g' t /\ stateOf g' t <> ExecutingState) ->
  idle g' < idle g.
Proof.
  intros H H1 H2 H3. unfold idle. apply subset_size. apply strict_spec_alt. split.
  - intros x [H4 H5]%idle_in. apply idle_in. auto.
  - intros E. apply H3. apply idle_in. rewrite E. apply idle_in. done.
Qed.
Lemma idle_empty g : g_nodes g = ∅ -> idle g = 0.
Proof. intros H. unfold idle, idleSet. rewrite H. apply size_empty_iff. set_solver. Qed.

Definition cmdsLeft (js : list job) : nat := sum_list_with (fun j => length (j_cmds j)) js.
Definition aliveW (j : job) : nat := match j_state j with JWatched | JUnwatched => 1 | _ => 0 end.
Definition acqW (a : acqstate) : nat := match a with AIdle => 0 | ARequested => 2 | ATaken => 1 end.
Definition nextW (n : option tid) : nat := match n with Some _ => 1 | None => 0 end.
Definition mu (s : est) : mu5 :=
  (length (e_pending s), idle (e_g s), nextW (e_next s), cmdsLeft (e_jobs s),
   e_queue s + acqW (e_acquiring s) + sum_list_with aliveW (e_jobs s)).

Lemma sum_perm {A} (f : A -> nat) l l' : l ≡ₚ l' -> sum_list_with f l = sum_list_with f l'.
Proof. induction 1; cbn; lia. Qed.

Local Arguments cmdsLeft : simpl never.
Local Arguments idle : simpl never.

(** *** What the parts of a step leave alone *)
Section Term.
Context (xp : qstr -> option qstr) (prep : mkfile -> tid -> nat -> option (list command))
        (kind : command -> ckind) (w : world) (o : bopts) (roots : list (option tid)).
Context (Hjobs : 0 < o_jobs o).

Lemma waitFrom_same n : forall k s, let s' := waitFrom o n k s in
  e_pending s' = e_pending s /\ e_g s' = e_g s /\ e_next s' = e_next s /\ e_jobs s' = e_jobs s
  /\ e_queue s' = e_queue s /\ e_acquiring s' = e_acquiring s.
Proof.
  induction n as [|n IH]; intros k s; cbn.
  - by destruct (e_acquiring s) eqn:E; cbn; rewrite ?E.
  - destruct (jobOf k s) as [j|]; [|apply IH]. destruct (procRunning j); [done|apply IH].
Qed.

Lemma childFinished_same r mk0 mk nx evs k t f s js : 
  g_nodes (e_g s) = ∅ \/ (GI o r mk0 mk (e_g s) nx (t :: js) evs /\ JI w o r mk0 (t :: js) evs) ->
  let s' := childFinished o k t f s in e_end s' = None ->
  length (e_pending s') <= length (e_pending s) /\ idle (e_g s') <= idle (e_g s) /\ e_next s' = e_next s
  /\ e_jobs s' = dropped k (e_jobs s) /\ e_queue s' <= S (e_queue s) /\ e_acquiring s' = e_acquiring s.
Proof.
  intros HG. cbv zeta. rewrite childFinished_eq.
  assert (forall g2, (g2 = e_g s \/ exists fuel, markParents fuel t (e_g s) = Some g2) -> idle (removeLeaf t g2) <= idle (e_g s)) as Hidle.
  { intros g2 Hg2. destruct HG as [HG|[G J]].
    - assert (g_nodes g2 = ∅) as Hg2n.
      { destruct Hg2 as [->|[fuel Hm]]; [done|]. apply markParents_orphan in Hm as ->; [done|].
        unfold parentsOf. by rewrite HG, lookup_empty. }
      rewrite removeLeaf_absent by (rewrite Hg2n; apply lookup_empty). rewrite (idle_empty g2) by done. lia.
    - assert (inG (e_g s) t) as Ht by (eapply gi_jin; [exact G|by left]).
      assert (stateOf (e_g s) t = ExecutingState) as Hst by (apply (gi_exec _ _ _ _ _ _ _ _ G); [done|right; by left]).
      pose proof (gw_exec _ (gi_wf _ _ _ _ _ _ _ _ G) t Hst Ht) as Hc.
      pose proof (gw_edges _ (gi_wf _ _ _ _ _ _ _ _ G)) as He.
      assert (sameShape (e_g s) g2 /\ (forall x, inG (e_g s) x -> stateOf g2 x <> ExecutingState -> x <> t -> stateOf (e_g s) x <> ExecutingState)) as [Hsh Hex].
      { destruct Hg2 as [->|[fuel Hm]]; [split; [apply sameShape_refl|done]|].
        destruct (markParents_spec _ _ _ _ He Hm) as (M1 & M2 & M3). split; [done|].
        intros x Hx Hn Hne E. destruct (M3 x) as [Hs|[Ha Hu]]; [congruence|].
        pose proof (gw_exec _ (gi_wf _ _ _ _ _ _ _ _ G) x E Hx) as Hcx.
        clear -Ha Hcx He. induction Ha as [t x Hx|t y x Hy Hyx IH]; [|auto].
        apply (eo_sym _ He) in Hx. rewrite Hcx in Hx. by apply elem_of_nil in Hx. }
      assert (edgesOk g2) as He2. { destruct He as [E1 E2 E3]. split; intros; rewrite ?(ss_ch _ _ Hsh), ?(ss_pa _ _ Hsh); auto. }
      assert (inG g2 t) as Ht2 by by apply (ss_in _ _ Hsh).
      assert (childrenOf g2 t = []) as Hc2 by by rewrite (ss_ch _ _ Hsh).
      apply idle_le. intros x [Hx Hne]%removeLeaf_in Hs; [|done..]. rewrite removeLeaf_state in Hs by done.
      apply (ss_in _ _ Hsh) in Hx. auto. }
  assert (forall g2, (g2 = e_g s \/ exists fuel, markParents fuel t (e_g s) = Some g2) ->
    let s' := continue o k t f g2 s in e_end s' = None ->
    length (e_pending s') <= length (e_pending s) /\ idle (e_g s') <= idle (e_g s) /\ e_next s' = e_next s
    /\ e_jobs s' = dropped k (e_jobs s) /\ e_queue s' <= S (e_queue s) /\ e_acquiring s' = e_acquiring s) as Hcont.
  { intros g2 Hg2 s' _. unfold s', continue. destruct (f && negb (o_keep o)).
    - destruct (waitFrom_same (o_jobs o) 0 (abort (afterChild k t f g2 s))) as (-> & -> & -> & -> & -> & ->). cbn.
      split_and!; try done; try lia. rewrite idle_empty by done. lia.
    - cbn. split_and!; try done. by apply Hidle. }
  destruct (f && o_keep o); [|apply Hcont; by left].
  destruct (g_nodes (e_g s) !! t); [|done].
  destruct (markParents (S (size (g_nodes (e_g s)))) t (e_g s)) as [g2|] eqn:Em; [|done].
  apply Hcont. right. eauto.
Qed.

Lemma runCmds_rest t cmds : forall codes launch rest l, runCmds kind t cmds codes launch = Some (RProc rest l) ->
  length rest <= length cmds.
Proof.
  induction cmds as [|c cmds IH]; intros codes launch rest l; cbn [runCmds].
  - by destruct codes.
  - destruct (kind c) as [|allowed].
    + destruct codes; [|done]. destruct launch; [|done]. by intros [= <- <-].
    + destruct codes as [|k codes]; [done|]. destruct (existsb (N.eqb k) allowed); [|done].
      destruct (c_max c <? k)%N; [by destruct codes|].
      destruct (runCmds kind t cmds codes launch) as [[]|] eqn:Er; try done. intros [= <- <-].
      apply IH in Er. cbn. lia.
Qed.

Lemma buildNextTarget_mu r mk0 evs t s ch s' : e_aborted s = false -> e_next s = Some t ->
  GI o r mk0 (e_mk s) (e_g s) (Some t) (jt (e_jobs s)) evs -> JI w o r mk0 (jt (e_jobs s)) evs ->
  (forall b, mk_targets (e_mk s) !! t = Some b -> b_cmds b <> []) ->
  buildNextTarget prep kind o ch s = Some s' -> e_end s' = None ->
  length (e_pending s') <= length (e_pending s) /\ idle (e_g s') <= idle (e_g s) /\ e_next s' = None.
Proof.
  intros Hab Hnx G J Hcm H He'.
  unfold buildNextTarget in H. rewrite Hab, Hnx in H.
  destruct (e_avail s) as [|k avail]; [by injection H as <-|].
  destruct (mk_targets (e_mk s) !! t) as [b|] eqn:Eb; [|by injection H as <-].
  destruct (isNil (b_cmds b)) eqn:En; [apply isNil_true in En; by destruct (Hcm b)|].
  destruct (prep (e_mk s) t (ch_prep ch)) as [[|c0 cmds0]|]; [by injection H as <-| |by injection H as <-].
  set (cmds := c0 :: cmds0) in *.
  destruct (runCmds kind t cmds (ch_codes ch) (ch_launch ch)) as [[failed l|rest l|l]|]; [| | |done].
  - injection H as <-. cbn in He'.
    destruct (GI_start w _ _ _ _ _ _ _ _ cmds G J) as [G1 J1].
    match type of He' with e_end (childFinished ?a ?b ?c ?d ?s0) = _ =>
      destruct (childFinished_same r mk0 (e_mk s) None (evs ++ [LStart t cmds]) b c d s0 (jt (e_jobs s))) as (P1 & P2 & P3 & P4 & P5 & P6) end; [|done|].
    + right. done.
    + cbn in *. done.
  - injection H as <-. cbn. done.
  - by injection H as <-.
Qed.

Lemma prunes_idle g es g' : prunes w o g es g' -> gwf g -> idle g' <= idle g.
Proof.
  induction 1 as [g g' Hs|g t e es g' He Hin Hc Hj Hp IH]; intros W.
  - apply idle_le. intros x Hx Hn. rewrite (gsim_state g g') in Hn by done. split; [|done]. by apply (gsim_in g g').
  - etransitivity; [apply IH; by apply removeLeaf_gwf|]. apply idle_le.
    intros x [Hx Hne]%removeLeaf_in Hn; [|apply W|done..]. rewrite removeLeaf_state in Hn; [done|apply W|done|done|done].
Qed.
Lemma choose_idle g t : inG g t -> stateOf g t <> ExecutingState -> idle (setState ExecutingState t g) < idle g.
Proof.
  intros Hi Hn. apply (idle_lt _ _ t); [|done|done|].
  - intros x Hx Hs. pose proof (sameShape_setState ExecutingState t g) as Hsh.
    apply (ss_in _ _ Hsh) in Hx. split; [done|]. destruct (decide (x = t)) as [->|Hne]; [done|].
    intros E. apply Hs. by rewrite setState_state, decide_False.
  - intros [_ E]. apply E. by rewrite setState_state, decide_True.
Qed.

Lemma replaced_sum f j j' js : NoDup (map j_exec js) -> j' ∈ js -> j_exec j' = j_exec j ->
  sum_list_with f (replaced j js) + f j' = sum_list_with f js + f j.
Proof.
  intros Hn Hin He. rewrite (sum_perm f _ _ (replaced_perm j j' js Hn Hin He)), (sum_perm f _ _ (dropped_perm (j_exec j) js j' Hn Hin He)).
  cbn. lia.
Qed.
Lemma dropped_sum f k j js : NoDup (map j_exec js) -> j ∈ js -> j_exec j = k ->
  sum_list_with f js = f j + sum_list_with f (dropped k js).
Proof. intros Hn Hin He. by rewrite (sum_perm f _ _ (dropped_perm k js j Hn Hin He)). Qed.

Lemma newRoot_same t s : e_pending (newRoot w t s) = e_pending s.
Proof. unfold newRoot. by destruct (buildGraph _ _ _ _). Qed.

Lemma mu_queue s : lt5 (mu s) (mu (s <| e_queue ::= S |>)).
Proof. unfold mu. cbn. lia. Qed.
Lemma startProcesses_mu pre r mk0 evs s ch s' : CI kind w o roots pre r mk0 evs s ->
  (if e_aborted s then AB0 o s /\ waitOk s else NA o roots r mk0 evs s) ->
  startProcesses xp prep kind w o ch s = Some s' -> e_end s' = None -> lt5 (mu s') (mu (s <| e_queue ::= S |>)).
Proof.
  intros C HA H He'. unfold startProcesses in H.
  destruct (e_aborted s) eqn:Eab; cbn [orb] in H.
  { injection H as <-. apply mu_queue. }
  pose proof HA as [N1 N2 N3 N4 N5 N6 N7 N8 N9 N10].
  destruct (bool_decide (e_acquiring s = AIdle)) eqn:Eaq; cbn [negb orb] in H.
  2: { injection H as <-. apply mu_queue. }
  apply bool_decide_eq_true in Eaq.
  destruct (isNil (e_avail s)) eqn:Eav.
  { injection H as <-. apply mu_queue. }
  assert (e_next s = None) as Enx.
  { destruct (e_next s) eqn:E; [|done]. exfalso. by apply N3; [eauto|]. }
  rewrite Enx in H, N1. clear N3 N4 N5.
  pose proof (findNextTarget_spec w o xp (S (S (size (g_nodes (e_g s))))) (e_mk s) (e_g s) [] (gi_wf _ _ _ _ _ _ _ _ N1)) as Hfn.
  destruct (findNextTarget xp w o _ (e_mk s) (e_g s) []) as [[[[next mk] g] log]| |c| |] eqn:Ef; try (exfalso; apply Hfn; lia).
  2: { by injection H as <-. }
  destruct Hfn as (D & g1 & es & E & P & W & Hr); [lia|]. cbn [app] in E. subst log.
  destruct (GI_prunes w _ _ _ (e_mk s) _ _ _ _ _ P evs N1 (ci_ji _ _ _ _ _ _ _ _ _ C) eq_refl) as [G1 J1].
  pose proof (prunes_idle _ _ _ P (gi_wf _ _ _ _ _ _ _ _ N1)) as Hid.
  set (s1 := addLog es _) in H.
  destruct next as [t|].
  - destruct Hr as (Hl & Hs & Hk & (b & Hb & Hcm) & Hg).
    pose proof (proj1 (gw_leaves g1 W t) Hl) as [Hin Hc].
    assert (stateOf g1 t <> Unbuildable) as Hu.
    { intros Hu. apply (gi_unb _ _ _ _ _ _ _ _ G1 t Hin) in Hu as Hu'. destruct Hu' as (d & _ & Hf).
      apply (gi_keep _ _ _ _ _ _ _ _ G1) in Hf. by apply Hk. }
    pose proof (GI_choose _ _ _ _ _ _ _ _ G1 Hl Hs Hk) as G2. apply (GI_mk _ _ _ _ _ _ _ _ _ D) in G2.
    assert (idle g < idle (e_g s)) as Hlt.
    { rewrite decide_False in Hg by done. subst g. pose proof (choose_idle _ _ Hin Hs). lia. }
    rewrite <- Hg in G2.
    destruct (noneRunning o s1) eqn:En.
    + destruct (buildNextTarget_mu r mk0 (evs ++ es) t s1 ch s') as (P1 & P2 & P3); try done.
      * intros b' Hb'. change (mk_targets mk !! t = Some b') in Hb'. rewrite Hb in Hb'. by injection Hb' as <-.
      * change (e_pending s1) with (e_pending s) in P1. change (e_g s1) with g in P2. unfold mu. cbn. lia.
    + injection H as <-. unfold mu. cbn. lia.
  - destruct Hr as [-> Hall]. destruct (noneRunning o s1) eqn:En.
    + change (e_pending s1) with (e_pending s) in H. destruct (e_pending s) as [|[t|] pending] eqn:Ep.
      * injection H as <-. done.
      * injection H as <-. match type of He' with e_end (if e_end ?x then _ else _) = _ => set (s2 := x) in * end.
        assert (e_pending s2 = pending) as Hp by (unfold s2; by rewrite newRoot_same).
        destruct (e_end s2) eqn:Ee; [congruence|]. unfold mu. cbn. rewrite Hp, Ep. cbn. lia.
      * by injection H as <-.
    + injection H as <-. unfold mu. cbn. rewrite Enx. cbn. lia.
Qed.

Lemma processExit_mu pre r mk0 evs s k code ch j s' : CI kind w o roots pre r mk0 evs s ->
  (if e_aborted s then AB0 o s /\ waitOk s else NA o roots r mk0 evs s) -> jobOf k s = Some j ->
  processExit kind o k code ch j s = Some s' -> e_end s' = None -> lt5 (mu s') (mu s).
Proof.
  intros C HA Hj H He'. apply jobOf_spec in Hj as Hj'. destruct Hj' as [Hin Hk].
  pose proof (exec_nodup _ s (ci_exec _ _ _ _ _ _ _ _ _ C)) as Hnd.
  unfold processExit in H. destruct (ci_kind _ _ _ _ _ _ _ _ _ C j Hin) as (c & rest & Hcs & Hkc). rewrite Hcs in H.
  set (t := j_target j) in *.
  pose proof (dropped_perm k _ j Hnd Hin Hk) as Hperm.
  pose proof (jt_perm _ _ Hperm) as Hjt. change (jt (j :: dropped k (e_jobs s))) with (t :: jt (dropped k (e_jobs s))) in Hjt.
  pose proof (dropped_sum (fun j => length (j_cmds j)) k j _ Hnd Hin Hk) as Hd. cbn beta in Hd. rewrite Hcs in Hd. cbn [length] in Hd.
  assert (forall f s0, e_g s0 = e_g s -> e_mk s0 = e_mk s -> e_jobs s0 = e_jobs s -> e_pending s0 = e_pending s -> e_next s0 = e_next s ->
    e_end (childFinished o k t f s0) = None ->
    lt5 (mu (childFinished o k t f s0)) (mu s)) as Hcf.
  { intros f s0 E1 E2 E3 E4 E5 He0.
    destruct (childFinished_same r mk0 (e_mk s) (e_next s) evs k t f s0 (jt (dropped k (e_jobs s)))) as (P1 & P2 & P3 & P4 & P5 & P6); [|done|].
    - rewrite E1. destruct (e_aborted s); [left; by destruct HA as [[] _]|right]. split.
      + eapply GI_jt; [exact Hjt|]. apply HA.
      + eapply JI_jt; [exact Hjt|]. apply C.
    - unfold mu. rewrite P3, P4, E3, E5. rewrite E1, E4 in *. unfold cmdsLeft. rewrite Hd. cbn. lia. }
  destruct (c_max c <? effectiveCode code)%N.
  - destruct (ch_codes ch); [|done]. injection H as <-. by apply Hcf.
  - destruct (runCmds kind t rest (ch_codes ch) (ch_launch ch)) as [[failed l|rest' l|l]|] eqn:Er; [| | |done].
    + injection H as <-. set (s0 := addLog l (addLog [LExit t c code] s)) in *. set (s1 := childFinished o k t failed s0) in *.
      destruct (e_end s1) eqn:Ee; [congruence|].
      assert (lt5 (mu s1) (mu s)) as Hlt by by apply Hcf.
      cbn in *. destruct (e_wait s) as [[k'|]|]; try done. destruct (failed && negb (o_keep o)); [done|].
      destruct (Nat.eqb k k'); [|done]. unfold mu in *.
      by destruct (waitFrom_same (o_jobs o - S k') (S k') s1) as (-> & -> & -> & -> & -> & ->).
    + injection H as <-. apply runCmds_rest in Er as Hle.
      assert (forall st, lt5 (mu (putJob (Job k t rest' st) (addLog l (addLog [LExit t c code] s)))) (mu s)) as Hlt.
      { intros st. unfold mu. cbn. 
        pose proof (replaced_sum (fun j => length (j_cmds j)) (Job k t rest' st) j _ Hnd Hin Hk) as Hr. cbn beta in Hr. rewrite Hcs in Hr. cbn [length j_cmds] in Hr.
        unfold replaced in Hr. cbn in Hr. unfold cmdsLeft. lia. }
      destruct (match e_wait _ with Some (WProc k') => _ | _ => _ end); [|apply Hlt].
      set (s1 := putJob _ _). unfold mu.
      destruct (waitFrom_same (o_jobs o - S k) (S k) s1) as (-> & -> & -> & -> & -> & ->). apply Hlt.
    + by injection H as <-.
Qed.

Lemma state_mu s k j st : NoDup (map j_exec (e_jobs s)) -> jobOf k s = Some j -> aliveW j = 1 -> st = JHung \/ st = JDead ->
  lt5 (mu (putJob (Job k (j_target j) (j_cmds j) st) s)) (mu s).
Proof.
  intros Hnd Hj Ha Hst. apply jobOf_spec in Hj as [Hin Hk].
  pose proof (replaced_sum (fun j => length (j_cmds j)) (Job k (j_target j) (j_cmds j) st) j _ Hnd Hin Hk) as H1.
  pose proof (replaced_sum aliveW (Job k (j_target j) (j_cmds j) st) j _ Hnd Hin Hk) as H2.
  assert (aliveW (Job k (j_target j) (j_cmds j) st) = 0) as H3 by by destruct Hst as [->| ->].
  unfold replaced in *. cbn in H1, H2. unfold mu, cmdsLeft. cbn. rewrite Ha, H3 in H2. lia.
Qed.

Lemma step_mu s e s' : SInv kind w o roots s -> step xp prep kind w o s e = Some s' -> e_end s' = None -> lt5 (mu s') (mu s).
Proof.
  intros HI H He'. unfold step in H. destruct (e_end s) eqn:He; [done|].
  destruct HI as [F|(pre & r & mk0 & evs & C & HA)].
  - exfalso. destruct F as (F1 & F2 & F3 & F4 & F5 & F6 & F7 & F8 & F9 & F10 & F11 & F12 & F13 & F14 & F15).
    assert (forall k, jobOf k s = None) as Hnoj by (intros k; unfold jobOf; by rewrite F2).
    destruct e as [ch| |ch|k code ch|k]; rewrite ?F8, ?Hnoj in H; try done.
    destruct (e_queue s) as [|q]; [done|]. unfold startProcesses in H. cbn in H. rewrite F7, F8 in H. cbn in H.
    destruct (isNil (e_avail s)) eqn:Eav; [apply isNil_true in Eav; rewrite F9 in Eav; destruct (o_jobs o); [lia|done]|].
    rewrite F3 in H. rewrite findNextTarget_nil in H by done. cbn in H.
    unfold noneRunning in H. cbn in H. rewrite F9, seq_length, Nat.eqb_refl, F6 in H. by injection H as <-.
  - assert (if e_aborted s then AB0 o s /\ waitOk s else NA o roots r mk0 evs s) as HA' by (destruct (e_aborted s); [done|apply HA]).
    pose proof (exec_nodup _ s (ci_exec _ _ _ _ _ _ _ _ _ C)) as Hnd.
    destruct e as [ch| |ch|k code ch|k].
    + destruct (e_queue s) as [|q] eqn:Eq; [done|].
      assert (lt5 (mu s') (mu (s <| e_queue := q |> <| e_queue ::= S |>))) as Hlt.
      { eapply (startProcesses_mu pre r mk0 evs (s <| e_queue := q |>)); [by eapply CI_ext| |exact H|done]. cbn.
        destruct (e_aborted s).
        - destruct HA as [A W]. split; [by eapply AB0_ext|by eapply waitOk_ext].
        - destruct HA as [[N1 N2 N3 N4 N5 N6 N7 N8 N9 N10] _]. split; done. }
      unfold mu in *. cbn in Hlt. by rewrite Eq.
    + destruct (e_acquiring s) eqn:Eq; try done. injection H as <-. unfold mu. cbn. rewrite Eq. cbn. lia.
    + destruct (e_acquiring s) eqn:Eq; try done.
      destruct (buildNextTarget _ _ _ _ _) as [s1|] eqn:Eb in H; [|done].
      destruct (e_aborted s) eqn:Eab.
      * unfold buildNextTarget in Eb. cbn in Eb. rewrite Eab in Eb. injection Eb as <-. cbn in H. rewrite He in H.
        destruct HA as [A [(k & j & W1 & W2 & W3 & W4)|(W1 & W2 & W3)]]; rewrite W1 in H; injection H as <-; [|done].
        unfold mu. cbn. rewrite Eq. cbn. lia.
      * destruct HA' as [N1 N2 N3 N4 N5 N6 N7 N8 N9 N10]. rewrite N2 in H.
        assert (s' = s1) as -> by (destruct (e_end s1); congruence).
        destruct (e_next s) as [t|] eqn:En; [|exfalso; destruct N3 as [_ N3]; by destruct N3; [rewrite Eq|]].
        destruct (buildNextTarget_mu r mk0 evs t (s <| e_acquiring := AIdle |>) ch s1) as (P1 & P2 & P3); try done.
        -- apply C.
        -- cbn. intros b Hb. by eapply N5.
        -- cbn in P1, P2. unfold mu. rewrite P3, En. cbn. lia.
    + destruct (jobOf k s) as [j|] eqn:Ej; [|done]. destruct (decide (j_state j = JWatched)) as [Hst|]; [|done].
      destruct (code =? stillActive)%N.
      { injection H as <-. apply state_mu; try done; [unfold aliveW; by rewrite Hst|by left]. }
      by eapply processExit_mu.
    + destruct (jobOf k s) as [j|] eqn:Ej; [|done].
      destruct (j_state j) eqn:Est; try done; injection H as <-. apply state_mu; try done; [unfold aliveW; by rewrite Est|by right].
Qed.

(** No infinite execution starts in a good state. *)
Lemma no_infinite s : SInv kind w o roots s ->
  forall (f : nat -> est) (ev : nat -> event), f 0 = s -> (forall n, step xp prep kind w o (f n) (ev n) = Some (f (S n))) -> False.
Proof using Hjobs.
  intros HI f ev H0 Hs.
  assert (forall n, e_end (f n) = None) as He.
  { intros n. specialize (Hs n). unfold step in Hs. by destruct (e_end (f n)). }
  assert (forall n, SInv kind w o roots (f n)) as Hinv.
  { induction n as [|n IH]; [by rewrite H0|].
    destruct (step_good xp prep kind w o roots Hjobs True (f n) (ev n) (f (S n)) IH ltac:(done) (Hs n)) as [[_ ?]|[[x Hx] _]]; [done|].
    by rewrite He in Hx. }
  assert (forall m n, mu (f n) = m -> False) as Hno; [|by eapply (Hno _ 0)].
  intros m. induction (lt5_wf m) as [m _ IH]. intros n <-. eapply (IH (mu (f (S n)))); [|done].
  by eapply step_mu.
Qed.

(** *** Something can always happen *)
Definition notHung (s : est) : Prop := forall j, j ∈ e_jobs s -> j_state j <> JHung.

Lemma childFinished_jobs k t f s : e_jobs (childFinished o k t f s) = e_jobs s \/ e_jobs (childFinished o k t f s) = dropped k (e_jobs s).
Proof.
  rewrite childFinished_eq.
  assert (forall g2, e_jobs (continue o k t f g2 s) = dropped k (e_jobs s)) as Hc.
  { intros g2. unfold continue. destruct (f && negb (o_keep o)); [|done].
    by destruct (waitFrom_same (o_jobs o) 0 (abort (afterChild k t f g2 s))) as (_ & _ & _ & -> & _). }
  destruct (f && o_keep o); [|by right]. destruct (g_nodes (e_g s) !! t); [|by left].
  destruct (markParents _ t (e_g s)); [by right|by left].
Qed.
Lemma childFinished_nh k t f s : notHung s -> notHung (childFinished o k t f s).
Proof.
  intros H j Hj. destruct (childFinished_jobs k t f s) as [E|E]; rewrite E in Hj; [by apply H|].
  apply dropped_in in Hj as [Hj _]. by apply H.
Qed.
Lemma nh_ext s s' : e_jobs s' = e_jobs s -> notHung s -> notHung s'.
Proof. unfold notHung. by intros ->. Qed.
Lemma waitFrom_nh n k s : notHung s -> notHung (waitFrom o n k s).
Proof. apply nh_ext. by destruct (waitFrom_same n k s) as (_ & _ & _ & -> & _). Qed.
Lemma buildNextTarget_nh ch s s' : notHung s -> buildNextTarget prep kind o ch s = Some s' -> notHung s'.
Proof.
  intros H Hb. unfold buildNextTarget in Hb. destruct (e_aborted s); [by injection Hb as <-|].
  destruct (e_avail s) as [|k avail]; [by injection Hb as <-|]. destruct (e_next s) as [t|]; [|by injection Hb as <-].
  destruct (mk_targets (e_mk s) !! t) as [b|]; [|by injection Hb as <-].
  destruct (isNil (b_cmds b)).
  { injection Hb as <-. match goal with |- notHung (set _ _ (set _ _ ?x)) => apply (nh_ext x); [done|] end. by apply childFinished_nh. }
  destruct (prep (e_mk s) t (ch_prep ch)) as [[|c0 cmds0]|]; [by injection Hb as <-| |by injection Hb as <-].
  destruct (runCmds kind t (c0 :: cmds0) (ch_codes ch) (ch_launch ch)) as [[failed l|rest l|l]|]; [| | |done]; injection Hb as <-.
  - match goal with |- notHung (set _ _ (set _ _ ?x)) => apply (nh_ext x); [done|] end. by apply childFinished_nh.
  - intros j Hj. cbn in Hj. apply elem_of_app in Hj as [Hj|Hj]; [by apply H|]. by apply elem_of_list_singleton in Hj as ->.
  - done.
Qed.
Lemma putJob_nh j s : notHung s -> j_state j <> JHung -> notHung (putJob j s).
Proof. intros H Hj i Hi. apply (replaced_in j (e_jobs s)) in Hi as [->|[Hi _]]; [done|by apply H]. Qed.

Lemma newRoot_jobs t s : e_jobs (newRoot w t s) = e_jobs s.
Proof. unfold newRoot. by destruct (buildGraph _ _ _ _). Qed.
Lemma startProcesses_nh ch s s' : notHung s -> startProcesses xp prep kind w o ch s = Some s' -> notHung s'.
Proof.
  intros H Hs. unfold startProcesses in Hs.
  destruct (e_aborted s || negb (bool_decide (e_acquiring s = AIdle)) || isNil (e_avail s)); [by injection Hs as <-|].
  match type of Hs with match ?x with _ => _ end = _ => destruct x as [[[[next mk] g] log]| |c| |]; try by injection Hs as <- end.
  set (s2 := addLog log _) in Hs. assert (notHung s2) as H2 by done.
  destruct next as [t|].
  - destruct (noneRunning o s2); [|by injection Hs as <-]. by eapply buildNextTarget_nh.
  - destruct (noneRunning o s2); [|by injection Hs as <-]. destruct (e_pending s2) as [|[t|] pending]; [by injection Hs as <-| |by injection Hs as <-].
    injection Hs as <-. match goal with |- notHung (match e_end ?x with _ => _ end) =>
      assert (notHung x) as Hx by (eapply nh_ext; [apply newRoot_jobs|done]); by destruct (e_end x) end.
Qed.

Lemma step_nh s e s' : notHung s -> (forall k ch, e <> EvExit k stillActive ch) -> step xp prep kind w o s e = Some s' -> notHung s'.
Proof.
  intros H Hne Hs. unfold step in Hs. destruct (e_end s); [done|]. destruct e as [ch| |ch|k code ch|k].
  - destruct (e_queue s) as [|q]; [done|]. eapply startProcesses_nh; [|exact Hs]. done.
  - destruct (e_acquiring s); try done. by injection Hs as <-.
  - destruct (e_acquiring s); try done. destruct (buildNextTarget _ _ _ _ _) as [s1|] eqn:Eb; [|done].
    apply buildNextTarget_nh in Eb; [|done]. destruct (e_end s1); [by injection Hs as <-|].
    destruct (e_wait s) as [[k'|]|]; by injection Hs as <-.
  - destruct (jobOf k s) as [j|] eqn:Ej; [|done]. destruct (decide (j_state j = JWatched)); [|done].
    destruct (N.eqb_spec code stillActive) as [->|_]; [by destruct (Hne k ch)|].
    unfold processExit in Hs. destruct (j_cmds j) as [|c rest]; [by injection Hs as <-|].
    destruct (c_max c <? effectiveCode code)%N.
    { destruct (ch_codes ch); [|done]. injection Hs as <-. by apply childFinished_nh. }
    destruct (runCmds _ _ _ _ _) as [[failed l|rest' l|l]|]; [| | |done]; injection Hs as <-.
    + match goal with |- notHung (match e_end ?x with _ => _ end) => assert (notHung x) as Hx by (by apply childFinished_nh); destruct (e_end x); [done|] end.
      destruct (e_wait _) as [[k'|]|]; try done. destruct (failed && negb (o_keep o)); [done|]. destruct (Nat.eqb k k'); [|done]. by apply waitFrom_nh.
    + match goal with |- notHung (if ?b then _ else _) => destruct b end; [apply waitFrom_nh|]; apply putJob_nh; done || by destruct (match e_wait _ with Some _ => _ | None => _ end).
    + done.
  - destruct (jobOf k s) as [j|] eqn:Ej; [|done]. destruct (j_state j); try done. injection Hs as <-. by apply putJob_nh.
Qed.

Lemma run_nh es : forall s s', notHung s -> (forall k ch, EvExit k stillActive ch ∉ es) -> run xp prep kind w o s es = Some s' -> notHung s'.
Proof.
  induction es as [|e es IH]; intros s s' H Hne Hr; cbn in Hr; [by injection Hr as <-|].
  destruct (step xp prep kind w o s e) as [s1|] eqn:Es; [|done]. eapply (IH s1); [|intros k ch Hin; eapply Hne; right; exact Hin|done].
  eapply step_nh; [done| |done]. intros k ch ->. eapply Hne. by left.
Qed.

(** Every command that is not a process can be carried out somehow. *)
Context (Hkind : forall c l, kind c = KBuiltin l -> l <> []).

Lemma runCmds_total t cmds : exists codes, is_Some (runCmds kind t cmds codes true).
Proof using Hkind.
  induction cmds as [|c cmds [codes IH]]; [exists []; cbn; eauto|]. cbn [runCmds].
  destruct (kind c) as [|[|k l]] eqn:Ek; [exists []; cbn; eauto|by apply Hkind in Ek|].
  exists (if (c_max c <? k)%N then [k] else k :: codes). destruct (c_max c <? k)%N eqn:Em; cbn; rewrite N.eqb_refl, Em; cbn; [eauto|].
  destruct IH as [x ->]. cbn. eauto.
Qed.
Lemma buildNextTarget_total s : exists ch, is_Some (buildNextTarget prep kind o ch s).
Proof using Hkind.
  unfold buildNextTarget. set (ch0 := Choice 0 [] true).
  destruct (e_aborted s); [exists ch0; eauto|]. destruct (e_avail s) as [|k avail]; [exists ch0; eauto|].
  destruct (e_next s) as [t|]; [|exists ch0; eauto]. destruct (mk_targets (e_mk s) !! t) as [b|]; [|exists ch0; eauto].
  destruct (isNil (b_cmds b)); [exists ch0; eauto|]. destruct (prep (e_mk s) t 0) as [[|c cmds]|] eqn:Ep.
  - exists ch0. cbn [ch_prep ch0]. rewrite Ep. eauto.
  - destruct (runCmds_total t (c :: cmds)) as [codes [x Hx]]. exists (Choice 0 codes true). cbn [ch_prep ch_codes ch_launch]. rewrite Ep, Hx.
    destruct x; eauto.
  - exists ch0. cbn [ch_prep ch0]. rewrite Ep. eauto.
Qed.
Lemma startProcesses_total s : exists ch, is_Some (startProcesses xp prep kind w o ch s).
Proof using Hkind.
  unfold startProcesses. set (ch0 := Choice 0 [] true).
  destruct (_ || _); [exists ch0; eauto|].
  destruct (match e_next s with Some t => _ | None => _ end) as [[[[next mk] g] log]| |c| |]; try by (exists ch0; eauto).
  destruct next as [t|].
  - destruct (noneRunning o _); [apply buildNextTarget_total|exists ch0; eauto].
  - exists ch0. destruct (noneRunning o _); [|eauto]. destruct (e_pending _) as [|[?|] ?]; eauto.
Qed.
Lemma processExit_total s k j : exists ch, is_Some (processExit kind o k 0 ch j s).
Proof using Hkind.
  unfold processExit. set (ch0 := Choice 0 [] true). destruct (j_cmds j) as [|c rest]; [exists ch0; eauto|].
  destruct (c_max c <? effectiveCode 0)%N; [exists ch0; eauto|].
  destruct (runCmds_total (j_target j) rest) as [codes [x Hx]]. exists (Choice 0 codes true). cbn [ch_codes ch_launch]. rewrite Hx.
  destruct x; eauto.
Qed.

(** What jom or one of the processes it watches can do next. *)
Definition awaited (e : event) : Prop := match e with EvGone _ => False | _ => True end.

Lemma progress s : SInv kind w o roots s -> notHung s -> e_end s = None ->
  exists e s', awaited e /\ step xp prep kind w o s e = Some s'.
Proof using Hkind.
  intros HI Hh He.
  assert (forall k j, jobOf k s = Some j -> procRunning j = true -> exists e s', awaited e /\ step xp prep kind w o s e = Some s') as Hjob.
  { intros k j Hj Hr. assert (j_state j = JWatched) as Hst.
    { apply jobOf_spec in Hj as [Hin _]. pose proof (Hh j Hin) as Hn. unfold procRunning in Hr. by destruct (j_state j). }
    destruct (processExit_total s k j) as [ch [s' Hs']]. exists (EvExit k 0 ch), s'. split; [done|].
    unfold step. rewrite He, Hj, decide_True by done. done. }
  assert (e_acquiring s <> AIdle -> exists e s', awaited e /\ step xp prep kind w o s e = Some s') as Hacq.
  { intros Ha. destruct (e_acquiring s) eqn:Ea; [done| |].
    - exists EvTake. unfold step. rewrite He, Ea. eexists. by split.
    - destruct (buildNextTarget_total (s <| e_acquiring := AIdle |>)) as [ch [s' Hs']]. exists (EvAcquired ch). unfold step. rewrite He, Ea, Hs'.
      destruct (e_end s'), (e_wait s) as [[?|]|]; eexists; by split. }
  assert (e_queue s <> 0 -> exists e s', awaited e /\ step xp prep kind w o s e = Some s') as Hq.
  { intros Hq. destruct (e_queue s) as [|q] eqn:Eq; [done|].
    destruct (startProcesses_total (s <| e_queue := q |>)) as [ch [s' Hs']]. exists (EvStart ch), s'. split; [done|]. unfold step. by rewrite He, Eq. }
  destruct HI as [F|(pre & r & mk0 & evs & C & HA)].
  - apply Hq. apply F.
  - destruct (e_aborted s).
    + destruct HA as [_ [(k & j & W1 & W2 & W3 & W4)|(W1 & W2 & W3)]]; eauto.
    + destruct HA as [N L]. destruct (decide (e_queue s = 0)) as [Eq|]; [|auto].
      destruct (decide (e_acquiring s = AIdle)) as [Ea|]; [|auto]. specialize (L Eq Ea).
      destruct (e_jobs s) as [|j js] eqn:Ej; [done|].
      assert (j ∈ e_jobs s) as Hin by (rewrite Ej; by left).
      eapply (Hjob (j_exec j) j); [|by apply (na_state _ _ _ _ _ _ N)].
      apply jobOf_unique; [|done]. eapply exec_nodup, C.
Qed.
End Term.
