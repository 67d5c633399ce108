(** Job tokens: an instance never runs more commands than it holds tokens for, plus one. *)
From stdpp Require Import prelude gmap.
From RecordUpdate Require Import RecordUpdate.
From Verif Require Import Base Data Infer UpToDate Graph Exec ExecSpec GraphProofs BuildProofs PruneProofs SchedInv TraceInv ExecProofs TermProofs.

Local Arguments markParents : simpl never.
Local Arguments findNextTarget : simpl never.
Local Arguments cmdsRunning : simpl never.
Local Arguments passes : simpl never.
Local Arguments removeLeaf : simpl never.
Local Arguments decide : simpl never.

Definition reqd (s : est) : Z := if decide (e_acquiring s = ARequested) then 1%Z else 0%Z.
(** [n] executors are busy. *)
Definition tk (n : nat) (s : est) : Prop :=
  n + pend s <= e_acq s + 1 /\ e_acq s <= n /\ e_net s = (Z.of_nat (e_acq s) - reqd s)%Z.
Definition tkLive (s : est) : Prop := tk (length (e_jobs s)) s.
Definition tkEnd (s : est) : Prop := (Z.of_nat (length (e_jobs s)) <= e_net s + 1)%Z.
Record tkPost (s : est) : Prop := {
  tp_live : e_end s = None -> tkLive s;
  tp_end : tkEnd s;
  tp_done : forall c, e_end s = Some (EExit c) -> c <> 2%N -> e_jobs s = [] /\ e_net s = 0%Z;
}.
Lemma tk_end n s : tk n s -> length (e_jobs s) <= n -> tkEnd s.
Proof.
  unfold tk, tkEnd, pend, reqd. intros (H1 & H2 & H3) Hn.
  destruct (decide (e_acquiring s = AIdle)) as [E|E]; [rewrite decide_False in H3 by congruence; lia|].
  destruct (decide (e_acquiring s = ARequested)); lia.
Qed.
Lemma tkPost_live s : tkLive s -> (forall c, e_end s = Some (EExit c) -> c = 2%N) -> tkPost s.
Proof. intros H Hc. split; [done|by eapply tk_end|]. intros c Hcc. by apply Hc in Hcc. Qed.
Lemma tkPost_ext s s' : e_jobs s' = e_jobs s -> e_net s' = e_net s -> e_acq s' = e_acq s -> e_acquiring s' = e_acquiring s ->
  e_end s' = e_end s -> tkPost s -> tkPost s'.
Proof.
  intros E1 E2 E3 E4 E5 [H1 H2 H3]. split.
  - intros He. rewrite E5 in He. specialize (H1 He). unfold tkLive, tk, pend, reqd in *. by rewrite E1, E2, E3, E4.
  - unfold tkEnd in *. by rewrite E1, E2.
  - intros c Hc. rewrite E1, E2, E5 in *. by apply H3.
Qed.
Lemma tk_ext n s s' : e_net s' = e_net s -> e_acq s' = e_acq s -> e_acquiring s' = e_acquiring s -> tk n s -> tk n s'.
Proof. intros E2 E3 E4. unfold tk, pend, reqd. by rewrite E2, E3, E4. Qed.

Lemma tkPost_set s : tkPost s -> tkPost (s <| e_next := None |> <| e_queue ::= S |>).
Proof. apply tkPost_ext; reflexivity. Qed.
Lemma tkPost_queue s : tkPost s -> tkPost (s <| e_queue ::= S |>).
Proof. apply tkPost_ext; reflexivity. Qed.

Section Tokens.
Context (xp : qstr -> option qstr) (prep : mkfile -> tid -> nat -> option (list command))
        (kind : command -> ckind) (w : world) (o : bopts) (roots : list (option tid)).
Context (Hjobs : 0 < o_jobs o).

Lemma waitFrom_tk n : forall k s, let s' := waitFrom o n k s in
  e_net s' = e_net s /\ e_acq s' = e_acq s /\ (e_end s' = e_end s \/ e_end s' = Some (EExit 2)).
Proof.
  induction n as [|n IH]; intros k s; cbn.
  - destruct (e_acquiring s) eqn:E; cbn; rewrite ?E; auto.
  - destruct (jobOf k s) as [j|]; [|apply IH]. destruct (procRunning j); [auto|apply IH].
Qed.
Lemma waitFrom_post n k s : tkLive s -> e_end s = None -> tkPost (waitFrom o n k s).
Proof.
  intros H He. destruct (waitFrom_tk n k s) as (E1 & E2 & E3). destruct (waitFrom_same o n k s) as (_ & _ & _ & E4 & _ & E5).
  apply tkPost_live.
  - unfold tkLive in *. rewrite E4. eapply tk_ext; [..|exact H]; done.
  - intros c Hc. destruct E3 as [E3|E3]; congruence.
Qed.

Lemma childFinished_post k t f s : tk (S (length (dropped k (e_jobs s)))) s -> length (e_jobs s) <= S (length (dropped k (e_jobs s))) ->
  e_end s = None -> tkPost (childFinished o k t f s).
Proof.
  intros H Hl He. rewrite childFinished_eq.
  assert (forall e, (forall c, e <> EExit c) -> tkPost (ended e (addLog [LEnd t f] s <| e_allok := false |>))) as Hend.
  { intros e Hne. split; [done| |].
    - eapply (tk_end _ s) in Hl; [|exact H]. exact Hl.
    - intros c [= ->]. by destruct (Hne c). }
  assert (forall g2, tkLive (afterChild k t f g2 s)) as Ha.
  { intros g2. destruct H as (H1 & H2 & H3). unfold tkLive, tk, pend, reqd in *. cbn. destruct (e_acq s) as [|a]; cbn.
    - destruct (decide (e_acquiring s = AIdle)) as [E|E]; [|lia]. rewrite decide_False in * by congruence. lia.
    - destruct (decide (e_acquiring s = ARequested)) as [E|E]; lia. }
  assert (forall g2, tkPost (continue o k t f g2 s)) as Hc.
  { intros g2. unfold continue. destruct (f && negb (o_keep o)); [apply waitFrom_post; [apply Ha|done]|].
    apply tkPost_live; [apply Ha|]. cbn. intros c Hc. congruence. }
  destruct (f && o_keep o); [|apply Hc]. destruct (g_nodes (e_g s) !! t); [|by apply Hend].
  destruct (markParents _ t (e_g s)); [apply Hc|by apply Hend].
Qed.

Lemma buildNextTarget_post ch s s' : e_aborted s = false -> e_end s = None -> e_acquiring s = AIdle ->
  e_acq s = length (e_jobs s) -> e_net s = Z.of_nat (e_acq s) -> (forall k j, head (e_avail s) = Some k -> j ∈ e_jobs s -> j_exec j <> k) ->
  buildNextTarget prep kind o ch s = Some s' -> tkPost s'.
Proof.
  intros Hab He Haq Hac Hnet Hk Hb. unfold buildNextTarget in Hb. rewrite Hab in Hb.
  assert (forall e x, (forall c, e <> EExit c) -> e_jobs x = e_jobs s -> e_net x = e_net s -> tkPost (ended e x)) as Hend.
  { intros e x Hne E1 E2. split; [done| |intros c [= ->]; by destruct (Hne c)]. unfold tkEnd. cbn. rewrite E1, E2. lia. }
  assert (tk (S (length (e_jobs s))) s) as Htk.
  { unfold tk, pend, reqd. rewrite Haq, decide_True, decide_False by done. lia. }
  destruct (e_avail s) as [|k avail]; [injection Hb as <-; by apply Hend|]. destruct (e_next s) as [t|]; [|injection Hb as <-; by apply Hend].
  destruct (mk_targets (e_mk s) !! t) as [b|]; [|injection Hb as <-; by apply Hend].
  assert (dropped k (e_jobs s) = e_jobs s) as Hd by (apply dropped_notin; intros j Hj; by apply Hk).
  destruct (isNil (b_cmds b)).
  { injection Hb as <-. apply tkPost_set.
    apply childFinished_post; [|change (length (e_jobs s) <= S (length (dropped k (e_jobs s)))); rewrite Hd; lia|done]. cbn [e_jobs]. change (tk (S (length (dropped k (e_jobs s)))) s). by rewrite Hd. }
  destruct (prep (e_mk s) t (ch_prep ch)) as [[|c0 cmds0]|]; [injection Hb as <-; by apply Hend| |injection Hb as <-; by apply Hend].
  destruct (runCmds kind t (c0 :: cmds0) (ch_codes ch) (ch_launch ch)) as [[failed l|rest l|l]|]; [| | |done]; injection Hb as <-.
  - apply tkPost_set.
    apply childFinished_post; [|change (length (e_jobs s) <= S (length (dropped k (e_jobs s)))); rewrite Hd; lia|done]. cbn [e_jobs]. change (tk (S (length (dropped k (e_jobs s)))) s). by rewrite Hd.
  - apply tkPost_live; [|cbn; intros c Hc; congruence]. unfold tkLive. cbn. rewrite app_length. cbn. rewrite Nat.add_1_r. exact Htk.
  - by apply Hend.
Qed.

Lemma noneRunning_jobs s : length (e_avail s) + length (e_jobs s) = o_jobs o -> noneRunning o s = true -> e_jobs s = [].
Proof. unfold noneRunning. rewrite Nat.eqb_eq. intros. apply length_zero_iff_nil. lia. Qed.

Lemma startProcesses_post pre r mk0 evs s ch s' : CI kind w o roots pre r mk0 evs s -> e_end s = None ->
  (e_aborted s = false -> NA o roots r mk0 evs s) -> tkLive s ->
  startProcesses xp prep kind w o ch s = Some s' -> tkPost s'.
Proof using Hjobs.
  intros C He HA Ht H. unfold startProcesses in H.
  assert (tkPost s) as Hp by (apply tkPost_live; [done|]; intros c Hc; congruence).
  destruct (e_aborted s) eqn:Eab; cbn [orb] in H; [by injection H as <-|]. specialize (HA eq_refl).
  destruct (bool_decide (e_acquiring s = AIdle)) eqn:Eaq; cbn [negb orb] in H; [|by injection H as <-].
  apply bool_decide_eq_true in Eaq. destruct (isNil (e_avail s)) eqn:Eav; [by injection H as <-|].
  assert (e_next s = None) as Enx.
  { destruct (e_next s) eqn:E; [|done]. exfalso. apply (na_next _ _ _ _ _ _ HA); [eauto|done]. }
  rewrite Enx in H.
  pose proof (na_gi _ _ _ _ _ _ HA) as G.
  pose proof (findNextTarget_spec w o xp (S (S (size (g_nodes (e_g s))))) (e_mk s) (e_g s) [] (gi_wf _ _ _ _ _ _ _ _ G)) as Hfn.
  assert (forall e x, (forall c, e <> EExit c) -> e_jobs x = e_jobs s -> e_net x = e_net s -> tkPost (ended e x)) as Hend.
  { intros e x Hne E1 E2. split; [done| |intros c [= ->]; by destruct (Hne c)]. unfold tkEnd. cbn. rewrite E1, E2. apply Hp. }
  destruct (findNextTarget xp w o _ (e_mk s) (e_g s) []) as [[[[next mk] g] log]| |c| |]; try (exfalso; apply Hfn; lia).
  2: { injection H as <-. by apply Hend. }
  clear Hfn. pose proof (jobs_count o s (ci_exec _ _ _ _ _ _ _ _ _ C)) as Hcnt.
  set (s2 := addLog log _) in H.
  pose proof (na_acq _ _ _ _ _ _ HA) as Hacq. rewrite pend_idle in Hacq by done.
  destruct next as [t|].
  - destruct (noneRunning o s2) eqn:En.
    + assert (e_jobs s = []) as Hj by (apply (noneRunning_jobs s2); done).
      eapply buildNextTarget_post; [..|exact H]; try done.
      * cbn. rewrite Hacq, Hj. done.
      * cbn. destruct Ht as (_ & _ & ->). unfold reqd. rewrite decide_False by congruence. lia.
      * cbn. rewrite Hj. by intros k j _ ?%elem_of_nil.
    + injection H as <-. apply tkPost_live; [|cbn; intros c Hc; congruence].
      assert (length (e_jobs s) <> 0) as Hlen.
      { intros Hz. unfold noneRunning in En. cbn in En. apply Nat.eqb_neq in En. lia. }
      destruct Ht as (H1 & H2 & H3). unfold tkLive, tk, pend, reqd in *. cbn. rewrite !decide_False in H3 by congruence. rewrite decide_False by done.
      rewrite decide_True by done. lia.
  - destruct (noneRunning o s2) eqn:En; [|injection H as <-; eapply (tkPost_ext s); done].
    assert (e_jobs s = []) as Hj by (apply (noneRunning_jobs s2); done).
    assert (e_net s = 0%Z) as Hn.
    { destruct Ht as (_ & _ & ->). unfold reqd. rewrite decide_False by congruence. rewrite Hacq, Hj. done. }
    destruct (e_pending s2) as [|[t|] pending].
    + injection H as <-. split; [done|apply Hp|]. cbn. done.
    + injection H as <-. match goal with |- tkPost (match e_end ?x with _ => _ end) => assert (tkPost x) as Hx end.
      { unfold newRoot. match goal with |- tkPost (match ?b with _ => _ end) => destruct b end.
        - apply (tkPost_ext s); done.
        - by apply Hend.
        - split; [done|apply Hp|]. done.
        - by apply Hend.
        - by apply Hend. }
      match goal with |- tkPost (match e_end ?x with _ => _ end) => destruct (e_end x) end; [done|]. by apply tkPost_queue.
    + injection H as <-. by apply Hend.
Qed.

Lemma dropped_length k s j : NoDup (map j_exec (e_jobs s)) -> jobOf k s = Some j -> length (e_jobs s) = S (length (dropped k (e_jobs s))).
Proof.
  intros Hn Hj. apply jobOf_spec in Hj as [Hj Hk]. pose proof (dropped_perm k (e_jobs s) j Hn Hj Hk) as P.
  apply Permutation_length in P. exact P.
Qed.

Lemma processExit_post s k code ch j s' : NoDup (map j_exec (e_jobs s)) -> e_end s = None -> tkLive s -> jobOf k s = Some j ->
  processExit kind o k code ch j s = Some s' -> tkPost s'.
Proof.
  intros Hnd He Ht Hj H. unfold processExit in H.
  pose proof (dropped_length k s j Hnd Hj) as Hlen.
  assert (tkPost s) as Hp by (apply tkPost_live; [done|]; intros c Hc; congruence).
  assert (forall e x, (forall c, e <> EExit c) -> e_jobs x = e_jobs s -> e_net x = e_net s -> tkPost (ended e x)) as Hend.
  { intros e x Hne E1 E2. split; [done| |intros c [= ->]; by destruct (Hne c)]. unfold tkEnd. cbn. rewrite E1, E2. apply Hp. }
  destruct (j_cmds j) as [|c rest]; [injection H as <-; by apply Hend|].
  assert (forall l, tk (S (length (dropped k (e_jobs (addLog l s))))) (addLog l s)) as Hpre.
  { intros l. change (tk (S (length (dropped k (e_jobs s)))) s). rewrite <- Hlen. exact Ht. }
  destruct (c_max c <? effectiveCode code)%N.
  { destruct (ch_codes ch); [|done]. injection H as <-. apply childFinished_post; [apply Hpre|exact (Nat.eq_le_incl _ _ Hlen)|done]. }
  destruct (runCmds _ _ _ _ _) as [[failed l|rest' l|l]|]; [| | |done]; injection H as <-.
  - match goal with |- tkPost (match e_end ?x with _ => _ end) => assert (tkPost x) as Hx end.
    { apply childFinished_post; [|exact (Nat.eq_le_incl _ _ Hlen)|done]. change (tk (S (length (dropped k (e_jobs s)))) s). rewrite <- Hlen. exact Ht. }
    match goal with |- tkPost (match e_end ?x with _ => _ end) => destruct (e_end x) eqn:Ex; [done|] end.
    destruct (e_wait _) as [[k'|]|]; try done. destruct (failed && negb (o_keep o)); [done|]. destruct (Nat.eqb k k'); [|done].
    apply waitFrom_post; [|done]. by apply Hx.
  - assert (forall i l', tkLive (putJob i (addLog l' (addLog l s)))) as Hpj.
    { intros i l'. unfold tkLive. cbn. rewrite map_length. exact Ht. }
    match goal with |- tkPost (if ?b then _ else _) => destruct b end; [apply waitFrom_post; [|done]|apply tkPost_live; [|cbn; intros ? ?; congruence]];
      unfold tkLive; cbn; rewrite map_length; exact Ht.
  - by apply Hend.
Qed.

Lemma step_tk s e s' : SInv kind w o roots s -> tkLive s -> step xp prep kind w o s e = Some s' -> tkPost s'.
Proof using Hjobs.
  intros HI Ht H. unfold step in H. destruct (e_end s) eqn:He; [done|].
  destruct HI as [F|(pre & r & mk0 & evs & C & HA)].
  - destruct F as (F1 & F2 & F3 & F4 & F5 & F6 & F7 & F8 & F9 & F10 & F11 & F12 & F13 & F14 & F15).
    assert (forall k, jobOf k s = None) as Hnoj by (intros k; unfold jobOf; by rewrite F2).
    destruct e as [ch| |ch|k code ch|k]; rewrite ?F8, ?Hnoj in H; try done.
    destruct (e_queue s) as [|q]; [done|]. unfold startProcesses in H. cbn in H. rewrite F7, F8 in H. cbn in H.
    destruct (isNil (e_avail s)) eqn:Eav; [apply isNil_true in Eav; rewrite F9 in Eav; destruct (o_jobs o); [lia|done]|].
    rewrite F3 in H. rewrite findNextTarget_nil in H by done. cbn in H.
    unfold noneRunning in H. cbn in H. rewrite F9, seq_length, Nat.eqb_refl, F6 in H. injection H as <-.
    split; [done| |]; cbn; [|done]. unfold tkEnd. cbn. rewrite F2, F12. done.
  - pose proof (exec_nodup o s (ci_exec _ _ _ _ _ _ _ _ _ C)) as Hnd.
    destruct e as [ch| |ch|k code ch|k].
    + destruct (e_queue s) as [|q]; [done|].
      eapply (startProcesses_post pre r mk0 evs (s <| e_queue := q |>)); [by eapply CI_ext|done| |exact Ht|exact H]. cbn. intros Eab. rewrite Eab in HA.
      destruct HA as [[N1 N2 N3 N4 N5 N6 N7 N8 N9 N10] _]. split; done.
    + destruct (e_acquiring s) eqn:Eq; try done. injection H as <-. apply tkPost_live; [|cbn; intros c Hc; congruence].
      destruct Ht as (H1 & H2 & H3). unfold tkLive, tk, pend, reqd in *. cbn. rewrite Eq in *. rewrite decide_True in H3 by done.
      rewrite decide_False in H1 by done. rewrite !decide_False by done. lia.
    + destruct (e_acquiring s) eqn:Eq; try done.
      destruct (buildNextTarget _ _ _ _ _) as [s1|] eqn:Eb in H; [|done].
      assert (e_acq s = length (e_jobs s) /\ e_net s = Z.of_nat (e_acq s)) as [Hac Hnet].
      { destruct Ht as (H1 & H2 & H3). unfold pend, reqd in *. rewrite Eq in *. rewrite !decide_False in * by done. lia. }
      destruct (e_aborted s) eqn:Eab.
      * unfold buildNextTarget in Eb. cbn in Eb. rewrite Eab in Eb. injection Eb as <-. cbn in H. rewrite He in H.
        assert (tkPost (s <| e_acquiring := AIdle |>)) as Hp.
        { apply tkPost_live; [|cbn; intros c Hc; congruence]. unfold tkLive, tk, pend, reqd. cbn. rewrite decide_True, decide_False by done. lia. }
        destruct (e_wait s) as [[k|]|]; injection H as <-; try done.
        split; [done| |]; cbn.
        -- unfold tkEnd. cbn. lia.
        -- intros c [= <-]. done.
      * destruct HA as [[N1 N2 N3 N4 N5 N6 N7 N8 N9 N10] L]. rewrite N2 in H.
        assert (s' = s1) as -> by (destruct (e_end s1); congruence).
        eapply buildNextTarget_post; [..|exact Eb]; try done.
        cbn. intros k j Hk Hj Hjk. pose proof (ci_exec _ _ _ _ _ _ _ _ _ C) as Hx.
        assert (NoDup (e_avail s ++ map j_exec (e_jobs s))) as Hnd2 by (rewrite Hx; apply NoDup_seq).
        apply NoDup_app in Hnd2 as (_ & Hd & _). apply (Hd k).
        -- destruct (e_avail s); [done|]. injection Hk as ->. by left.
        -- apply elem_of_list_fmap. eauto.
    + destruct (jobOf k s) as [j|] eqn:Ej; [|done]. destruct (decide (j_state j = JWatched)) as [Hst|]; [|done].
      destruct (code =? stillActive)%N.
      { injection H as <-. apply tkPost_live; [|cbn; intros c Hc; congruence]. unfold tkLive. cbn. rewrite map_length. exact Ht. }
      by eapply processExit_post.
    + destruct (jobOf k s) as [j|] eqn:Ej; [|done].
      destruct (j_state j) eqn:Est; try done; injection H as <-.
      apply tkPost_live; [|cbn; intros c Hc; congruence]. unfold tkLive. cbn. rewrite map_length. exact Ht.
Qed.

Lemma run_tk es : forall s s', SInv kind w o roots s -> e_end s = None -> tkLive s -> run xp prep kind w o s es = Some s' -> tkPost s'.
Proof using Hjobs.
  induction es as [|e es IH]; intros s s' HI He Ht H; cbn in H.
  - injection H as <-. apply tkPost_live; [done|]. intros c Hc. congruence.
  - destruct (step xp prep kind w o s e) as [s1|] eqn:Es; [|done].
    pose proof (step_tk s e s1 HI Ht Es) as Hp.
    destruct (step_good xp prep kind w o roots Hjobs True s e s1 HI ltac:(done) Es) as [[He1 HI1]|[He1 G]].
    + apply (IH s1); try done. by apply Hp.
    + destruct es as [|e2 es]; cbn in H; [by injection H as <-|].
      destruct He1 as [x Hx]. unfold step in H. by rewrite Hx in H.
Qed.
End Tokens.
