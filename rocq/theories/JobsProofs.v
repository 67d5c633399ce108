(** Invariants of jom processes sharing a job server. *)
From stdpp Require Import prelude gmap.
From RecordUpdate Require Import RecordUpdate.
From Verif Require Import Base Data Infer UpToDate Graph Exec ExecSpec GraphProofs BuildProofs PruneProofs SchedInv TraceInv ExecProofs TermProofs ExecFacts TokenProofs Jobs JobsSpec.

Local Arguments markParents : simpl never.
Local Arguments findNextTarget : simpl never.
Local Arguments removeLeaf : simpl never.
Local Arguments decide : simpl never.

Lemma find_app_some {A} (f : A -> bool) l l' x : List.find f l = Some x -> List.find f (l ++ l') = Some x.
Proof. induction l as [|y l IH]; [done|]. cbn. by destruct (f y). Qed.

Section Net.
Context (xp : qstr -> option qstr) (prep : mkfile -> tid -> nat -> option (list command))
        (kind : command -> ckind) (w : world) (o : bopts).

(** Only EvTake takes tokens, and only EvExit k frees executor k. *)
Definition keeps (k : nat) (s s' : est) : Prop := is_Some (jobOf k s) -> is_Some (jobOf k s').
Lemma keeps_trans k a b c : keeps k a b -> keeps k b c -> keeps k a c.
Proof. unfold keeps. auto. Qed.
Lemma keeps_jobs k s s' : e_jobs s' = e_jobs s -> keeps k s s'.
Proof. unfold keeps, jobOf. by intros ->. Qed.
Lemma keeps_dropped k k' s s' : e_jobs s' = dropped k' (e_jobs s) -> k <> k' -> keeps k s s'.
Proof.
  unfold keeps. intros E Hne [j Hj]. apply jobOf_spec in Hj as [Hj Hk].
  destruct (jobOf k s') as [i|] eqn:Ei; [eauto|]. exfalso. apply (jobOf_none k s' Ei j); [|done].
  rewrite E. apply dropped_in. split; [done|congruence].
Qed.
Lemma childFinished_net k t f s : (e_net (childFinished o k t f s) <= e_net s)%Z.
Proof.
  rewrite childFinished_eq.
  assert (forall g2, (e_net (afterChild k t f g2 s) <= e_net s)%Z) as Ha by (intros g2; cbn; destruct (e_acq s); lia).
  assert (forall g2, (e_net (continue o k t f g2 s) <= e_net s)%Z) as Hc.
  { intros g2. unfold continue. destruct (f && negb (o_keep o)); [|apply Ha].
    destruct (waitFrom_tk o (o_jobs o) 0 (abort (afterChild k t f g2 s))) as (-> & _ & _). apply Ha. }
  destruct (f && o_keep o); [|apply Hc]. destruct (g_nodes (e_g s) !! t); [|cbn; lia].
  destruct (markParents _ t (e_g s)); [apply Hc|cbn; lia].
Qed.
Lemma net_set s : e_net (s <| e_next := None |> <| e_queue ::= S |>) = e_net s.
Proof. done. Qed.
Lemma jobs_set s : e_jobs (s <| e_next := None |> <| e_queue ::= S |>) = e_jobs s.
Proof. done. Qed.
Lemma childFinished_keeps k k' t f s : k <> k' -> keeps k s (childFinished o k' t f s).
Proof. intros Hne. destruct (childFinished_jobs o k' t f s) as [E|E]; [by apply keeps_jobs|by eapply keeps_dropped]. Qed.

Definition nk (k : nat) (s s' : est) : Prop := (e_net s' <= e_net s)%Z /\ keeps k s s'.
Lemma nk_same k s s' : e_net s' = e_net s -> e_jobs s' = e_jobs s -> nk k s s'.
Proof. intros E1 E2. split; [lia|by apply keeps_jobs]. Qed.
Lemma nk_child k k' t f s s1 : k <> k' -> e_net s1 = e_net s -> e_jobs s1 = e_jobs s -> nk k s (childFinished o k' t f s1).
Proof.
  intros Hne E1 E2. split.
  - rewrite <- E1. apply childFinished_net.
  - eapply keeps_trans; [by apply (keeps_jobs k s s1)|by apply childFinished_keeps].
Qed.
Lemma nk_app k s s' j : e_net s' = e_net s -> e_jobs s' = e_jobs s ++ [j] -> nk k s s'.
Proof.
  intros E1 E2. split; [lia|]. unfold keeps, jobOf. rewrite E2. intros [i Hi]. exists i. by apply find_app_some.
Qed.
Lemma nk_set k s s1 : nk k s s1 -> nk k s (s1 <| e_next := None |> <| e_queue ::= S |>).
Proof. intros [H1 H2]. split; [done|]. eapply keeps_trans; [exact H2|by apply keeps_jobs]. Qed.
Lemma nk_queue k s s1 : nk k s s1 -> nk k s (s1 <| e_queue ::= S |>).
Proof. intros [H1 H2]. split; [done|]. eapply keeps_trans; [exact H2|by apply keeps_jobs]. Qed.

Lemma buildNextTarget_nk k ch s s' : (forall k', head (e_avail s) = Some k' -> is_Some (jobOf k s) -> k <> k') ->
  buildNextTarget prep kind o ch s = Some s' -> nk k s s'.
Proof.
  intros Hk Hb. destruct (jobOf k s) as [j0|] eqn:Ej.
  2: { split.
       - clear Hk Ej. unfold buildNextTarget in Hb. destruct (e_aborted s); [by injection Hb as <-|].
         destruct (e_avail s) as [|k' avail]; [by injection Hb as <-|]. destruct (e_next s) as [t|]; [|by injection Hb as <-].
         destruct (mk_targets (e_mk s) !! t) as [b|]; [|by injection Hb as <-].
         destruct (isNil (b_cmds b)); [injection Hb as <-; rewrite net_set; etrans; [apply childFinished_net|]; done|].
         destruct (prep (e_mk s) t (ch_prep ch)) as [[|c0 cmds0]|]; [by injection Hb as <-| |by injection Hb as <-].
         destruct (runCmds kind t (c0 :: cmds0) (ch_codes ch) (ch_launch ch)) as [[failed l|rest l|l]|]; [| | |done]; injection Hb as <-.
         + rewrite net_set. etrans; [apply childFinished_net|]. done.
         + cbn. lia.
         + cbn. lia.
       - unfold keeps. rewrite Ej. by intros []. }
  unfold buildNextTarget in Hb. destruct (e_aborted s); [injection Hb as <-; by apply nk_same|].
  destruct (e_avail s) as [|k' avail]; [injection Hb as <-; by apply nk_same|]. destruct (e_next s) as [t|]; [|injection Hb as <-; by apply nk_same].
  specialize (Hk k' eq_refl ltac:(eauto)).
  destruct (mk_targets (e_mk s) !! t) as [b|]; [|injection Hb as <-; by apply nk_same].
  destruct (isNil (b_cmds b)); [injection Hb as <-; apply nk_set, nk_child; done|].
  destruct (prep (e_mk s) t (ch_prep ch)) as [[|c0 cmds0]|]; [injection Hb as <-; by apply nk_same| |injection Hb as <-; by apply nk_same].
  destruct (runCmds kind t (c0 :: cmds0) (ch_codes ch) (ch_launch ch)) as [[failed l|rest l|l]|]; [| | |done]; injection Hb as <-.
  - apply nk_set, nk_child; done.
  - by eapply nk_app.
  - by apply nk_same.
Qed.

Lemma startProcesses_nk k ch s s' : (forall k', head (e_avail s) = Some k' -> is_Some (jobOf k s) -> k <> k') ->
  startProcesses xp prep kind w o ch s = Some s' -> nk k s s'.
Proof.
  intros Hk H. unfold startProcesses in H.
  destruct (e_aborted s || negb (bool_decide (e_acquiring s = AIdle)) || isNil (e_avail s)); [injection H as <-; by apply nk_same|].
  match type of H with match ?x with _ => _ end = _ => destruct x as [[[[next mk] g] log]| |c| |]; try (injection H as <-; by apply nk_same) end.
  set (s2 := addLog log _) in H.
  destruct next as [t|].
  - destruct (noneRunning o s2); [|injection H as <-; by apply nk_same].
    eapply buildNextTarget_nk in H; [exact H|exact Hk].
  - destruct (noneRunning o s2); [|injection H as <-; by apply nk_same].
    destruct (e_pending s2) as [|[t|] pending]; [injection H as <-; by apply nk_same| |injection H as <-; by apply nk_same].
    injection H as <-. match goal with |- nk k s (match e_end ?x with _ => _ end) => assert (nk k s x) as Hx end.
    { unfold newRoot. match goal with |- nk k s (match ?b with _ => _ end) => destruct b end; by apply nk_same. }
    match goal with |- nk k s (match e_end ?x with _ => _ end) => destruct (e_end x) end; [done|by apply nk_queue].
Qed.
Lemma nk_wait k s s1 n k' : nk k s s1 -> nk k s (waitFrom o n k' s1).
Proof.
  intros [H1 H2]. destruct (waitFrom_tk o n k' s1) as (E1 & _ & _). destruct (waitFrom_same o n k' s1) as (_ & _ & _ & E2 & _ & _).
  split; [lia|]. eapply keeps_trans; [exact H2|by apply keeps_jobs].
Qed.
Lemma nk_put k s s1 j : nk k s s1 -> nk k s (putJob j s1).
Proof.
  intros [H1 H2]. split; [done|]. eapply keeps_trans; [exact H2|]. intros [i Hi]. apply jobOf_spec in Hi as [Hi Hk].
  destruct (jobOf k (putJob j s1)) as [i'|] eqn:Ei; [eauto|]. exfalso.
  destruct (decide (j_exec i = j_exec j)) as [E|E].
  - apply (jobOf_none _ _ Ei j); [|congruence]. by eapply (replaced_self j i).
  - apply (jobOf_none _ _ Ei i); [|done]. by apply (replaced_other j i).
Qed.

Lemma step_nk k s e s' : (forall k', head (e_avail s) = Some k' -> is_Some (jobOf k s) -> k <> k') -> e <> EvTake ->
  endsCmd e <> Some k -> step xp prep kind w o s e = Some s' -> nk k s s'.
Proof.
  intros Hk Ht Hne H. unfold step in H. destruct (e_end s); [done|]. destruct e as [ch| |ch|k' code ch|k']; [|done|..].
  - destruct (e_queue s) as [|q]; [done|]. eapply startProcesses_nk in H; [exact H|exact Hk].
  - destruct (e_acquiring s); try done. destruct (buildNextTarget _ _ _ _ _) as [s1|] eqn:Eb; [|done].
    apply (buildNextTarget_nk k) in Eb; [|exact Hk]. assert (nk k s s1) as Hn by exact Eb.
    destruct (e_end s1); [by injection H as <-|].
    destruct (e_wait s) as [[k'|]|]; injection H as <-; try done.
    destruct Hn as [Hn1 Hn2]. split; [cbn; lia|]. eapply keeps_trans; [exact Hn2|by apply keeps_jobs].
  - assert (k <> k') as Hkk by (intros ->; done).
    destruct (jobOf k' s) as [j|]; [|done]. destruct (decide (j_state j = JWatched)); [|done].
    destruct (code =? stillActive)%N; [injection H as <-; apply nk_put; by apply nk_same|].
    unfold processExit in H. destruct (j_cmds j) as [|c rest]; [injection H as <-; by apply nk_same|].
    destruct (c_max c <? effectiveCode code)%N.
    { destruct (ch_codes ch); [|done]. injection H as <-. by apply nk_child. }
    destruct (runCmds _ _ _ _ _) as [[failed l|rest' l|l]|]; [| | |done]; injection H as <-.
    + match goal with |- nk k s (match e_end ?x with _ => _ end) => assert (nk k s x) as Hx by (by apply nk_child);
        destruct (e_end x); [done|] end.
      destruct (e_wait _) as [[k2|]|]; try done. destruct (failed && negb (o_keep o)); [done|].
      destruct (Nat.eqb k' k2); [|done]. by apply nk_wait.
    + match goal with |- nk k s (if ?b then _ else _) => destruct b end; [apply nk_wait|]; apply nk_put; by apply nk_same.
    + by apply nk_same.
  - destruct (jobOf k' s) as [j|]; [|done]. destruct (j_state j); try done. injection H as <-. apply nk_put. by apply nk_same.
Qed.
Lemma step_net s e s' : e <> EvTake -> step xp prep kind w o s e = Some s' -> (e_net s' <= e_net s)%Z.
Proof.
  intros Hnt Es. set (k := S (default 0 (endsCmd e) + default 0 (head (e_avail s)))).
  destruct (step_nk k s e s') as [Hn _]; try done.
  - intros k' Hk' _. subst k. rewrite Hk'. cbn. lia.
  - subst k. destruct (endsCmd e); [|done]. cbn. intros [= E]. lia.
Qed.
Lemma step_take s s' : step xp prep kind w o s EvTake = Some s' -> e_net s' = (e_net s + 1)%Z /\ e_jobs s' = e_jobs s.
Proof. unfold step. destruct (e_end s); [done|]. destruct (e_acquiring s); try done. by intros [= <-]. Qed.
End Net.

(** *** The invariant *)
Definition instOk (p : inst) : Prop :=
  let c := i_cfg p in
  0 < o_jobs (k_o c) /\ tkPost (i_s p) /\ (e_end (i_s p) = None -> exists roots, SInv (k_kind c) (k_w c) (k_o c) roots (i_s p)).
Record MInv (n : nat) (m : mst) : Prop := {
  mi_ok : forall i p, m_insts m !! i = Some p -> instOk p;
  mi_sem : (m_sem m + held m = Z.of_nat n - 1)%Z;
  mi_pos : (0 <= m_sem m)%Z;
  mi_root : forall i p, m_insts m !! i = Some p -> i_parent p = None -> i = 0;
  mi_kids : NoDup (kids m);
  mi_slots : forall i k, (i, k) ∈ kids m -> exists p, m_insts m !! i = Some p /\ is_Some (jobOf k (i_s p));
}.

Lemma split_at {A} (l : list A) i x : l !! i = Some x ->
  exists l1 l2, l = l1 ++ x :: l2 /\ length l1 = i /\ forall y, <[i := y]> l = l1 ++ y :: l2.
Proof.
  intros H. exists (take i l), (drop (S i) l). split; [by rewrite take_drop_middle|]. split.
  - rewrite take_length. apply lookup_lt_Some in H. lia.
  - intros y. rewrite insert_take_drop; [done|]. by eapply lookup_lt_Some.
Qed.
Lemma nodup_sublist {A} (l l' : list A) : l `sublist_of` l' -> NoDup l' -> NoDup l.
Proof.
  induction 1 as [|x l l' H IH|x l l' H IH]; [done|..].
  - rewrite !NoDup_cons. intros [H1 H2]. split; [|by apply IH]. intros Hx. apply H1. by eapply elem_of_submseteq; [|apply sublist_submseteq].
  - rewrite NoDup_cons. intros [_ H2]. by apply IH.
Qed.
Definition kidsOf (l : list inst) : list (nat * nat) := omap i_parent (List.filter alive l).
Lemma filter_app_l {A} (f : A -> bool) l l' : List.filter f (l ++ l') = List.filter f l ++ List.filter f l'.
Proof. induction l as [|x l IH]; [done|]. cbn. destruct (f x); cbn; by rewrite IH. Qed.
Lemma kidsOf_app l l' : kidsOf (l ++ l') = kidsOf l ++ kidsOf l'.
Proof. unfold kidsOf. by rewrite filter_app_l, omap_app. Qed.
Lemma kidsOf_sub p p' : i_parent p' = i_parent p -> (alive p' = true -> alive p = true) -> kidsOf [p'] `sublist_of` kidsOf [p].
Proof.
  intros E H. unfold kidsOf. cbn. destruct (alive p'), (alive p); cbn; rewrite ?E; try done.
  - by specialize (H eq_refl).
  - apply sublist_nil_l.
Qed.
Definition heldBy (l : list inst) : Z := foldr (fun p z => (e_net (i_s p) + z)%Z) 0%Z l.
Lemma heldBy_app l l' : heldBy (l ++ l') = (heldBy l + heldBy l')%Z.
Proof. unfold heldBy. induction l as [|p l IH]; [done|]. cbn. rewrite IH. lia. Qed.

Lemma apply_tk w o mk names s0 : apply w o mk names = Ok s0 -> e_acq s0 = 0 /\ e_acquiring s0 = AIdle /\ e_net s0 = 0%Z.
Proof.
  intros Ha. unfold apply in Ha.
  assert (forall t rest q, let s := newRoot w t (initState o mk rest q) in e_acq s = 0 /\ e_acquiring s = AIdle /\ e_net s = 0%Z) as Hn.
  { intros t rest q. unfold newRoot. by destruct (buildGraph _ _ _ _). }
  destruct names as [|n ns].
  - destruct (decide (mk_targets mk = ∅)); [by injection Ha as <-|]. destruct (mk_first mk) as [t|]; [|done].
    destruct (e_end _) as [[]|] eqn:Ee in Ha; try done.
    destruct (o_dump o); [destruct (dumpNode _ _ _ _); [|done]|]; injection Ha as <-; by apply (Hn t [] 1).
  - destruct (mk_find mk n) as [t|]; [|done]. destruct (e_end _) as [[]|] eqn:Ee in Ha; try done.
    destruct (o_dump o); [destruct (dumpNode _ _ _ _); [|done]|]; injection Ha as <-; by eapply (Hn t _ 1).
Qed.
Lemma apply_instOk c par mk names s0 : startable (k_o c) mk -> apply (k_w c) (k_o c) mk names = Ok s0 ->
  instOk (Inst c par s0) /\ e_end s0 = None /\ e_net s0 = 0%Z.
Proof.
  intros [Hj Hf] Ha. destruct (apply_good (k_kind c) (k_w c) (k_o c) mk names s0 Hj Hf Ha) as [HI He].
  destruct (apply_tk _ _ _ _ _ Ha) as (E1 & E2 & E3). pose proof (apply_jobs _ _ _ _ _ Ha) as E4.
  split; [|done]. split; [done|]. split; [|by eauto]. cbn. apply tkPost_live; [|intros x Hx; congruence].
  unfold tkLive, tk, reqd. rewrite E1, E3, E4, pend_idle, E2, decide_False by done. cbn. lia.
Qed.
Lemma sinv_free kind w o roots s k k' : SInv kind w o roots s -> head (e_avail s) = Some k' -> is_Some (jobOf k s) -> k <> k'.
Proof.
  intros [F|(pre & r & mk0 & evs & C & _)] Hh [j Hj] ->.
  - destruct F as (_ & F & _). unfold jobOf in Hj. by rewrite F in Hj.
  - apply jobOf_spec in Hj as [Hj Hk]. pose proof (ci_exec _ _ _ _ _ _ _ _ _ C) as Hx.
    assert (NoDup (e_avail s ++ map j_exec (e_jobs s))) as Hnd by (rewrite Hx; apply NoDup_seq).
    apply NoDup_app in Hnd as (_ & Hd & _). apply (Hd k').
    + destruct (e_avail s); [done|]. injection Hh as ->. by left.
    + apply elem_of_list_fmap. eauto.
Qed.
Lemma sinv_nodup kind w o roots s : SInv kind w o roots s -> NoDup (map j_exec (e_jobs s)).
Proof.
  intros [F|(pre & r & mk0 & evs & C & _)].
  - destruct F as (_ & -> & _). constructor.
  - eapply exec_nodup. by eapply ci_exec.
Qed.
Lemma step_alive xp prep kind w o s e s' : step xp prep kind w o s e = Some s' -> e_end s = None.
Proof. unfold step. by destruct (e_end s). Qed.

Lemma mstep_inv n m ev m' : MInv n m -> spawnOk ev -> mstep m ev = Some m' -> MInv n m'.
Proof.
  intros [M1 M2 M3 M4 M5 M6] Hsp H. destruct ev as [i e|i k c mk names]; cbn in H.
  - destruct (m_insts m !! i) as [p|] eqn:Ei; [|done].
    destruct (step _ _ _ _ _ (i_s p) e) as [s'|] eqn:Es; [|done].
    destruct (takes e && (m_sem m <=? 0)%Z) eqn:Et; [done|].
    destruct (match endsCmd e with Some k => _ | None => false end) eqn:Ek; [done|]. injection H as <-.
    pose proof (step_alive _ _ _ _ _ _ _ _ Es) as He.
    destruct (M1 i p Ei) as (Hj & Hp & HI). destruct (HI He) as [roots HI0].
    set (p' := Inst (i_cfg p) (i_parent p) s').
    destruct (split_at (m_insts m) i p Ei) as (l1 & l2 & El & Hl & Hins). rewrite (Hins p').
    assert (alive p = true) as Hal by (unfold alive; by rewrite He).
    assert (kidsOf (l1 ++ p' :: l2) `sublist_of` kids m) as Hsub.
    { unfold kids. change (omap i_parent (List.filter alive (m_insts m))) with (kidsOf (m_insts m)). rewrite El, !kidsOf_app.
      change (p' :: l2) with ([p'] ++ l2). change (p :: l2) with ([p] ++ l2). rewrite !kidsOf_app.
      apply sublist_app; [done|]. apply sublist_app; [|done]. by apply kidsOf_sub. }
    assert (forall k, endsCmd e = Some k -> (i, k) ∉ kids m) as Hend.
    { intros k E. rewrite E in Ek. by apply bool_decide_eq_false in Ek. }
    split; cbn [m_insts m_sem].
    + intros i' q Hq. destruct (decide (i' = i)) as [->|Hne].
      * rewrite lookup_app_r in Hq by lia. rewrite Hl, Nat.sub_diag in Hq. injection Hq as <-.
        split; [done|]. split; [eapply (step_tk _ _ _ _ _ roots Hj); [exact HI0|by apply Hp|exact Es]|].
        cbn. intros He'. exists roots.
        by destruct (step_good _ _ _ _ _ roots Hj True _ _ _ HI0 ltac:(done) Es) as [[_ ?]|[[x Hx] _]]; [|rewrite He' in Hx].
      * apply (M1 i' q). rewrite <- (list_lookup_insert_ne (m_insts m) i i' p') by done. by rewrite Hins.
    + assert (held m = (heldBy l1 + (e_net (i_s p) + heldBy l2))%Z) as E1.
      { unfold held. change (foldr _ 0%Z (m_insts m)) with (heldBy (m_insts m)). rewrite El, heldBy_app. done. }
      assert (held (Mst (m_sem m - (e_net s' - e_net (i_s p))) (l1 ++ p' :: l2)) = (heldBy l1 + (e_net s' + heldBy l2))%Z) as E2.
      { unfold held. cbn [m_insts]. change (foldr _ 0%Z (l1 ++ p' :: l2)) with (heldBy (l1 ++ p' :: l2)). rewrite heldBy_app. done. }
      rewrite E2. lia.
    + destruct (takes e) eqn:Etk.
      * assert (e = EvTake) as -> by by destruct e. apply step_take in Es as [-> _]. cbn in Et. apply Z.leb_gt in Et. lia.
      * assert (e <> EvTake) as Hnt by by intros ->.
        pose proof (step_net _ _ _ _ _ _ _ _ Hnt Es) as Hn. lia.
    + intros i' q Hq Hr. destruct (decide (i' = i)) as [->|Hne].
      * rewrite lookup_app_r in Hq by lia. rewrite Hl, Nat.sub_diag in Hq. injection Hq as <-. by eapply M4.
      * eapply M4; [|exact Hr]. rewrite <- (list_lookup_insert_ne (m_insts m) i i' p') by done. rewrite Hins. exact Hq.
    + by eapply nodup_sublist.
    + intros i' k Hin. assert ((i', k) ∈ kids m) as Hin0 by (eapply elem_of_submseteq; [exact Hin|by apply sublist_submseteq]).
      destruct (M6 i' k Hin0) as (q & Hq & Hjq). destruct (decide (i' = i)) as [->|Hne].
      * exists p'. split; [rewrite lookup_app_r, Hl, Nat.sub_diag by lia; done|].
        assert (q = p) as -> by congruence. cbn.
        destruct (takes e) eqn:Etk.
        { assert (e = EvTake) as -> by by destruct e. apply step_take in Es as [_ Ej]. by apply (keeps_jobs k (i_s p) s' Ej). }
        assert (e <> EvTake) as Hnt by by intros ->. assert (endsCmd e <> Some k) as Hnk by by intros ?%Hend.
        assert (forall k', head (e_avail (i_s p)) = Some k' -> is_Some (jobOf k (i_s p)) -> k <> k') as Hfr by (intros k'; by eapply sinv_free).
        destruct (step_nk _ _ _ _ _ k _ _ _ Hfr Hnt Hnk Es) as [_ Hkp]. by apply Hkp.
      * exists q. split; [|done]. rewrite <- Hins. by rewrite list_lookup_insert_ne.
  - destruct (m_insts m !! i) as [p|] eqn:Ei; [|done]. destruct (jobOf k (i_s p)) as [j|] eqn:Ej; [|done].
    destruct (decide ((i, k) ∈ kids m)) as [|Hnk]; [done|].
    destruct (apply (k_w c) (k_o c) mk names) as [s0| | | |] eqn:Ea; try done. injection H as <-.
    destruct (apply_instOk c (Some (i, k)) mk names s0 Hsp Ea) as (Hok & He & Hnet).
    assert (kidsOf (m_insts m ++ [Inst c (Some (i, k)) s0]) = kids m ++ [(i, k)]) as Hkids.
    { rewrite kidsOf_app. unfold kidsOf at 2, alive. cbn. by rewrite He. }
    split; cbn [m_insts m_sem].
    + intros i' q Hq. apply lookup_app_Some in Hq as [Hq|[Hi Hq]]; [by eapply M1|].
      destruct (i' - length (m_insts m)); [|done]. by injection Hq as <-.
    + assert (held (Mst (m_sem m) (m_insts m ++ [Inst c (Some (i, k)) s0])) = held m) as ->; [|done].
      transitivity (heldBy (m_insts m) + heldBy [Inst c (Some (i, k)) s0])%Z; [apply heldBy_app|]. unfold heldBy. cbn. rewrite Hnet. cbn. unfold held. lia.
    + done.
    + intros i' q Hq Hr. apply lookup_app_Some in Hq as [Hq|[Hi Hq]]; [by eapply M4|].
      destruct (i' - length (m_insts m)); [|done]. by injection Hq as <-.
    + unfold kids. cbn [m_insts]. change (NoDup (kidsOf (m_insts m ++ [Inst c (Some (i, k)) s0]))). rewrite Hkids.
      apply NoDup_app. split; [done|]. split; [|apply NoDup_singleton]. by intros x Hx ->%elem_of_list_singleton.
    + intros i' k' Hin. change ((i', k') ∈ kidsOf (m_insts m ++ [Inst c (Some (i, k)) s0])) in Hin. rewrite Hkids in Hin.
      apply elem_of_app in Hin as [Hin|[= -> ->]%elem_of_list_singleton].
      * destruct (M6 i' k' Hin) as (q & Hq & Hjq). exists q. split; [|done]. by apply lookup_app_l_Some.
      * exists p. split; [by apply lookup_app_l_Some|]. eauto.
Qed.

Lemma mrun_inv n evs : forall m m', MInv n m -> (forall ev, ev ∈ evs -> spawnOk ev) -> mrun m evs = Some m' -> MInv n m'.
Proof.
  induction evs as [|ev evs IH]; intros m m' HI Hsp H; cbn in H; [by injection H as <-|].
  destruct (mstep m ev) as [m1|] eqn:E; [|done]. eapply (IH m1); [| |done].
  - eapply mstep_inv; [done| |done]. apply Hsp. by left.
  - intros ev' Hev. apply Hsp. by right.
Qed.
Lemma shared_inv n c mk names evs m : 0 < n -> sharedRun n c mk names evs m -> MInv n m.
Proof.
  intros Hn (Hst & Hsp & m0 & Hm0 & Hr). eapply mrun_inv; [|exact Hsp|exact Hr]. unfold mstart in Hm0.
  destruct (apply _ _ _ _) as [s0| | | |] eqn:Ea; try done. injection Hm0 as <-.
  destruct (apply_instOk c None mk names s0 Hst Ea) as (Hok & He & Hnet).
  assert (forall i p, [Inst c None s0] !! i = Some p -> i = 0 /\ p = Inst c None s0) as Hlk.
  { intros [|i] p Hp; [by injection Hp as <-|done]. }
  split; cbn [m_insts m_sem].
  - by intros i p [_ ->]%Hlk.
  - unfold held. cbn. rewrite Hnet. lia.
  - lia.
  - by intros i p [-> _]%Hlk.
  - unfold kids, alive. cbn. rewrite He. constructor.
  - unfold kids, alive. cbn. rewrite He. cbn. by intros i k ?%elem_of_nil.
Qed.

(** *** Counting *)
Definition slotsFrom (b : nat) (l : list inst) : list (nat * nat) :=
  concat (imap (fun i p => map (fun j => (b + i, j_exec j)) (e_jobs (i_s p))) l).
Lemma slotsFrom_cons b p l : slotsFrom b (p :: l) = map (fun j => (b, j_exec j)) (e_jobs (i_s p)) ++ slotsFrom (S b) l.
Proof.
  unfold slotsFrom. cbn. f_equal; [apply map_ext; intros j; by rewrite Nat.add_0_r|]. f_equal.
  apply imap_ext. intros i x _. cbn. apply map_ext. intros j. f_equal. lia.
Qed.
Lemma slotsFrom_in b l i k : (i, k) ∈ slotsFrom b l <-> exists p j, b <= i /\ l !! (i - b) = Some p /\ j ∈ e_jobs (i_s p) /\ j_exec j = k.
Proof.
  revert b. induction l as [|p l IH]; intros b.
  - unfold slotsFrom. cbn. split; [by intros ?%elem_of_nil|]. intros (p & j & _ & H & _). done.
  - rewrite slotsFrom_cons, elem_of_app, IH, elem_of_list_fmap. split.
    + intros [(j & [= -> ->] & Hj)|(q & j & Hb & Hl & Hj)].
      * exists p, j. rewrite Nat.sub_diag. split; [lia|]. done.
      * exists q, j. split; [lia|]. split; [|done]. replace (i - b) with (S (i - S b)) by lia. done.
    + intros (q & j & Hb & Hl & Hj & Hk). destruct (i - b) as [|d] eqn:Ed.
      * left. injection Hl as ->. exists j. split; [|done]. f_equal; [lia|done].
      * right. exists q, j. split; [lia|]. replace (i - S b) with d by lia. done.
Qed.
Lemma slotsFrom_nodup b l : (forall p, p ∈ l -> NoDup (map j_exec (e_jobs (i_s p)))) -> NoDup (slotsFrom b l).
Proof.
  revert b. induction l as [|p l IH]; intros b H; [constructor|]. rewrite slotsFrom_cons. apply NoDup_app. split; [|split].
  - assert (NoDup (map j_exec (e_jobs (i_s p)))) as Hp by (apply H; by left).
    rewrite <- (map_map j_exec (fun k => (b, k))). apply NoDup_fmap_2; [|done]. by intros x y [= ->].
  - intros [i k] H1 H2. apply elem_of_list_fmap in H1 as (j & [= -> ->] & _).
    apply slotsFrom_in in H2 as (q & j' & Hb & _). lia.
  - apply IH. intros q Hq. apply H. by right.
Qed.
Lemma slotsFrom_length b l : (forall p, p ∈ l -> cleanEnd p /\ tkEnd (i_s p)) ->
  (Z.of_nat (length (slotsFrom b l)) <= heldBy l + Z.of_nat (length (List.filter alive l)))%Z.
Proof.
  revert b. induction l as [|p l IH]; intros b H; [done|]. rewrite slotsFrom_cons, app_length, map_length.
  unfold heldBy. cbn [foldr List.filter]. fold (heldBy l).
  assert (forall q, q ∈ l -> cleanEnd q /\ tkEnd (i_s q)) as H' by (intros q Hq; apply H; by right).
  specialize (IH (S b) H').
  destruct (H p ltac:(by left)) as [[Hc|[Hc1 Hc2]] Ht].
  - unfold alive at 1. rewrite Hc. cbn [length]. unfold tkEnd in Ht. lia.
  - rewrite Hc1, Hc2. cbn [length]. destruct (alive p); cbn [length]; lia.
Qed.
Lemma kidsOf_length l : length (List.filter alive l) <= length (kidsOf l) + length (List.filter (fun p => match i_parent p with None => true | _ => false end) l).
Proof.
  unfold kidsOf. induction l as [|p l IH]; [done|]. cbn. destruct (alive p) eqn:Ea; cbn; destruct (i_parent p); cbn; lia.
Qed.
Lemma roots_length l : (forall i p, l !! i = Some p -> i_parent p = None -> i = 0) ->
  length (List.filter (fun p => match i_parent p with None => true | _ => false end) l) <= 1.
Proof.
  intros H. destruct l as [|p l]; [cbn; lia|].
  assert (List.filter (fun p => match i_parent p with None => true | _ => false end) l = []) as E.
  { assert (forall q, q ∈ l -> i_parent q <> None) as Hq.
    { intros q [i Hi]%elem_of_list_lookup Hn. by specialize (H (S i) q Hi Hn). }
    clear H. induction l as [|q l IH]; [done|]. cbn. destruct (i_parent q) eqn:Ep; [|by destruct (Hq q ltac:(by left))].
    apply IH. intros r Hr. apply Hq. by right. }
  cbn. rewrite E. destruct (i_parent p); cbn; lia.
Qed.

Lemma leaves_bound n m : MInv n m -> (forall p, p ∈ m_insts m -> cleanEnd p) -> length (leaves m) <= n.
Proof.
  intros [M1 M2 M3 M4 M5 M6] Hc.
  assert (slots m = slotsFrom 0 (m_insts m)) as Es by done.
  assert (NoDup (slots m)) as Hnd.
  { rewrite Es. apply slotsFrom_nodup. intros p Hp. destruct (Hc p Hp) as [Hl|[_ ->]]; [|constructor].
    apply elem_of_list_lookup in Hp as [i Hi]. destruct (M1 i p Hi) as (_ & _ & HI). destruct (HI Hl) as [roots HI0]. by eapply sinv_nodup. }
  assert (kids m ⊆ slots m) as Hks.
  { intros [i k] Hk. destruct (M6 i k Hk) as (p & Hp & j & Hj). apply jobOf_spec in Hj as [Hj Hjk].
    rewrite Es. apply slotsFrom_in. exists p, j. rewrite Nat.sub_0_r. split; [lia|]. done. }
  assert (length (leaves m) + length (kids m) <= length (slots m)) as Hlen.
  { rewrite <- app_length. apply submseteq_length. apply NoDup_submseteq.
    - apply NoDup_app. split; [by apply NoDup_filter|]. split; [|done]. intros x Hx. by apply elem_of_list_filter in Hx as [Hx _].
    - intros x [Hx|Hx]%elem_of_app; [by apply elem_of_list_filter in Hx as [_ Hx]|by apply Hks]. }
  pose proof (slotsFrom_length 0 (m_insts m)) as Hs. rewrite <- Es in Hs.
  pose proof (kidsOf_length (m_insts m)) as Hk. pose proof (roots_length (m_insts m) M4) as Hr.
  change (kidsOf (m_insts m)) with (kids m) in Hk. change (held m) with (heldBy (m_insts m)) in M2.
  assert (forall p, p ∈ m_insts m -> cleanEnd p /\ tkEnd (i_s p)) as Hall.
  { intros p Hp. split; [by apply Hc|]. apply elem_of_list_lookup in Hp as [i Hi]. destruct (M1 i p Hi) as (_ & [_ Ht _] & _). done. }
  specialize (Hs Hall). lia.
Qed.
