(** jom processes that share a job server do not wait for each other for ever, as long as none of them gives up. *)
From stdpp Require Import prelude gmap.
From RecordUpdate Require Import RecordUpdate.
From Verif Require Import Base Data Infer UpToDate Graph Exec ExecSpec GraphProofs BuildProofs PruneProofs SchedInv TraceInv ExecProofs TermProofs ExecFacts TokenProofs Jobs JobsSpec JobsProofs SharedLiveSpec.

Local Arguments markParents : simpl never.
Local Arguments findNextTarget : simpl never.
Local Arguments removeLeaf : simpl never.
Local Arguments decide : simpl never.

(** A process is started by one that was there before. *)
Definition ordered (m : mst) : Prop := forall i p j k, m_insts m !! i = Some p -> i_parent p = Some (j, k) -> j < i.
Lemma mstep_ordered m ev m' : ordered m -> mstep m ev = Some m' -> ordered m'.
Proof.
  intros HO H. unfold mstep in H. destruct ev as [i e|i k c mk names].
  - destruct (m_insts m !! i) as [p|] eqn:Ep; [|done]. destruct (step _ _ _ _ _ _ _) as [s'|]; [|done].
    destruct (takes e && _); [done|]. destruct (match endsCmd e with Some _ => _ | None => _ end); [done|]. injection H as <-.
    intros i' q j' k' Hq Hp. cbn in Hq. destruct (decide (i = i')) as [<-|Hne].
    + rewrite list_lookup_insert in Hq by (by eapply lookup_lt_Some). injection Hq as <-. by apply (HO i p j' k').
    + rewrite list_lookup_insert_ne in Hq by done. by apply (HO i' q j' k').
  - destruct (m_insts m !! i) as [p|] eqn:Ep; [|done]. destruct (jobOf k (i_s p)); [|done].
    destruct (decide _); [done|]. destruct (apply _ _ _ _) as [s0| | | |]; try done. injection H as <-.
    intros i' q j' k' Hq Hp. cbn in Hq. apply lookup_app_Some in Hq as [Hq|[Hlen Hq]]; [by apply (HO i' q j' k')|].
    apply lookup_lt_Some in Ep. destruct (i' - length (m_insts m)) as [|d] eqn:Ed; [|by destruct d]. injection Hq as <-. injection Hp as <- <-. lia.
Qed.
Lemma mrun_ordered evs : forall m m', ordered m -> mrun m evs = Some m' -> ordered m'.
Proof.
  induction evs as [|ev evs IH]; intros m m' HO H; cbn in H; [by injection H as <-|].
  destruct (mstep m ev) as [m1|] eqn:E; [|done]. apply (IH m1); [|done]. by eapply mstep_ordered.
Qed.
Lemma shared_ordered n c mk names evs m : sharedRun n c mk names evs m -> ordered m.
Proof.
  intros (_ & _ & m0 & H0 & Hr). apply (mrun_ordered evs m0); [|done]. unfold mstart in H0.
  destruct (apply _ _ _ _); try done. injection H0 as <-. intros i p j k Hp Hk. cbn in Hp. destruct i as [|i]; [|by destruct i]. by injection Hp as <-.
Qed.

(** When some process is alive and all ended cleanly, the first one is alive. *)
Lemma root_alive n m : MInv n m -> ordered m -> (forall p, p ∈ m_insts m -> cleanEnd p) ->
  forall i p, m_insts m !! i = Some p -> e_end (i_s p) = None -> exists q, q ∈ m_insts m /\ e_end (i_s q) = None /\ i_parent q = None.
Proof.
  intros HM HO Hc i. induction (lt_wf i) as [i _ IH]. intros p Hp He.
  destruct (i_parent p) as [[j k]|] eqn:Epar.
  - assert ((j, k) ∈ kids m) as Hkid.
    { unfold kids. apply elem_of_list_omap. exists p. split; [|done]. apply elem_of_list_In. apply filter_In. split.
      - apply elem_of_list_In. by eapply elem_of_list_lookup_2.
      - unfold alive. by rewrite He. }
    destruct (mi_slots _ _ HM j k Hkid) as (q & Hq & j0 & Hj0). apply (IH j (HO i p j k Hp Epar) q Hq).
    destruct (Hc q ltac:(by eapply elem_of_list_lookup_2)) as [?|[_ Hn]]; [done|].
    apply jobOf_spec in Hj0 as [Hj0 _]. rewrite Hn in Hj0. by apply elem_of_nil in Hj0.
  - exists p. split; [by eapply elem_of_list_lookup_2|]. done.
Qed.
Lemma kidsOf_le l : length (kidsOf l) <= length (List.filter alive l).
Proof. unfold kidsOf. induction l as [|p l IH]; [done|]. cbn. destruct (alive p); cbn; [|lia]. destruct (i_parent p); cbn; lia. Qed.
Lemma kidsOf_lt l q : q ∈ l -> e_end (i_s q) = None -> i_parent q = None -> S (length (kidsOf l)) <= length (List.filter alive l).
Proof.
  intros Hq He Hp. induction l as [|p l IH]; [by apply elem_of_nil in Hq|]. apply elem_of_cons in Hq as [<-|Hq].
  - pose proof (kidsOf_le l) as H. unfold kidsOf in *. assert (alive q = true) as Ha by (unfold alive; by rewrite He). cbn. rewrite Ha. cbn. rewrite Hp. lia.
  - specialize (IH Hq). unfold kidsOf in *. cbn. destruct (alive p); cbn; [|lia]. destruct (i_parent p); cbn; lia.
Qed.

(** A process with nothing to do of its own. *)
Definition quiet (sem : Z) (p : inst) : Prop :=
  e_end (i_s p) = None -> e_queue (i_s p) = 0 /\ e_acquiring (i_s p) <> ATaken /\ (e_acquiring (i_s p) = ARequested -> (sem <= 0)%Z).
Global Instance quiet_dec sem p : Decision (quiet sem p).
Proof.
  unfold quiet. destruct (e_end (i_s p)); [left; done|].
  destruct (decide (e_queue (i_s p) = 0 /\ e_acquiring (i_s p) <> ATaken /\ (e_acquiring (i_s p) = ARequested -> (sem <= 0)%Z))); [by left|right; by intros H; apply n, H].
Defined.

Lemma mown m i p e s' : m_insts m !! i = Some p -> (forall k, e <> EvGone k) ->
  step (k_xp (i_cfg p)) (k_prep (i_cfg p)) (k_kind (i_cfg p)) (k_w (i_cfg p)) (k_o (i_cfg p)) (i_s p) e = Some s' ->
  (e = EvTake -> (0 < m_sem m)%Z) -> (forall k code ch, e = EvExit k code ch -> (i, k) ∉ kids m) -> goesOn m.
Proof.
  intros Hp Hg Hs Ht Hk. exists i, e. unfold mstep. rewrite Hp, Hs.
  assert (takes e && (m_sem m <=? 0)%Z = false) as ->.
  { destruct e; try done. cbn. apply Z.leb_gt. by apply Ht. }
  assert ((match endsCmd e with Some k => bool_decide ((i, k) ∈ kids m) | None => false end) = false) as ->.
  { destruct e; try done; cbn; [|by destruct (Hg k)]. apply bool_decide_eq_false. by eapply Hk. }
  eauto.
Qed.

Lemma loud m i p : m_insts m !! i = Some p -> builtinsEnd (i_cfg p) -> ~ quiet (m_sem m) p -> goesOn m.
Proof.
  intros Hp Hb Hq. set (c := i_cfg p). set (s := i_s p).
  destruct (e_end s) eqn:He. { exfalso. apply Hq. unfold quiet. fold s. congruence. }
  destruct (e_queue s) as [|q] eqn:Eq.
  - destruct (e_acquiring s) eqn:Ea.
    + exfalso. apply Hq. intros _. fold s. rewrite Ea. done.
    + destruct (decide (m_sem m <= 0)%Z) as [Hs|Hs].
      * exfalso. apply Hq. intros _. fold s. rewrite Ea. done.
      * eapply (mown m i p EvTake); [done|done| |lia|done]. unfold step. fold s. by rewrite He, Ea.
    + destruct (buildNextTarget_total (k_prep c) (k_kind c) (k_o c) Hb (s <| e_acquiring := AIdle |>)) as [ch [s' Hs']].
      assert (exists s2, step (k_xp c) (k_prep c) (k_kind c) (k_w c) (k_o c) s (EvAcquired ch) = Some s2) as [s2 Hs2].
      { unfold step. rewrite He, Ea, Hs'. destruct (e_end s'), (e_wait s) as [[?|]|]; eauto. }
      by eapply (mown m i p (EvAcquired ch)).
  - destruct (startProcesses_total (k_xp c) (k_prep c) (k_kind c) (k_w c) (k_o c) Hb (s <| e_queue := q |>)) as [ch [s' Hs']].
    eapply (mown m i p (EvStart ch)); [done|done| |done|done]. unfold step. fold s c. by rewrite He, Eq.
Qed.

Lemma leaf_ends n m i k : MInv n m -> (forall p, p ∈ m_insts m -> builtinsEnd (i_cfg p) /\ allWatched p /\ cleanEnd p) ->
  (i, k) ∈ leaves m -> goesOn m.
Proof.
  intros HM Hall Hin. apply elem_of_list_filter in Hin as [Hnk Hin].
  change (slots m) with (slotsFrom 0 (m_insts m)) in Hin. apply slotsFrom_in in Hin as (p & j & _ & Hp & Hj & Hk). rewrite Nat.sub_0_r in Hp.
  destruct (Hall p ltac:(by eapply elem_of_list_lookup_2)) as (Hb & Hw & Hc).
  destruct Hc as [He|[_ Hn]]; [|rewrite Hn in Hj; by apply elem_of_nil in Hj].
  destruct (mi_ok _ _ HM i p Hp) as (_ & _ & HI). destruct (HI He) as [roots HI0].
  assert (jobOf k (i_s p) = Some j) as Hjk. { rewrite <- Hk. apply jobOf_unique; [|done]. by eapply sinv_nodup. }
  assert (j_state j = JWatched) as Hst by (by apply Hw).
  destruct (processExit_total (k_kind (i_cfg p)) (k_o (i_cfg p)) Hb (i_s p) k j) as [ch [s' Hs']].
  eapply (mown m i p (EvExit k 0 ch)); [done|done| |done|].
  - unfold step. rewrite He, Hjk, decide_True by done. exact Hs'.
  - intros k' code ch' [= <- <- <-]. done.
Qed.

(** The tokens held by a process that is quiet. *)
Lemma quiet_net sem p : instOk p -> cleanEnd p -> quiet sem p ->
  if alive p then (e_net (i_s p) + 1 <= Z.of_nat (length (e_jobs (i_s p))) + (if givenUp p then 1 else 0))%Z else e_net (i_s p) = 0%Z /\ e_jobs (i_s p) = [].
Proof.
  intros (Hj & Hp & HI) Hc Hq. unfold givenUp, alive. destruct (e_end (i_s p)) eqn:He.
  - destruct Hc as [?|?]; [congruence|done].
  - destruct (Hq He) as (Q1 & Q2 & Q3). destruct (tp_live _ Hp He) as (T1 & T2 & T3). destruct (HI eq_refl) as [roots [F|(pre & r & mk0 & evs & C & HA)]].
    + exfalso. by apply F.
    + cbn [andb]. destruct (e_aborted (i_s p)).
      { unfold reqd in T3. destruct (decide _) in T3; lia. }
      destruct HA as [N L]. pose proof (na_acq _ _ _ _ _ _ N) as Hacq.
      unfold pend, reqd in *. destruct (e_acquiring (i_s p)) eqn:Ea; [| |done].
      * specialize (L Q1 Ea). rewrite !decide_True in * by done. rewrite decide_False in T3 by done.
        destruct (e_jobs (i_s p)); [done|]. cbn in *. lia.
      * rewrite decide_False in Hacq by done. rewrite decide_True in T3 by done. lia.
Qed.

Lemma quiet_held sem b l : (forall p, p ∈ l -> instOk p /\ cleanEnd p /\ quiet sem p) ->
  (heldBy l + Z.of_nat (length (List.filter alive l)) <= Z.of_nat (length (slotsFrom b l)) + Z.of_nat (length (List.filter givenUp l)))%Z.
Proof.
  revert b. induction l as [|p l IH]; intros b H; [done|]. rewrite slotsFrom_cons, app_length, map_length.
  unfold heldBy. cbn [foldr List.filter]. fold (heldBy l).
  specialize (IH (S b) ltac:(intros q Hq; apply H; by right)).
  destruct (H p ltac:(by left)) as (H1 & H3 & H4). pose proof (quiet_net sem p H1 H3 H4) as Hn.
  destruct (alive p) eqn:Ea.
  - destruct (givenUp p); cbn [length]; lia.
  - unfold givenUp at 1. rewrite Ea. destruct Hn as [-> ->]. cbn [length andb]. lia.
Qed.

(** A process that is alive and quiet while there is a token has commands. *)
Lemma quiet_busy sem p : (0 < sem)%Z -> instOk p -> quiet sem p -> alive p = true -> 0 < length (e_jobs (i_s p)).
Proof.
  intros Hpos (_ & _ & HI) Hqq Ha. unfold alive in Ha. destruct (e_end (i_s p)) eqn:He; [done|].
  destruct (Hqq He) as (Q1 & Q2 & Q3).
  assert (e_acquiring (i_s p) = AIdle) as Ea by (destruct (e_acquiring (i_s p)); [done|specialize (Q3 eq_refl); lia|done]).
  destruct (HI eq_refl) as [roots [F|(pre & r & mk0 & evs & C & HA)]]; [exfalso; by apply F|].
  destruct (e_aborted (i_s p)).
  - destruct HA as [_ [(k & j & W1 & W2 & W3 & W4)|(W1 & W2 & W3)]]; [|done].
    apply jobOf_spec in W2 as [W2 _]. destruct (e_jobs (i_s p)); [by apply elem_of_nil in W2|]. cbn. lia.
  - destruct HA as [_ L]. specialize (L Q1 Ea). destruct (e_jobs (i_s p)); [done|]. cbn. lia.
Qed.

Lemma never_stuck n m : MInv n m -> ordered m ->
  (forall p, p ∈ m_insts m -> builtinsEnd (i_cfg p) /\ allWatched p /\ cleanEnd p) ->
  length (List.filter givenUp (m_insts m)) < n ->
  (exists p, p ∈ m_insts m /\ e_end (i_s p) = None) -> goesOn m.
Proof.
  intros HM HO Hall Hgu (p0 & Hp0 & He0).
  destruct (leaves m) as [|[i k] rest] eqn:El; [|eapply (leaf_ends n m i k); [done|done|rewrite El; by left]].
  destruct (decide (Forall (quiet (m_sem m)) (m_insts m))) as [Hq|Hq].
  2: { apply not_Forall_Exists in Hq; [|apply _]. apply Exists_exists in Hq as (p & Hp & Hq).
       destruct (Hall p Hp) as [Hb _]. apply elem_of_list_lookup in Hp as [i Hi]. by eapply loud. }
  rewrite Forall_forall in Hq.
  assert (forall p, p ∈ m_insts m -> instOk p /\ cleanEnd p /\ quiet (m_sem m) p) as H.
  { intros p Hp. destruct (Hall p Hp) as (_ & _ & H3). pose proof (Hq p Hp).
    apply elem_of_list_lookup in Hp as [i Hi]. split; [by eapply mi_ok|]. done. }
  pose proof (quiet_held (m_sem m) 0 (m_insts m) H) as Hh. change (slotsFrom 0 (m_insts m)) with (slots m) in Hh.
  assert (length (slots m) <= length (kids m)) as Hle.
  { apply submseteq_length, NoDup_submseteq.
    - change (slots m) with (slotsFrom 0 (m_insts m)). apply slotsFrom_nodup. intros p Hp. destruct (H p Hp) as ((_ & _ & HI) & [He|[_ Hn0]] & _).
      + destruct (HI He) as [roots HI0]. by eapply sinv_nodup.
      + rewrite Hn0. constructor.
    - intros x Hx. destruct (decide (x ∈ kids m)) as [|Hnk]; [done|]. exfalso.
      assert (x ∈ leaves m) as Hl by (by apply elem_of_list_filter). rewrite El in Hl. by apply elem_of_nil in Hl. }
  apply elem_of_list_lookup in Hp0 as [i0 Hi0].
  destruct (root_alive n m HM HO ltac:(intros p Hp; apply (Hall p Hp)) i0 p0 Hi0 He0) as (q & Hq0 & Hqe & Hqp).
  pose proof (kidsOf_lt (m_insts m) q Hq0 Hqe Hqp) as Hlt. change (kidsOf (m_insts m)) with (kids m) in Hlt.
  pose proof (mi_sem _ _ HM) as Hs. change (held m) with (heldBy (m_insts m)) in Hs.
  (* there is a token, so no process waits for one: all have commands, which are more jom processes than there are *)
  exfalso.
  assert (0 < m_sem m)%Z as Hpos by lia.
  assert (forall b l, (forall p, p ∈ l -> alive p = true -> 0 < length (e_jobs (i_s p))) -> length (List.filter alive l) <= length (slotsFrom b l)) as Hcount.
  { intros b l. revert b. induction l as [|p l IH]; intros b Hl; [cbn; lia|]. rewrite slotsFrom_cons, app_length, map_length. cbn [List.filter].
    specialize (IH (S b) ltac:(intros q' Hq'; apply Hl; by right)). pose proof (Hl p ltac:(by left)) as Hx.
    destruct (alive p); cbn [length]; [specialize (Hx eq_refl)|]; lia. }
  specialize (Hcount 0 (m_insts m)). change (slotsFrom 0 (m_insts m)) with (slots m) in Hcount.
  assert (length (List.filter alive (m_insts m)) <= length (slots m)) as Hc2; [|lia].
  apply Hcount. intros p Hp. destruct (H p Hp) as (H1 & _ & H2). by apply (quiet_busy (m_sem m)).
Qed.

(** *** How long the processes can go on *)
Section Lists.
Context {A : Type} (r : A -> A -> Prop).
(** One of the entries becomes smaller. *)
Definition oneLess (l' l : list A) : Prop := exists i x y, l !! i = Some x /\ r y x /\ l' = <[i := y]> l.
Lemma oneLess_wf : well_founded r -> well_founded oneLess.
Proof.
  intros Hr l. induction l as [|a l IH].
  - constructor. intros l' (i & x & y & Hx & _). done.
  - revert l IH. induction (Hr a) as [a _ IHa]. intros l Hl. induction Hl as [l Hl IHl].
    constructor. intros l' (i & x & y & Hx & Hy & ->). destruct i as [|i]; cbn in *.
    + injection Hx as ->. apply IHa; [done|]. by constructor.
    + apply IHl. exists i, x, y. done.
Qed.
End Lists.

(** The rank of a process: the measure of Exec.v, or that it has ended. *)
Definition rankOf (p : inst) : option mu5 := match e_end (i_s p) with None => Some (mu (i_s p)) | Some _ => None end.
Definition rankLt (y x : option mu5) : Prop :=
  match x, y with Some m, Some m' => lt5 m' m | Some _, None => True | None, _ => False end.
Lemma rankLt_wf : well_founded rankLt.
Proof.
  assert (Acc rankLt None) as HN by (constructor; intros [m|] H; done).
  intros [m|]; [|done]. induction (lt5_wf m) as [m _ IH]. constructor. intros [m'|] H; [by apply IH|done].
Qed.

Lemma mown_rank n m i e m' : MInv n m -> mstep m (MOwn i e) = Some m' -> oneLess rankLt (map rankOf (m_insts m')) (map rankOf (m_insts m)).
Proof.
  intros HM H. unfold mstep in H. destruct (m_insts m !! i) as [p|] eqn:Ep; [|done]. destruct (step _ _ _ _ _ _ _) as [s'|] eqn:Es; [|done].
  destruct (takes e && _); [done|]. destruct (match endsCmd e with Some _ => _ | None => _ end); [done|]. injection H as <-. cbn [m_insts].
  pose proof (step_alive _ _ _ _ _ _ _ _ Es) as He. destruct (mi_ok _ _ HM i p Ep) as (Hj & _ & HI). destruct (HI He) as [roots HI0].
  exists i, (rankOf p), (rankOf (Inst (i_cfg p) (i_parent p) s')). split; [|split].
  - rewrite list_lookup_fmap, Ep. done.
  - unfold rankOf. cbn [i_s i_cfg]. rewrite He. cbn. destruct (e_end s') eqn:He'; [done|]. by eapply step_mu.
  - by rewrite list_fmap_insert.
Qed.
Lemma no_infinite_shared n m : MInv n m -> forall (f : nat -> mst), f 0 = m -> (forall k, exists i e, mstep (f k) (MOwn i e) = Some (f (S k))) -> False.
Proof.
  intros HM f H0 Hs.
  assert (forall k, MInv n (f k)) as Hinv.
  { induction k as [|k IH]; [by rewrite H0|]. destruct (Hs k) as (i & e & H). by eapply mstep_inv; [exact IH| |exact H]. }
  assert (forall l k, map rankOf (m_insts (f k)) = l -> False) as Hno; [|by eapply (Hno _ 0)].
  intros l. induction (oneLess_wf rankLt rankLt_wf l) as [l _ IH]. intros k <-.
  destruct (Hs k) as (i & e & H). eapply (IH (map rankOf (m_insts (f (S k))))); [|done]. by eapply mown_rank.
Qed.
