(** C62: jom processes sharing a job server and waiting for each other. *)
From Coq Require Import Ascii String.
From stdpp Require Import prelude gmap.
From Verif Require Import Base Data Infer UpToDate Graph Exec ExecSpec ExecProofs ExecFacts ExecEx TokenProofs Jobs JobsSpec JobsProofs JobsProps SharedLiveSpec SharedLiveProofs.

(** As long as one of the processes has not ended, one of them can go on or a command that is not a jom process runs, provided that
    fewer processes than the job server allows jobs have given up after a failure and still wait for their commands. Missing: that, and that
    processes that have ended did so cleanly. C62_refuted and C62_same_jobs_refuted show that the bound cannot be improved. *)
Theorem C62_goes_on_partial n c mk names evs m :
  sharedRun n c mk names evs m ->
  (forall p, p ∈ m_insts m -> builtinsEnd (i_cfg p) /\ allWatched p /\ cleanEnd p) ->
  length (List.filter givenUp (m_insts m)) < n ->
  (exists p, p ∈ m_insts m /\ e_end (i_s p) = None) -> goesOn m.
Proof.
  intros H Hall Hn Hex. apply (never_stuck n m); [| |done|done|done].
  - eapply shared_inv; [|done]. lia.
  - by eapply shared_ordered.
Qed.
Print Assumptions C62_goes_on_partial.

(** The processes do not go on for ever without starting more jom processes. *)
Theorem C62_ends n c mk names evs m :
  0 < n -> sharedRun n c mk names evs m ->
  forall (f : nat -> mst), f 0 = m -> not (forall k, exists i e, mstep (f k) (MOwn i e) = Some (f (S k))).
Proof. intros Hn H f H0 Hs. eapply (no_infinite_shared n m); [by eapply shared_inv|done|done]. Qed.
Print Assumptions C62_ends.

(** With /K for all processes nothing more is needed than that those that have ended did so with exit code 0 or 1. *)
Theorem C62_keep_going_partial n c mk names evs m :
  0 < n -> sharedRun n c mk names evs m ->
  (forall p, p ∈ m_insts m -> builtinsEnd (i_cfg p) /\ allWatched p /\ o_keep (k_o (i_cfg p)) = true
     /\ match e_end (i_s p) with None => True | Some e => e = EExit 0 \/ e = EExit 1 end) ->
  (exists p, p ∈ m_insts m /\ e_end (i_s p) = None) -> goesOn m.
Proof.
  intros Hn H Hall Hex. pose proof (shared_inv n c mk names evs m Hn H) as HM.
  apply (C62_goes_on_partial n c mk names evs m); [done| | |done].
  - intros p Hp. destruct (Hall p Hp) as (H1 & H2 & H3 & H4). apply elem_of_list_lookup in Hp as [i Hi].
    destruct (mi_ok _ _ HM i p Hi) as (_ & Ht & HI). split; [done|]. split; [done|].
    destruct (e_end (i_s p)) as [e|] eqn:He; [right|by left].
    destruct H4 as [E|E]; subst e; destruct (tp_done _ Ht _ He) as [E1 E2]; done.
  - assert (forall p, p ∈ m_insts m -> givenUp p = false) as Hg.
    { intros p Hp. destruct (Hall p Hp) as (_ & _ & H3 & _). apply elem_of_list_lookup in Hp as [i Hi].
      destruct (mi_ok _ _ HM i p Hi) as (_ & _ & HI). unfold givenUp, alive. destruct (e_end (i_s p)) eqn:He; [done|].
      destruct (HI eq_refl) as [roots [F|(pre & r & mk0 & evs' & C & HA)]]; [by apply F|].
      destruct (e_aborted (i_s p)) eqn:Ea; [|done]. destruct HA as [A _]. pose proof (ab_keep _ _ A). congruence. }
    clear Hall Hex H HM. induction (m_insts m) as [|p l IH]; [done|]. cbn. rewrite (Hg p) by by left. apply IH. intros q Hq. apply Hg. by right.
Qed.
Print Assumptions C62_keep_going_partial.

Lemma exKind_ends keep n : builtinsEnd (cfgK keep n).
Proof. intros x l H. cbn in H. unfold exKind in H. destruct (qeqb _ _); [|done]. by injection H as <-. Qed.
(** jom /J1 (process 0) runs jom (process 1), which keeps as many executors as there are processors (C36) and runs jom (process 2).
    Process 2 ends a command while it waits for a token, its own is put into the semaphore. Process 1 takes it for
    the command y, asks for one more for z, and y fails: the token of y goes back, process 1 gives up and waits for process 2. Its
    request for z is still there and takes the token, which is kept until process 2 ends. Process 2 waits for a token. *)
Definition stuckEvents : list mevent :=
  [MOwn 0 (EvStart go); MOwn 0 (EvStart go); MSpawn 0 0 (cfgK false 3) wide [];
   MOwn 1 (EvStart go); MOwn 1 (EvStart go); MSpawn 1 0 (cfgK false 3) fork [];
   MOwn 2 (EvStart go); MOwn 2 (EvStart go); MOwn 2 (EvExit 0 0 go); MOwn 2 (EvExit 0 0 go); MOwn 2 (EvStart go);
   MOwn 1 EvTake; MOwn 1 (EvAcquired go); MOwn 1 (EvStart go); MOwn 1 (EvExit 1 1 go); MOwn 1 EvTake; MOwn 1 (EvAcquired go);
   MOwn 0 (EvStart go); MOwn 1 (EvStart go); MOwn 2 (EvStart go)].
Definition stuckState : mst := mfinal 1 (cfgK false 1) wide stuckEvents.

(** With two jobs instead of one, the same events leave a token. *)
Example C62_case :
  let m := mfinal 2 (cfgK false 1) wide stuckEvents in
  sharedRun 2 (cfgK false 1) wide [] stuckEvents m
  /\ (forall p, p ∈ m_insts m -> builtinsEnd (i_cfg p) /\ allWatched p /\ cleanEnd p)
  /\ length (List.filter givenUp (m_insts m)) < 2 /\ map (fun p => length (e_jobs (i_s p))) (m_insts m) = [1; 1; 0] /\ m_sem m = 1%Z.
Proof.
  cbv zeta. split; [|split; [|vm_compute; done]].
  - apply mfinal_run; [apply wide_startable; cbn; lia| |vm_compute; done].
    intros ev Hev. repeat (apply elem_of_cons in Hev as [->|Hev]; [first [exact I|apply fork_startable; cbn; lia|apply wide_startable; cbn; lia]|]). by apply elem_of_nil in Hev.
  - assert (Forall (fun p => k_kind (i_cfg p) = exKind /\ e_end (i_s p) = None
      /\ Forall (fun j => j_state j = JWatched) (e_jobs (i_s p))) (m_insts (mfinal 2 (cfgK false 1) wide stuckEvents))) as H
      by (vm_compute; repeat constructor).
    intros p Hp. rewrite Forall_forall in H. destruct (H p Hp) as (E1 & E2 & E4). rewrite Forall_forall in E4. split; [|split].
    + unfold builtinsEnd. rewrite E1. exact (exKind_ends true 2).
    + intros j Hj. exact (E4 j Hj).
    + by left.
Qed.
(** An inner jom process, both with /K: the inner one has failed in one of its commands and goes on. *)
Definition keepEvents : list mevent :=
  [MOwn 0 (EvStart go); MSpawn 0 0 (cfgK true 2) fork []; MOwn 1 (EvStart go); MOwn 1 (EvStart go); MOwn 1 EvTake; MOwn 1 (EvAcquired go);
   MOwn 1 (EvExit 1 1 go)].
Example C62_keep_case :
  let m := mfinal 2 (cfgK true 2) wide keepEvents in
  sharedRun 2 (cfgK true 2) wide [] keepEvents m
  /\ (forall p, p ∈ m_insts m -> builtinsEnd (i_cfg p) /\ allWatched p /\ o_keep (k_o (i_cfg p)) = true /\ e_end (i_s p) = None)
  /\ map (fun p => length (e_jobs (i_s p))) (m_insts m) = [1; 1] /\ m_sem m = 1%Z.
Proof.
  cbv zeta. split; [|split; [|vm_compute; done]].
  - apply mfinal_run; [apply wide_startable; cbn; lia| |vm_compute; done].
    intros ev Hev. repeat (apply elem_of_cons in Hev as [->|Hev]; [first [exact I|apply fork_startable; cbn; lia]|]). by apply elem_of_nil in Hev.
  - assert (Forall (fun p => k_kind (i_cfg p) = exKind /\ o_keep (k_o (i_cfg p)) = true /\ e_end (i_s p) = None
      /\ Forall (fun j => j_state j = JWatched) (e_jobs (i_s p))) (m_insts (mfinal 2 (cfgK true 2) wide keepEvents))) as H
      by (vm_compute; repeat constructor).
    intros p Hp. rewrite Forall_forall in H. destruct (H p Hp) as (E1 & E2 & E3 & E4). rewrite Forall_forall in E4. split; [|split; [exact E4|done]].
    unfold builtinsEnd. rewrite E1. exact (exKind_ends true 2).
Qed.

(** Nothing can happen when no process has anything to do of its own and all commands are jom processes. *)
Lemma stuck_none m : (m_sem m <= 0)%Z -> Forall (fun p => e_queue (i_s p) = 0 /\ e_acquiring (i_s p) <> ATaken) (m_insts m) -> leaves m = [] ->
  forall ev, mstep m ev = None.
Proof.
  intros Hsem Hq Hl. rewrite Forall_forall in Hq.
  assert (forall i p k j, m_insts m !! i = Some p -> jobOf k (i_s p) = Some j -> (i, k) ∈ kids m) as Hk.
  { intros i p k j Hp Hj. apply jobOf_spec in Hj as [Hj Hjk]. destruct (decide ((i, k) ∈ kids m)) as [|Hn]; [done|]. exfalso.
    assert ((i, k) ∈ leaves m) as Hin; [|rewrite Hl in Hin; by apply elem_of_nil in Hin]. apply elem_of_list_filter. split; [done|].
    change (slots m) with (slotsFrom 0 (m_insts m)). apply slotsFrom_in. exists p, j. rewrite Nat.sub_0_r. split; [lia|]. done. }
  intros [i e|i k c mk names]; unfold mstep; destruct (m_insts m !! i) as [p|] eqn:Ep; try done.
  - destruct (step _ _ _ _ _ _ e) as [s'|] eqn:Es; [|done].
    destruct (Hq p ltac:(by eapply elem_of_list_lookup_2)) as [Q1 Q2].
    unfold step in Es. destruct (e_end (i_s p)); [done|]. destruct e as [ch| |ch|k code ch|k]; cbn [takes endsCmd andb].
    + by rewrite Q1 in Es.
    + by destruct (Z.leb_spec (m_sem m) 0) as [_|?]; [|lia].
    + by destruct (e_acquiring (i_s p)).
    + destruct (jobOf k (i_s p)) as [j|] eqn:Ej; [|done]. rewrite bool_decide_eq_true_2; [done|]. by eapply Hk.
    + destruct (jobOf k (i_s p)) as [j|] eqn:Ej; [|done]. rewrite bool_decide_eq_true_2; [done|]. by eapply Hk.
  - destruct (jobOf k (i_s p)) as [j|] eqn:Ej; [|done]. rewrite decide_True; [done|]. by eapply Hk.
Qed.

(** Three jom processes wait for each other for ever; nothing can happen any more. *)
Theorem C62_refuted : exists c mk evs m, sharedRun 1 c mk [] evs m
  /\ (forall p, p ∈ m_insts m -> builtinsEnd (i_cfg p) /\ allWatched p /\ e_end (i_s p) = None)
  /\ length (m_insts m) = 3 /\ length (List.filter givenUp (m_insts m)) = 1 /\ (forall ev, mstep m ev = None).
Proof.
  exists (cfgK false 1), wide, stuckEvents, stuckState. split; [|split; [|split; [vm_compute; done|split; [vm_compute; done|]]]].
  - apply mfinal_run; [apply wide_startable; cbn; lia| |vm_compute; done].
    intros ev Hev. repeat (apply elem_of_cons in Hev as [->|Hev]; [first [exact I|apply fork_startable; cbn; lia|apply wide_startable; cbn; lia]|]). by apply elem_of_nil in Hev.
  - assert (Forall (fun p => k_kind (i_cfg p) = exKind /\ e_end (i_s p) = None /\ Forall (fun j => j_state j = JWatched) (e_jobs (i_s p)))
      (m_insts stuckState)) as H by (vm_compute; repeat constructor).
    intros p Hp. rewrite Forall_forall in H. destruct (H p Hp) as (E1 & E2 & E3). rewrite Forall_forall in E3. split; [|split].
    + unfold builtinsEnd. rewrite E1. exact (exKind_ends true 2).
    + intros j Hj. exact (E3 j Hj).
    + done.
  - apply stuck_none.
    + vm_compute. done.
    + vm_compute. repeat constructor; done.
    + vm_compute. done.
Qed.
Print Assumptions C62_refuted.

(** It also happens when all processes have as many executors as the job server allows jobs: here three, in four processes, the
    first three of which run the next one. The first three give up one after the other, each keeps one token. *)
Definition givesUp (i : nat) : list mevent :=
  [MOwn i EvTake; MOwn i (EvAcquired go); MOwn i (EvStart go); MOwn i (EvExit 1 1 go); MOwn i EvTake; MOwn i (EvAcquired go); MOwn i (EvStart go)].
Definition nestedIn (i : nat) (mk : mkfile) : list mevent := [MOwn i (EvStart go); MOwn i (EvStart go); MSpawn i 0 (cfgK false 3) mk []].
Definition stuckEvents3 : list mevent :=
  nestedIn 0 wide ++ nestedIn 1 wide ++ nestedIn 2 fork ++ [MOwn 3 (EvStart go); MOwn 3 (EvStart go)] ++ givesUp 0 ++ givesUp 1
  ++ [MOwn 3 (EvExit 0 0 go); MOwn 3 (EvExit 0 0 go); MOwn 3 (EvStart go)] ++ givesUp 2 ++ [MOwn 3 (EvStart go)].
Definition stuckState3 : mst := mfinal 3 (cfgK false 3) wide stuckEvents3.
Theorem C62_same_jobs_refuted : exists c mk evs m, sharedRun 3 c mk [] evs m
  /\ (forall p, p ∈ m_insts m -> builtinsEnd (i_cfg p) /\ allWatched p /\ e_end (i_s p) = None /\ o_jobs (k_o (i_cfg p)) = 3)
  /\ length (m_insts m) = 4 /\ length (List.filter givenUp (m_insts m)) = 3 /\ (forall ev, mstep m ev = None).
Proof.
  exists (cfgK false 3), wide, stuckEvents3, stuckState3. split; [|split; [|split; [vm_compute; done|split; [vm_compute; done|]]]].
  - apply mfinal_run; [apply wide_startable; cbn; lia| |vm_compute; done].
    intros ev Hev. unfold stuckEvents3, nestedIn, givesUp in Hev. cbn [app] in Hev.
    repeat (apply elem_of_cons in Hev as [->|Hev]; [first [exact I|apply fork_startable; cbn; lia|apply wide_startable; cbn; lia]|]). by apply elem_of_nil in Hev.
  - assert (Forall (fun p => k_kind (i_cfg p) = exKind /\ e_end (i_s p) = None /\ o_jobs (k_o (i_cfg p)) = 3 /\ Forall (fun j => j_state j = JWatched) (e_jobs (i_s p)))
      (m_insts stuckState3)) as H by (vm_compute; repeat constructor).
    intros p Hp. rewrite Forall_forall in H. destruct (H p Hp) as (E1 & E2 & E3 & E4). rewrite Forall_forall in E4. split; [|split].
    + unfold builtinsEnd. rewrite E1. exact (exKind_ends true 2).
    + intros j Hj. exact (E4 j Hj).
    + done.
  - apply stuck_none.
    + vm_compute. done.
    + vm_compute. repeat constructor; done.
    + vm_compute. done.
Qed.
Print Assumptions C62_same_jobs_refuted.
