(** C08: the job limit across jom processes, and the bookkeeping of job tokens. *)
From Coq Require Import Ascii String.
From stdpp Require Import prelude gmap.
From Verif Require Import Base Data Infer UpToDate Graph Exec ExecSpec ExecProofs ExecFacts ExecEx TokenProofs Jobs JobsSpec JobsProofs.

(** A jom process never runs more commands than it holds tokens, plus one. *)
Theorem C08_covered_by_tokens xp prep kind w o mk names es s :
  startable o mk -> buildRun xp prep kind w o mk names es s -> e_end s = None ->
  (Z.of_nat (length (cmdsRunning (e_log s))) <= e_net s + 1)%Z.
Proof.
  intros Hst (s0 & Ha & Hr) He.
  destruct (apply_instOk (Cfg xp prep kind w o) None mk names s0 Hst Ha) as ((Hj & [Ht _ _] & HI) & He0 & _).
  destruct (apply_good kind w o mk names s0 Hj (proj2 Hst) Ha) as [HI0 _].
  destruct (run_tk xp prep kind w o (requested mk names) Hj es s0 s HI0 He0 (Ht He0) Hr) as [_ Hp _].
  destruct (build_good xp prep kind w o mk names es s Hst ltac:(by exists s0)) as [[_ [F|(pre & r & mk0 & evs & C & _)]]|[[x Hx] _]]; [| |congruence].
  - destruct F as (F1 & F2 & F). unfold tkEnd in Hp. rewrite F2 in Hp. by rewrite F1.
  - rewrite (Permutation_length (ci_run _ _ _ _ _ _ _ _ _ C)). unfold jt. by rewrite map_length.
Qed.
Print Assumptions C08_covered_by_tokens.

(** A jom process that ends with exit code 0 or 1 has returned all its tokens and left no command running. *)
Theorem C08_normal_end xp prep kind w o mk names es s code :
  startable o mk -> buildRun xp prep kind w o mk names es s -> e_end s = Some (EExit code) -> code <> 2%N ->
  e_net s = 0%Z /\ e_jobs s = [].
Proof.
  intros Hst (s0 & Ha & Hr) He Hc.
  destruct (apply_instOk (Cfg xp prep kind w o) None mk names s0 Hst Ha) as ((Hj & [Ht _ _] & HI) & He0 & _).
  destruct (apply_good kind w o mk names s0 Hj (proj2 Hst) Ha) as [HI0 _].
  destruct (run_tk xp prep kind w o (requested mk names) Hj es s0 s HI0 He0 (Ht He0) Hr) as [_ _ Hp].
  by destruct (Hp code He Hc).
Qed.
Print Assumptions C08_normal_end.

(** No token is lost or invented between the processes and the semaphore, and the semaphore is never
    negative. *)
Theorem C08_tokens_conserved n c mk names evs m :
  0 < n -> sharedRun n c mk names evs m -> (m_sem m + held m = Z.of_nat n - 1)%Z /\ (0 <= m_sem m)%Z.
Proof. intros Hn H. destruct (shared_inv n c mk names evs m Hn H) as [_ M2 M3 _ _ _]. done. Qed.
Print Assumptions C08_tokens_conserved.

(** All processes together never run more than n commands that are not jom processes themselves. Missing:
    this needs that the processes that have ended did so cleanly, which C08_normal_end shows for exit
    codes 0 and 1 and C08_refuted shows to be wrong for exit code 2. *)
Theorem C08_limit_partial n c mk names evs m :
  0 < n -> sharedRun n c mk names evs m -> (forall p, p ∈ m_insts m -> cleanEnd p) -> length (leaves m) <= n.
Proof. intros Hn H. apply leaves_bound. by eapply shared_inv. Qed.
Print Assumptions C08_limit_partial.

(** After all processes have ended cleanly the semaphore is as at the beginning. *)
Theorem C08_restored_partial n c mk names evs m :
  0 < n -> sharedRun n c mk names evs m -> (forall p, p ∈ m_insts m -> e_net (i_s p) = 0%Z) -> m_sem m = (Z.of_nat n - 1)%Z.
Proof.
  intros Hn H Hc. destruct (C08_tokens_conserved n c mk names evs m Hn H) as [E _].
  assert (held m = 0%Z) as Hh; [|lia]. unfold held. clear E H.
  induction (m_insts m) as [|p l IH]; [done|]. cbn. rewrite IH by (intros q Hq; apply Hc; by right). by rewrite Hc by by left.
Qed.
Print Assumptions C08_restored_partial.

(** *** Examples *)
Definition wide : mkfile := exMk
  [exBlock "all" ["x"; "y"; "z"]%string [exCmd "link" 0];
   exBlock "x" []%string [exCmd "jom1" 0];
   exBlock "y" []%string [exCmd "y1" 0];
   exBlock "z" []%string [exCmd "jom2" 0]].
Definition cfgK (keep : bool) (n : nat) : cfg := Cfg exXp exPrep exKind exW (exOpts keep n).
Definition mfinal (n : nat) (c : cfg) (mk : mkfile) (evs : list mevent) : mst :=
  default (Mst 0 []) (match mstart n c mk [] with Some m0 => mrun m0 evs | None => None end).
Lemma mfinal_run n c mk evs : startable (k_o c) mk -> (forall ev, ev ∈ evs -> spawnOk ev) ->
  isSome (match mstart n c mk [] with Some m0 => mrun m0 evs | None => None end) = true -> sharedRun n c mk [] evs (mfinal n c mk evs).
Proof.
  intros Hst Hsp H. split; [done|]. split; [done|]. unfold mfinal. destruct (mstart n c mk []) as [m0|]; [|done].
  exists m0. split; [done|]. by destruct (mrun m0 evs).
Qed.
Lemma wide_startable keep n : 0 < n -> startable (exOpts keep n) wide.
Proof. intros H. split; [exact H|]. intros t [= <-]. vm_compute. eauto. Qed.

(** Two jobs: the first process runs x, which is a jom process running two commands. *)
Definition nestedEvents : list mevent :=
  [MOwn 0 (EvStart go); MSpawn 0 0 (cfgK false 2) fork []; MOwn 1 (EvStart go); MOwn 1 (EvStart go); MOwn 1 EvTake; MOwn 1 (EvAcquired go)].
Example C08_case :
  let m := mfinal 2 (cfgK false 2) wide nestedEvents in
  sharedRun 2 (cfgK false 2) wide [] nestedEvents m /\ (forall p, p ∈ m_insts m -> cleanEnd p)
  /\ leaves m = [(1, 0); (1, 1)] /\ m_sem m = 0%Z.
Proof.
  cbv zeta. split; [|split; [|vm_compute; done]].
  - apply mfinal_run; [apply wide_startable; cbn; lia| |vm_compute; done].
    intros ev Hev. repeat (apply elem_of_cons in Hev as [->|Hev]; [first [exact I|apply fork_startable; cbn; lia]|]). by apply elem_of_nil in Hev.
  - assert (Forall (fun p => e_end (i_s p) = None) (m_insts (mfinal 2 (cfgK false 2) wide nestedEvents))) as H
      by (vm_compute; repeat constructor).
    intros p Hp. left. rewrite Forall_forall in H. by apply H.
Qed.

(** The limit is exceeded after a jom process has failed while it was waiting for a token: it then releases
    one token more than it took. Here three commands run at a time although the limit is two. *)
Definition inflateEvents : list mevent :=
  [MOwn 0 (EvStart go); MSpawn 0 0 (cfgK false 2) fork [];
   MOwn 1 (EvStart go); MOwn 1 (EvStart go); MOwn 1 (EvExit 0 1 go); MOwn 1 EvTake; MOwn 1 (EvAcquired go);
   MOwn 0 (EvExit 0 2 go); MOwn 0 (EvStart go); MOwn 0 (EvStart go); MOwn 0 (EvStart go); MOwn 0 EvTake; MOwn 0 (EvAcquired go);
   MSpawn 0 0 (cfgK false 2) fork []; MOwn 2 (EvStart go); MOwn 2 (EvStart go); MOwn 2 EvTake; MOwn 2 (EvAcquired go)].
Theorem C08_refuted : exists c mk evs m, sharedRun 2 c mk [] evs m
  /\ (forall p, p ∈ m_insts m -> match e_end (i_s p) with None => True | Some e => e = EExit 2 /\ e_jobs (i_s p) = [] end)
  /\ length (leaves m) = 3.
Proof.
  exists (cfgK true 2), wide, inflateEvents, (mfinal 2 (cfgK true 2) wide inflateEvents).
  split; [|split; [|vm_compute; done]].
  - apply mfinal_run; [apply wide_startable; cbn; lia| |vm_compute; done].
    intros ev Hev. repeat (apply elem_of_cons in Hev as [->|Hev]; [first [exact I|apply fork_startable; cbn; lia]|]). by apply elem_of_nil in Hev.
  - assert (Forall (fun p => match e_end (i_s p) with None => True | Some e => e = EExit 2 /\ e_jobs (i_s p) = [] end)
      (m_insts (mfinal 2 (cfgK true 2) wide inflateEvents))) as H by (vm_compute; repeat constructor).
    intros p Hp. rewrite Forall_forall in H. by apply H.
Qed.
Print Assumptions C08_refuted.

(** A token is lost after a jom process has failed and ended while two of its commands were still running (C04_refuted): nobody
    releases what it had taken for one of them. Here the process that is left runs nothing and holds nothing, and there
    is one token instead of two, for all that follows. *)
(** all: x y z, where x and y have two commands *)
Definition trident : mkfile := exMk
  [exBlock "all" ["x"; "y"; "z"]%string [exCmd "link" 0];
   exBlock "x" []%string [exCmd "x1" 0; exCmd "x2" 0];
   exBlock "y" []%string [exCmd "y1" 0; exCmd "y2" 0];
   exBlock "z" []%string [exCmd "z1" 0]].
Lemma trident_startable keep n : 0 < n -> startable (exOpts keep n) trident.
Proof. intros H. split; [exact H|]. intros t [= <-]. vm_compute. eauto. Qed.
Definition lostEvents : list mevent :=
  [MOwn 0 (EvStart go); MSpawn 0 0 (cfgK false 3) trident [];
   MOwn 1 (EvStart go); MOwn 1 (EvStart go); MOwn 1 EvTake; MOwn 1 (EvAcquired go); MOwn 1 (EvStart go); MOwn 1 EvTake; MOwn 1 (EvAcquired go);
   MOwn 1 (EvExit 2 1 go); MOwn 1 (EvExit 0 0 go); MOwn 1 (EvExit 1 0 go); MOwn 0 (EvExit 0 2 go)].
Definition lostState := mfinal 3 (cfgK true 3) wide lostEvents.
Theorem C08_lost_refuted : exists c mk evs m, sharedRun 3 c mk [] evs m
  /\ (forall p, p ∈ m_insts m -> match e_end (i_s p) with None => e_net (i_s p) = 0%Z /\ e_jobs (i_s p) = [] | Some e => e = EExit 2 end)
  /\ (exists p, p ∈ m_insts m /\ e_end (i_s p) = None) /\ m_sem m = 1%Z.
Proof.
  exists (cfgK true 3), wide, lostEvents, lostState.
  split; [|split; [|split; [|vm_compute; done]]].
  - apply mfinal_run; [apply wide_startable; cbn; lia| |vm_compute; done].
    intros ev Hev. repeat (apply elem_of_cons in Hev as [->|Hev]; [first [exact I|apply trident_startable; cbn; lia]|]). by apply elem_of_nil in Hev.
  - assert (Forall (fun p => match e_end (i_s p) with None => e_net (i_s p) = 0%Z /\ e_jobs (i_s p) = [] | Some e => e = EExit 2 end)
      (m_insts lostState)) as H by (vm_compute; repeat constructor).
    intros p Hp. rewrite Forall_forall in H. by apply H.
  - assert (Exists (fun p => e_end (i_s p) = None) (m_insts lostState)) as H by (vm_compute; by left).
    apply Exists_exists in H as (p & Hp & He). eauto.
Qed.
Print Assumptions C08_lost_refuted.
