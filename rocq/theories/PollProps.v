(** C61: the end of a process is reported once, with its own exit code; what is left of the questions for it. *)
From stdpp Require Import prelude.
From RecordUpdate Require Import RecordSet.
Import RecordSetNotations.
From Verif Require Import ProcEnd Poll PollSpec PollProofs.
Local Open Scope Z_scope.

(** Whatever calls are left over from whichever process: what is reported is the process that runs, after its end and with the code it
    ended with; and a process is started only when all before it were reported. *)
Theorem C61_reports t s : prun t s ->
  (forall a k c b, t = a ++ EFinished k c :: b -> runs a k /\ EExit k c ∈ a /\ c <> 259) /\
  (forall a k b, t = a ++ EStart k :: b -> quiet a /\ EStart k ∉ a).
Proof.
  intros H. split.
  - intros a k c b E. destruct (prun_split _ _ H _ _ _ E) as (t0 & s0 & l1 & l2 & s1 & H0 & Hs & ->). pose proof (pinv_run _ _ H0) as HI.
    inversion Hs as [s' Hr Es E1|s' Hr Es E1|s' k' c' Hk He Es E1|s' Es E1|s' n Hn Es E1]; subst s'; try (destruct l1 as [|x [|y l1]]; cbn in E1; by simplify_eq).
    destruct (call_cases _ _ _ HI Hn) as [[E2 _]|(k' & c' & Hp & He & Hc & E2)]; rewrite E2 in E1; cbn [snd] in E1.
    + destruct l1 as [|x [|y l1]]; cbn in E1; by simplify_eq.
    + destruct l1 as [|x [|y [|z l1]]]; cbn in E1; simplify_eq. destruct (v_run _ _ HI _ Hp) as [_ Hru]. split_and!.
      * apply runs_app; [done|]. by repeat constructor.
      * apply in_snoc. by apply HI, exitOf_in.
      * done.
  - intros a k b E. destruct (prun_split _ _ H _ _ _ E) as (t0 & s0 & l1 & l2 & s1 & H0 & Hs & ->). pose proof (pinv_run _ _ H0) as HI.
    inversion Hs as [s' Hr Es E1|s' Hr Es E1|s' k' c' Hk He Es E1|s' Es E1|s' n Hn Es E1]; subst s'; try (destruct l1 as [|x [|y l1]]; cbn in E1; by simplify_eq).
    + destruct l1 as [|x [|y l1]]; cbn in E1; simplify_eq. rewrite app_nil_r. split.
      * intros k' Hk'. destruct (v_done _ _ HI _ Hk') as [E2|E2]; [|done]. apply (v_run _ _ HI) in E2 as [E2 _]. congruence.
      * intros Hk'. apply (v_next _ _ HI) in Hk'. lia.
    + destruct (call_cases _ _ _ HI Hn) as [[E2 _]|(k' & c' & Hp & He & Hc & E2)]; rewrite E2 in E1; cbn [snd] in E1; destruct l1 as [|x [|y [|z l1]]]; cbn in E1; by simplify_eq.
Qed.
(** Any call after the end of the process reports it, unless its code is the one that means that it has not ended. *)
Theorem C61_noticed_partial t s l s' k c : prun t s -> runs t k -> EExit k c ∈ t -> c <> 259 -> pstep s (ECall :: l) s' -> l = [EFinished k c].
Proof.
  intros H Hk He Hc Hs. pose proof (pinv_run _ _ H) as HI. inversion Hs as [| | | |s1 n Hn Es E1]. subst s1.
  assert (Hp := v_last _ _ HI _ Hk). assert (Hx := v_code_of _ _ HI _ _ He).
  destruct (call_cases _ _ _ HI Hn) as [[E2 N]|(k' & c' & Hp' & He' & Hc' & E2)]; rewrite E2.
  - by specialize (N _ _ Hp Hx).
  - cbn. by simplify_eq.
Qed.
(** Each call asks for another one until it reports an end: what is left is the number of times a call was asked for, minus the reports. *)
Theorem C61_calls t s : prun t s -> (q_calls s + count isFinished t = count isPoke t)%nat.
Proof. apply calls_run. Qed.

(** Two processes: both channels of the first ask for a call, the first call reports it; the second call is made again and again, and reports
    the end of the second process. *)
Definition ex_poll : list pevent :=
  [EStart 0; EPoke; ECall; EExit 0 1; EPoke; ECall; EFinished 0 1; ECall; EStart 1; ECall; EExit 1 0; ECall; EFinished 1 0].
Tactic Notation "pgo" hyp(H) uconstr(k) := let H' := fresh in unshelve epose proof (pr_step _ _ _ _ H k) as H';
  [first [reflexivity|(cbn; lia)]..|clear H; rename H' into H; vm_compute in H].
Lemma ex_poll_run : prun ex_poll (Pst false None STILL_ACTIVE 0 [(1%nat, 0); (0%nat, 1)] 2).
Proof.
  pose proof pr_nil as H.
  pgo H (p_start _ _). pgo H (p_poke _). pgo H (p_call _ 0 _). pgo H (p_exit _ 0 1 _ _). pgo H (p_poke _). pgo H (p_call _ 1 _). pgo H (p_call _ 0 _).
  pgo H (p_start _ _). pgo H (p_call _ 0 _). pgo H (p_exit _ 1 0 _ _). pgo H (p_call _ 0 _). exact H.
Qed.
Example C61_reports_ex : exists t s a b, prun t s /\ t = a ++ EFinished 1 0 :: b /\ EFinished 0 1 ∈ a.
Proof. exists ex_poll, (Pst false None STILL_ACTIVE 0 [(1%nat, 0); (0%nat, 1)] 2), (take 12 ex_poll), []. split; [exact ex_poll_run|]. split; [done|]. cbn. repeat (first [by left|right]). Qed.

(** After any number of processes, each with its end reported, there may be as many timers that ask for an exit code every quarter of a second,
    with no process there: both channels ask for a call at the end of a process, and only one of the two calls ends. *)
Fixpoint ex_left (n : nat) : list pevent :=
  match n with O => [] | S m => ex_left m ++ [EStart m; EExit m 0; EPoke; EPoke; ECall; EFinished m 0] end.
Theorem C61_left_refuted : forall n, exists t s, prun t s /\ quiet t /\ count isStart t = n /\ q_calls s = n /\ q_proc s = None /\
  forall s' l, pstep s (ECall :: l) s' -> l = [] /\ q_calls s' = n.
Proof.
  intros n. exists (ex_left n).
  assert (G : exists e, prun (ex_left n) (Pst false None STILL_ACTIVE n e n) /\ forall k, (n <= k)%nat -> exitOf k e = None).
  { induction n as [|m (e & IH & He)]; [exists []; split; [apply pr_nil|done]|]. exists ((m, 0) :: e). split.
    - assert (X : exitOf m e = None) by (apply He; lia).
      assert (H1 := pr_step _ _ _ _ IH (p_start (Pst false None STILL_ACTIVE m e m) eq_refl)).
      assert (H2 := pr_step _ _ _ _ H1 (p_exit (Pst true (Some m) STILL_ACTIVE m e (S m)) m 0 (Nat.lt_succ_diag_r m) X)).
      assert (H3 := pr_step _ _ _ _ H2 (p_poke (Pst true (Some m) STILL_ACTIVE m ((m, 0) :: e) (S m)))).
      assert (H4 := pr_step _ _ _ _ H3 (p_poke (Pst true (Some m) STILL_ACTIVE (S m) ((m, 0) :: e) (S m)))).
      assert (E : call (Pst true (Some m) STILL_ACTIVE (S (S m)) ((m, 0) :: e) (S m) <| q_calls := S m |>) = (Pst false None STILL_ACTIVE (S m) ((m, 0) :: e) (S m), [EFinished m 0])).
      { unfold call, ask. cbn [q_code q_proc q_exit q_calls set]. rewrite exitOf_cons, Nat.eqb_refl. reflexivity. }
      assert (K : pstep (Pst true (Some m) STILL_ACTIVE (S (S m)) ((m, 0) :: e) (S m)) (ECall :: snd (Pst false None STILL_ACTIVE (S m) ((m, 0) :: e) (S m), [EFinished m 0]))
        (fst (Pst false None STILL_ACTIVE (S m) ((m, 0) :: e) (S m), [EFinished m 0]))).
      { rewrite <- E. exact (p_call (Pst true (Some m) STILL_ACTIVE (S (S m)) ((m, 0) :: e) (S m)) (S m) eq_refl). }
      cbn [fst snd] in K. assert (H5 := pr_step _ _ _ _ H4 K). cbn [q_next] in H5. cbn [ex_left]. rewrite <- !app_assoc in H5. exact H5.
    - intros k Hk. rewrite exitOf_cons. destruct (Nat.eqb_spec m k); [lia|]. apply He. lia. }
  destruct G as (e & H & He). exists (Pst false None STILL_ACTIVE n e n). split_and!; [done| | |done|done|].
  - intros k Hk. pose proof (pinv_run _ _ H) as HI. by destruct (v_done _ _ HI _ Hk).
  - clear. induction n as [|m IH]; [done|]. cbn [ex_left]. unfold count in *. rewrite List.filter_app, app_length, IH. cbn. lia.
  - intros s' l Hs. inversion Hs as [| | | |s1 m Hm Es E1]. subst s1.
    destruct (call_cases _ _ _ (pinv_run _ _ H) Hm) as [[E2 _]|(k & c & Hp & _)]; [|done]. rewrite E2. done.
Qed.
Example C61_noticed_ex : exists t s l s' k c, prun t s /\ runs t k /\ EExit k c ∈ t /\ c <> 259 /\ pstep s (ECall :: l) s'.
Proof.
  pose proof pr_nil as H. pgo H (p_start _ _). pgo H (p_exit _ 0 5 _ _). pgo H (p_poke _). do 6 eexists. split; [exact H|]. split; [by exists [], [EExit 0 5; EPoke]; split; [|repeat constructor]|].
  split; [right; left|]. split; [done|]. by apply (p_call _ 0).
Qed.
(** A process that ends with 259 is never reported, whatever happens. *)
Theorem C61_259_refuted : exists t k, (exists s, prun t s) /\ EExit k 259 ∈ t /\ forall b s, prun (t ++ b) s -> forall c, EFinished k c ∉ t ++ b.
Proof.
  exists [EStart 0; EExit 0 259], 0%nat. split_and!.
  - pose proof pr_nil as H. pgo H (p_start _ _). pgo H (p_exit _ 0 259 _ _). eexists. exact H.
  - right. left.
  - intros b s H c Hin. pose proof (pinv_run _ _ H) as HI. apply elem_of_list_split in Hin as (a & b' & E). destruct (C61_reports _ _ H) as [R _]. destruct (R _ _ _ _ E) as (_ & He & Hc).
    assert (H1 := v_code_of _ _ HI 0%nat 259 ltac:(apply elem_of_app; left; right; left)).
    assert (H2 := v_code_of _ _ HI 0%nat c ltac:(rewrite E; apply elem_of_app; by left)). congruence.
Qed.

Print Assumptions C61_reports.
Print Assumptions C61_noticed_partial.
Print Assumptions C61_calls.
Print Assumptions C61_left_refuted.
Print Assumptions C61_259_refuted.
