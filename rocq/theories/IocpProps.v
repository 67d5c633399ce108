(** C60: a channel is given the results of its own reads only, one read at a time; what fails when results are left over. *)
From stdpp Require Import prelude gmap.
From RecordUpdate Require Import RecordSet.
Import RecordSetNotations.
From Verif Require Import Base Iocp IocpSpec IocpProofs.

(** In every execution: a channel is told of results only while it is registered, ... *)
Theorem C60_registered s a c r cur d b : run start (a ++ LNotify c r cur d :: b) s -> registered a c.
Proof.
  intros H. destruct (run_split _ _ H _ _ _ eq_refl) as (t0 & s0 & l1 & l2 & s1 & H0 & Hs & ->).
  inversion Hs as [| | | | | | | | | |? p q Hst Hq Ho Hk El|? p q Hst Hq Ho El| |]; clear Hs;
    match goal with E : _ = l1 ++ _ |- _ => destruct l1 as [|x1 [|x2 [|x3 l1]]]; cbn [app] in E; simplify_eq end;
    rewrite app_nil_r; by apply (run_registered _ _ H0).
Qed.
(** ... never after it was destroyed, ... *)
Theorem C60_destroyed s a c b : run start (a ++ LDestroy c :: b) s -> forall r cur d, LNotify c r cur d ∉ b.
Proof.
  intros H r cur d Hin. apply elem_of_list_split in Hin as (b1 & b2 & ->).
  replace (a ++ LDestroy c :: b1 ++ LNotify c r cur d :: b2) with ((a ++ LDestroy c :: b1) ++ LNotify c r cur d :: b2) in H by (by rewrite <- app_assoc).
  destruct (run_split _ _ H _ _ _ eq_refl) as (t0 & s0 & l1 & l2 & s1 & H0 & Hs & E0).
  assert (l1 = [] /\ c ∈ i_obs s0) as [-> Ho].
  { inversion Hs as [| | | | | | | | | |? p q Hst Hq Ho Hk El|? p q Hst Hq Ho El| |]; clear Hs;
      match goal with E : _ = l1 ++ _ |- _ => destruct l1 as [|x1 [|x2 [|x3 l1]]]; cbn [app] in E; simplify_eq end; done. }
  rewrite app_nil_r in E0. destruct (run_dead _ _ H0 c) as [_ Hd]; [|done]. rewrite <- E0. apply elem_of_app. right. left.
Qed.
(** ... and of every read at most once. *)
Theorem C60_once s t c : run start t s -> total (doneOf c) t <= total (readOf c) t.
Proof. intros H. pose proof (count_run _ _ H c). lia. Qed.

(** If no start fails and nothing is left over when a channel is registered again: results come from the process that runs, there is
    never more than one read at a time on the buffer of a channel, and what is handed over of the output of a process is the
    beginning of what it wrote. (Partial: the hypothesis does not hold of all executions, see below, and the rest of the output is
    not handed over if the process is found to have ended before.) *)
Theorem C60_settled_partial s t : run start t s -> settled t ->
  (forall c r cur d, LNotify c r cur d ∈ t -> r = cur) /\
  (forall c a b, t = a ++ b -> total (readOf c) a <= total (doneOf c) a + 1) /\
  (forall c r, all (given c r) t `prefix_of` all (wrote c r) t).
Proof.
  intros H HS. split_and!.
  - intros c r cur d Hin. apply elem_of_list_split in Hin as (a & b & ->).
    destruct (run_split _ _ H _ _ _ eq_refl) as (t0 & s0 & l1 & l2 & s1 & H0 & Hs & E0).
    assert (HC : calm t0 s0). { apply (calm_run _ _ H0). rewrite E0, <- app_assoc in HS. by eapply settled_app. }
    inversion Hs as [| | | | | | | | | |? p q Hst Hq Ho Hk El|? p q Hst Hq Ho El| |]; clear Hs;
      match goal with E : _ = l1 ++ _ |- _ => destruct l1 as [|x1 [|x2 [|x3 l1]]]; cbn [app] in E; simplify_eq end;
      (apply (ca_cur _ _ HC); [right; exists p; rewrite Hq; split; [left|done]|done]).
  - by eapply prefix_reads.
  - intros c r. rewrite (ca_data _ _ (calm_run _ _ H HS) c r). by eexists.
Qed.

(** ** Executions *)
Tactic Notation "go" hyp(H) uconstr(k) := let H' := fresh in unshelve epose proof (run_step _ _ _ _ _ H k) as H';
  [first [reflexivity|discriminate|right; reflexivity|exact (bool_decide_unpack _ I)]..|clear H; rename H' into H; match type of H with run _ _ ?x => let s := fresh "st" in set (s := x) in H end].
(** The first process of a channel writes twice, both results are handed over, the pipe breaks, and a second process runs. *)
Definition ex_calm : list label :=
  [LPipe 0 1; LRegister 0; LRead 0 1; LWrite 0 1 [65%N; 66%N]; LComplete 0 1 [65%N] true; LNotify 0 1 1 [65%N]; LRead 0 1; LComplete 0 1 [66%N] true; LNotify 0 1 1 [66%N]; LRead 0 1;
   LComplete 0 1 [] false; LNotify 0 1 1 []; LPoke 0; LUnregister 0; LPipe 0 2; LRegister 0; LRead 0 2; LWrite 0 2 [67%N]; LComplete 0 2 [67%N] true; LNotify 0 2 2 [67%N]; LRead 0 2; LDestroy 0].
Lemma ex_calm_run : exists s, run start ex_calm s.
Proof.
  pose proof (run_nil start) as H.
  go H (s_pipe _ 0 _). go H (s_register _ 0 _). go H (s_read _ 0 _). go H (s_write _ 0 [65%N; 66%N] _ _).
  go H (s_data _ 0 1 [] [] [65%N] [66%N] _ _ _). go H (s_notify_again _ (Packet 0 1 [65%N] true) [] _ _ _ _).
  go H (s_data _ 0 1 [] [] [66%N] [] _ _ _). go H (s_notify_again _ (Packet 0 1 [66%N] true) [] _ _ _ _).
  go H (s_error _ 0 1 [] [] _). go H (s_notify_last _ (Packet 0 1 [] false) [] _ _ _).
  go H (s_unregister _ 0 _). go H (s_idle _ 0 _). go H (s_pipe _ 0 _). go H (s_register _ 0 _). go H (s_read _ 0 _).
  go H (s_write _ 0 [67%N] _ _). go H (s_data _ 0 2 [] [] [67%N] [] _ _ _).
  go H (s_notify_again _ (Packet 0 2 [67%N] true) [] _ _ _ _). go H (s_destroy _ 0).
  eexists. exact H.
Qed.
Lemma ex_calm_settled : settled ex_calm.
Proof.
  split.
  - intros c H. unfold ex_calm in H. repeat (apply elem_of_cons in H as [H|H]; [discriminate|]). by apply elem_of_nil in H.
  - intros a c b E. assert (E1 : ex_calm !! List.length a = Some (LRegister c)) by (rewrite E; by apply list_lookup_middle).
    assert (E2 : take (List.length a) ex_calm = a) by (rewrite E; apply take_app). rewrite <- E2. revert E1. clear E E2. generalize (List.length a) as n. intros n.
    do 22 (destruct n as [|n]; [cbn; intros [=]; subst; reflexivity|]). done.
Qed.
Example C60_settled_ex : exists s, run start ex_calm s /\ settled ex_calm /\ all (given 0 1) ex_calm = [65%N; 66%N] /\ all (given 0 2) ex_calm = [67%N] /\ total (readOf 0) ex_calm = 5.
Proof. destruct ex_calm_run as [s H]. exists s. split_and!; [done|apply ex_calm_settled|done|done|done]. Qed.
Example C60_registered_ex : exists a d b s, run start (a ++ LNotify 0 2 2 d :: b) s /\ LUnregister 0 ∈ a.
Proof.
  destruct ex_calm_run as [s H]. exists (take 19 ex_calm), [67%N], (drop 20 ex_calm), s. split; [exact H|]. vm_compute. repeat (first [by left|right]).
Qed.

(** A result that is in the queue when the process is found to have ended, is handed over to the next process of the executor if that
    registers the channel before the thread comes to it: the old output is taken for output of the new process, and there are
    two reads at a time on one buffer and one OVERLAPPED. *)
Theorem C60_stale_refuted : exists t s, run start t s /\ (forall c, LFailed c ∉ t) /\ LNotify 0 1 2 [65%N] ∈ t /\ total (readOf 0) t = total (doneOf 0) t + 2.
Proof.
  exists [LPipe 0 1; LRegister 0; LRead 0 1; LWrite 0 1 [65%N]; LComplete 0 1 [65%N] true; LUnregister 0; LPipe 0 2; LRegister 0; LRead 0 2; LNotify 0 1 2 [65%N]; LRead 0 2].
  pose proof (run_nil start) as H.
  go H (s_pipe _ 0 _). go H (s_register _ 0 _). go H (s_read _ 0 _). go H (s_write _ 0 [65%N] _ _).
  go H (s_data _ 0 1 [] [] [65%N] [] _ _ _). go H (s_unregister _ 0 _). go H (s_idle _ 0 _). go H (s_pipe _ 0 _).
  go H (s_register _ 0 _). go H (s_read _ 0 _). go H (s_notify_again _ (Packet 0 1 [65%N] true) [] _ _ _ _).
  eexists. split_and!; [exact H| |repeat (first [by left|right])|done].
  intros c Hc. repeat (apply elem_of_cons in Hc as [Hc|Hc]; [discriminate|]). by apply elem_of_nil in Hc.
Qed.
(** A process that cannot be started leaves its read under way and the channel registered; the next start of the executor starts a
    second read on the same buffer, and the end of the first read is taken for the end of the new process's pipe. *)
Theorem C60_failed_start_refuted : exists t s, run start t s /\ total (readOf 0) t = total (doneOf 0) t + 1 /\ LNotify 0 1 2 [] ∈ t /\
  exists a b, t = a ++ b /\ total (readOf 0) a = total (doneOf 0) a + 2.
Proof.
  exists [LPipe 0 1; LRegister 0; LRead 0 1; LFailed 0; LPipe 0 2; LRegister 0; LRead 0 2; LComplete 0 1 [] false; LNotify 0 1 2 []; LPoke 0].
  pose proof (run_nil start) as H.
  go H (s_pipe _ 0 _). go H (s_register _ 0 _). go H (s_read _ 0 _). go H (s_failed _ 0 _). go H (s_pipe _ 0 _).
  go H (s_register _ 0 _). go H (s_read _ 0 _). go H (s_error _ 0 1 [] [(0, 2)] _). go H (s_notify_last _ (Packet 0 1 [] false) [] _ _ _).
  eexists. split_and!; [exact H|done|repeat (first [by left|right])|].
  exists [LPipe 0 1; LRegister 0; LRead 0 1; LFailed 0; LPipe 0 2; LRegister 0; LRead 0 2], [LComplete 0 1 [] false; LNotify 0 1 2 []; LPoke 0]. done.
Qed.

Print Assumptions C60_registered.
Print Assumptions C60_destroyed.
Print Assumptions C60_once.
Print Assumptions C60_settled_partial.
Print Assumptions C60_stale_refuted.
Print Assumptions C60_failed_start_refuted.
