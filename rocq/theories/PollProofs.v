(** Proofs about the reports of the ends of processes. *)
From stdpp Require Import prelude.
From RecordUpdate Require Import RecordSet.
Import RecordSetNotations.
From Verif Require Import ProcEnd Poll PollSpec.
Local Open Scope Z_scope.

Lemma exitOf_in k c l : exitOf k l = Some c -> (k, c) ∈ l.
Proof.
  unfold exitOf. destruct (List.find _ l) as [[k' c']|] eqn:E; [|done]. cbn. intros [= <-]. apply find_some in E as [H1 H2]. cbn in H2.
  apply Nat.eqb_eq in H2 as ->. by apply elem_of_list_In.
Qed.
Record pinv (t : list pevent) (s : pst) : Prop := Pinv {
  v_code : q_code s = STILL_ACTIVE;
  v_run : forall k, q_proc s = Some k -> q_running s = true /\ runs t k;
  v_proc : q_running s = true -> exists k, q_proc s = Some k;
  v_exit : forall k c, (k, c) ∈ q_exit s -> EExit k c ∈ t;
  v_done : forall k, EStart k ∈ t -> q_proc s = Some k \/ exists c, EFinished k c ∈ t;
  v_next : forall k, EStart k ∈ t -> (k < q_next s)%nat;
  v_code_of : forall k c, EExit k c ∈ t -> exitOf k (q_exit s) = Some c;
  v_last : forall k, runs t k -> q_proc s = Some k;
}.
Lemma runs_app t l k : runs t k -> Forall (fun e => isStart e = false /\ isFinished e = false) l -> runs (t ++ l) k.
Proof. intros (a & b & -> & H) Hl. exists a, (b ++ l). rewrite <- app_assoc. split; [done|]. by apply Forall_app. Qed.
Lemma runs_snoc t x k : runs (t ++ [x]) k -> x = EStart k \/ (runs t k /\ isStart x = false /\ isFinished x = false).
Proof.
  intros (a & b & E & H). destruct b as [|y b _] using rev_ind.
  - apply app_inj_tail in E as [_ ->]. by left.
  - replace (a ++ EStart k :: b ++ [y]) with ((a ++ EStart k :: b) ++ [y]) in E by (by rewrite <- app_assoc). apply app_inj_tail in E as [-> ->].
    apply Forall_app in H as [H1 H2]. inversion H2; subst. right. split; [|done]. by exists a, b.
Qed.
Lemma exitOf_cons k c k' l : exitOf k ((k', c) :: l) = if Nat.eqb k' k then Some c else exitOf k l.
Proof. unfold exitOf. cbn. by destruct (Nat.eqb k' k). Qed.
Lemma pinv_start : pinv [] pollStart.
Proof.
  split; try done.
  - intros k c H. by apply elem_of_nil in H.
  - intros k H. by apply elem_of_nil in H.
  - intros k H. by apply elem_of_nil in H.
  - intros k c H. by apply elem_of_nil in H.
  - intros k (a & b & E & _). by destruct a.
Qed.
(** The two outcomes of a call. *)
Lemma call_cases t s n : pinv t s -> q_calls s = S n ->
  (call (s <| q_calls := n |>) = (s, []) /\ (forall k c, q_proc s = Some k -> exitOf k (q_exit s) = Some c -> c = STILL_ACTIVE)) \/
  exists k c, q_proc s = Some k /\ exitOf k (q_exit s) = Some c /\ c <> STILL_ACTIVE /\
    call (s <| q_calls := n |>) = (s <| q_calls := n |> <| q_code := c |> <| q_running := false |> <| q_proc := None |> <| q_code := STILL_ACTIVE |>, [EFinished k c]).
Proof.
  intros HI Hn. unfold call, ask. cbn [q_code q_proc q_exit q_calls set]. rewrite (v_code _ _ HI), Z.eqb_refl.
  destruct s as [r p c n' e x]; cbn [q_code q_proc q_exit q_calls q_running q_next set] in *. subst n'. pose proof (v_code _ _ HI) as Hc. cbn in Hc. subst c.
  destruct p as [k|]; cbn [default].
  - destruct (exitOf k e) as [c|] eqn:E; cbn [from_option]; unfold id.
    + destruct (Z.eqb_spec c STILL_ACTIVE) as [->|Hne].
      * left. split; [by cbn|]. intros k' c' [= <-]. rewrite E. by intros [= <-].
      * right. exists k, c. split_and!; [done|done|done|]. destruct (v_run _ _ HI k eq_refl) as [Hr _]. cbn in Hr. subst r. apply Z.eqb_neq in Hne as Hne'. rewrite ?Hne'. reflexivity.
    + left. rewrite Z.eqb_refl. split; [by cbn|]. intros k' c' [= <-]. by rewrite E.
  - left. rewrite Z.eqb_refl. split; [by cbn|]. done.
Qed.
Lemma in_snoc {A} (x : A) t l : x ∈ t -> x ∈ t ++ l.
Proof. intros H. apply elem_of_app. by left. Qed.
Lemma pinv_step t s l s' : pinv t s -> pstep s l s' -> pinv (t ++ l) s'.
Proof.
  intros HI Hs. destruct Hs as [s Hr|s Hr|s k c Hk He|s|s n Hn].
  - assert (Hp : q_proc s = None). { destruct (q_proc s) as [k|] eqn:E; [|done]. apply (v_run _ _ HI) in E as [E _]. congruence. }
    split; cbn [q_code q_proc q_exit q_calls q_running q_next set].
    + apply HI.
    + intros k [= <-]. split; [done|]. exists t, []. split; [done|constructor].
    + intros _. by eexists.
    + intros k c H. apply in_snoc. by apply HI.
    + intros k H. apply elem_of_app in H as [H|H]; [|apply elem_of_list_singleton in H as [= ->]; by left]. right. destruct (v_done _ _ HI _ H) as [E|[c E]]; [congruence|]. exists c. by apply in_snoc.
    + intros k H. apply elem_of_app in H as [H|H]; [apply (v_next _ _ HI) in H; lia|]. apply elem_of_list_singleton in H as [= ->]. lia.
    + intros k c H. apply elem_of_app in H as [H|H]; [by apply HI|by apply elem_of_list_singleton in H].
    + intros k H. apply runs_snoc in H as [[= ->]|(_ & H & _)]; [done|done].
  - split; try apply HI.
    + intros k H. destruct (v_run _ _ HI _ H) as [A B]. split; [done|]. apply runs_app; [done|]. by repeat constructor.
    + intros k c H. apply in_snoc. by apply HI.
    + intros k H. apply elem_of_app in H as [H|H]; [|by apply elem_of_list_singleton in H]. destruct (v_done _ _ HI _ H) as [E|[c E]]; [by left|right]. exists c. by apply in_snoc.
    + intros k H. apply elem_of_app in H as [H|H]; [|by apply elem_of_list_singleton in H]. by apply HI.
    + intros k c H. apply elem_of_app in H as [H|H]; [by apply HI|by apply elem_of_list_singleton in H].
    + intros k H. apply runs_snoc in H as [H|(H & _)]; [done|by apply HI].
  - split; cbn [q_code q_proc q_exit q_calls q_running q_next set]; try apply HI.
    + intros k' H. destruct (v_run _ _ HI _ H) as [A B]. split; [done|]. apply runs_app; [done|]. by repeat constructor.
    + intros k' c' H. apply elem_of_cons in H as [[= -> ->]|H]; [apply elem_of_app; right; left|apply in_snoc; by apply HI].
    + intros k' H. apply elem_of_app in H as [H|H]; [|by apply elem_of_list_singleton in H]. destruct (v_done _ _ HI _ H) as [E|[c' E]]; [by left|right]. exists c'. by apply in_snoc.
    + intros k' H. apply elem_of_app in H as [H|H]; [|by apply elem_of_list_singleton in H]. by apply HI.
    + intros k' c' H. rewrite exitOf_cons. apply elem_of_app in H as [H|H]; [|apply elem_of_list_singleton in H as [= -> ->]; by rewrite Nat.eqb_refl].
      apply HI in H. destruct (Nat.eqb_spec k k') as [->|]; [congruence|done].
    + intros k' H. apply runs_snoc in H as [H|(H & _)]; [done|by apply HI].
  - split; cbn [q_code q_proc q_exit q_calls q_running q_next set]; try apply HI.
    + intros k H. destruct (v_run _ _ HI _ H) as [A B]. split; [done|]. apply runs_app; [done|]. by repeat constructor.
    + intros k c H. apply in_snoc. by apply HI.
    + intros k H. apply elem_of_app in H as [H|H]; [|by apply elem_of_list_singleton in H]. destruct (v_done _ _ HI _ H) as [E|[c E]]; [by left|right]. exists c. by apply in_snoc.
    + intros k H. apply elem_of_app in H as [H|H]; [|by apply elem_of_list_singleton in H]. by apply HI.
    + intros k c H. apply elem_of_app in H as [H|H]; [by apply HI|by apply elem_of_list_singleton in H].
    + intros k H. apply runs_snoc in H as [H|(H & _)]; [done|by apply HI].
  - destruct (call_cases _ _ _ HI Hn) as [[-> _]|(k & c & Hp & He & Hc & ->)]; cbn [fst snd].
    + split; try apply HI.
      * intros k H. destruct (v_run _ _ HI _ H) as [A B]. split; [done|]. apply runs_app; [done|]. by repeat constructor.
      * intros k c H. apply in_snoc. by apply HI.
      * intros k H. apply elem_of_app in H as [H|H]; [|by apply elem_of_list_singleton in H]. destruct (v_done _ _ HI _ H) as [E|[c E]]; [by left|right]. exists c. by apply in_snoc.
      * intros k H. apply elem_of_app in H as [H|H]; [|by apply elem_of_list_singleton in H]. by apply HI.
      * intros k c H. apply elem_of_app in H as [H|H]; [by apply HI|by apply elem_of_list_singleton in H].
      * intros k H. apply runs_snoc in H as [H|(H & _)]; [done|by apply HI].
    + split; cbn [q_code q_proc q_exit q_calls q_running q_next set]; try done.
      * intros k' c' H. apply in_snoc. by apply HI.
      * intros k' H. right. apply elem_of_app in H as [H|H]; [|apply elem_of_cons in H as [H|H]; [done|by apply elem_of_list_singleton in H]].
        destruct (v_done _ _ HI _ H) as [E|[c' E]]; [|exists c'; by apply in_snoc]. exists c. apply elem_of_app. right. right. rewrite Hp in E. injection E as ->. left.
      * intros k' H. apply elem_of_app in H as [H|H]; [by apply HI|]. apply elem_of_cons in H as [H|H]; [done|by apply elem_of_list_singleton in H].
      * intros k' c' H. apply elem_of_app in H as [H|H]; [by apply HI|]. apply elem_of_cons in H as [H|H]; [done|by apply elem_of_list_singleton in H].
      * intros k' H. change (t ++ [ECall; EFinished k c]) with (t ++ [ECall] ++ [EFinished k c]) in H. rewrite app_assoc in H. apply runs_snoc in H as [H|(_ & _ & H)]; done.
Qed.
Lemma pinv_run t s : prun t s -> pinv t s.
Proof. induction 1; [apply pinv_start|by eapply pinv_step]. Qed.

(** The step in which something happens. *)
Lemma prun_split t s : prun t s -> forall a x b, t = a ++ x :: b -> exists t0 s0 l1 l2 s1, prun t0 s0 /\ pstep s0 (l1 ++ x :: l2) s1 /\ a = t0 ++ l1.
Proof.
  induction 1 as [|t s l s' H IH Hs]; intros a x b E; [by destruct a|].
  apply app_eq_inv in E as [(k & E1 & E2)|(k & E1 & E2)].
  - destruct k as [|y k]; cbn in E2.
    + exists t, s, [], b, s'. rewrite app_nil_r in E1. subst. split_and!; [done|done|by rewrite app_nil_r].
    + injection E2 as <- ->. by apply (IH a x k).
  - exists t, s, k, b, s'. subst. done.
Qed.
Lemma calls_run t s : prun t s -> (q_calls s + count isFinished t = count isPoke t)%nat.
Proof.
  induction 1 as [|t s l s' H IH Hs]; [done|]. unfold count in *. rewrite !List.filter_app, !app_length.
  destruct Hs as [s Hr|s Hr|s k c Hk He|s|s n Hn]; cbn [List.filter isFinished isPoke List.length q_calls set]; try lia.
  destruct (call_cases _ _ _ (pinv_run _ _ H) Hn) as [[-> _]|(k & c & Hp & He & Hc & ->)]; cbn [fst snd List.filter isFinished isPoke List.length q_calls set]; lia.
Qed.
