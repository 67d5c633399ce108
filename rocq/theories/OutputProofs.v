(** Lemmas about the output of commands. *)
From stdpp Require Import prelude.
From RecordUpdate Require Import RecordSet.
Import RecordSetNotations.
From Verif Require Import Output OutputSpec.
Local Open Scope N_scope.

Lemma upd_same e f ps : upd e f ps e = f (ps e).
Proof. unfold upd. by rewrite decide_True. Qed.
Lemma upd_other e f ps i : i <> e -> upd e f ps i = ps i.
Proof. intros H. unfold upd. by rewrite decide_False. Qed.

Lemma run_app n s l1 s1 l2 s2 : run n s l1 s1 -> run n s1 l2 s2 -> run n s (l1 ++ l2) s2.
Proof. induction 1; [done|]. intros H1. rewrite <-(assoc_L (++)). eapply run_step; eauto. Qed.
Lemma run_one n s l s' : step n s l s' -> run n s l s'.
Proof. intros H. rewrite <-(right_id_L [] (++) l). eapply run_step; [exact H|constructor]. Qed.

(** Induction with the last step last. *)
Lemma run_ind_r n s0 (P : list label -> st -> Prop) :
  P [] s0 -> (forall ls s l s', run n s0 ls s -> P ls s -> step n s l s' -> P (ls ++ l) s') ->
  forall ls s, run n s0 ls s -> P ls s.
Proof.
  intros H0 HS.
  assert (G : forall s ls s', run n s ls s' -> forall l0, run n s0 l0 s -> P l0 s -> P (l0 ++ ls) s').
  { induction 1 as [s|s l s1 ls s2 H1 _ IH]; intros l0 Hr HP; [by rewrite (right_id_L [] (++))|].
    rewrite (assoc_L (++)). apply IH; [|by eapply HS]. eapply run_app; [exact Hr|]. by apply run_one. }
  intros ls s Hr. apply (G _ _ _ Hr []); [constructor|done].
Qed.

Definition bufs (c : chan) (p : proc) : list item := c_buffers (chanOf c p).
Definition pipe (c : chan) (p : proc) : bytes := c_pipe (chanOf c p).

Lemma chanOf_withChan c c' f p : chanOf c (withChan c' f p) = if decide (c = c') then f (chanOf c p) else chanOf c p.
Proof. by destruct c, c', p. Qed.
Lemma closePipes_bufs c p : bufs c (closePipes p) = bufs c p.
Proof. by destruct c, p as [[??] [??] ????]. Qed.
Lemma closePipes_pipe c p : pipe c (closePipes p) = [].
Proof. by destruct c, p as [[??] [??] ????]. Qed.
Lemma withChan_flags c f p :
  p_buffered (withChan c f p) = p_buffered p /\ p_locked (withChan c f p) = p_locked p
  /\ p_running (withChan c f p) = p_running p /\ p_active (withChan c f p) = p_active p.
Proof. by destruct c, p. Qed.

Lemma nextChan_None p : nextChan p = None -> forall c, bufs c p = [].
Proof.
  unfold nextChan, bufs. intros H c.
  destruct (c_buffers (p_out p)) eqn:E1, (c_buffers (p_err p)) eqn:E2; try done; [|by repeat case_match].
  by destruct c.
Qed.
Lemma nextChan_Some p c : nextChan p = Some c ->
  exists i l, bufs c p = i :: l /\ forall c' j l', bufs c' p = j :: l' -> it_time i <= it_time j.
Proof.
  unfold nextChan, bufs. intros H.
  destruct (c_buffers (p_out p)) as [|a l1] eqn:E1, (c_buffers (p_err p)) as [|b l2] eqn:E2; simplify_eq.
  - exists b, l2. split; [done|]. intros [] j l'; cbn; rewrite ?E1, ?E2; intros; simplify_eq; lia.
  - exists a, l1. split; [done|]. intros [] j l'; cbn; rewrite ?E1, ?E2; intros; simplify_eq; lia.
  - destruct (it_time b <? it_time a) eqn:Et; simplify_eq; [apply N.ltb_lt in Et|apply N.ltb_ge in Et].
    + exists b, l2. split; [done|]. intros [] j l'; cbn; rewrite ?E1, ?E2; intros; simplify_eq; lia.
    + exists a, l1. split; [done|]. intros [] j l'; cbn; rewrite ?E1, ?E2; intros; simplify_eq; lia.
Qed.

Lemma handed_app e c l1 l2 : handed e c (l1 ++ l2) = handed e c l1 ++ handed e c l2.
Proof. apply omap_app. Qed.
Lemma printed_app e c l1 l2 : printed e c (l1 ++ l2) = printed e c l1 ++ printed e c l2.
Proof. apply omap_app. Qed.
Lemma printTimes_app e l1 l2 : printTimes e (l1 ++ l2) = printTimes e l1 ++ printTimes e l2.
Proof. apply omap_app. Qed.
Lemma flushed_app k e c l1 l2 : flushed k e c (l1 ++ l2) = flushed k e c l1 ++ flushed k e c l2.
Proof. apply omap_app. Qed.

(** * The shape of the code of the main thread *)
Definition setsOnly (l : list instr) : Prop := Forall (fun i => exists e b, i = ISetBuffered e b) l.
Definition plan (n k : nat) : list instr := flat_map (fun e => [IDestroy e; IPrint e]) (seq k (n - k)).
Definition unlocked (s : st) : Prop := forall i, p_locked (procs s i) = false.
Definition lockedOnly (s : st) (e : nat) : Prop := forall i, p_locked (procs s i) = true <-> i = e.
Definition doneBefore (s : st) (k : nat) : Prop :=
  forall i, (i < k)%nat -> p_running (procs s i) = false /\ forall c, bufs c (procs s i) = [].

Inductive shape (n : nat) (s : st) : Prop :=
| sh_sets : quitting s = false -> setsOnly (code s) -> unlocked s -> shape n s
| sh_end e : quitting s = false -> code s = [IPrint e] -> unlocked s -> p_running (procs s e) = false -> shape n s
| sh_switch e rest : quitting s = false -> code s = IPrint e :: IUnlock e :: rest -> setsOnly rest -> lockedOnly s e ->
    p_buffered (procs s e) = false -> shape n s
| sh_unlock e rest : quitting s = false -> code s = IUnlock e :: rest -> setsOnly rest -> lockedOnly s e ->
    (p_buffered (procs s e) = false -> forall c, bufs c (procs s e) = []) -> shape n s
| sh_quit k : quitting s = true -> (k <= n)%nat -> code s = plan n k -> unlocked s -> doneBefore s k -> shape n s
| sh_quit_print k : quitting s = true -> (k < n)%nat -> code s = IPrint k :: plan n (S k) -> unlocked s ->
    p_running (procs s k) = false -> doneBefore s k -> shape n s.

Lemma plan_S n k : (k < n)%nat -> plan n k = IDestroy k :: IPrint k :: plan n (S k).
Proof.
  intros H. unfold plan. replace (n - k)%nat with (S (n - S k)) by lia. done.
Qed.
Lemma plan_end n : plan n n = [].
Proof. unfold plan. by rewrite Nat.sub_diag. Qed.

Definition directEmpty (s : st) : Prop :=
  forall i, p_buffered (procs s i) = false -> p_locked (procs s i) = false -> forall c, bufs c (procs s i) = [].
Definition good (n : nat) (s : st) : Prop := shape n s /\ directEmpty s.

Lemma setsOnly_passOn n e ps av : setsOnly (passOn n e ps av).
Proof.
  unfold passOn, setsOnly. destruct (p_buffered (ps e)); [constructor|]. constructor; [eauto|].
  destruct (actives n ps); [destruct av; repeat constructor; eauto|]. apply Forall_map, Forall_true. eauto.
Qed.
Lemma good_start n : good n (start n).
Proof.
  split; [apply sh_sets; [done|constructor|]|]; intros i; cbn; destruct (decide (i = 0%nat)) as [->|Hi];
    rewrite ?upd_same, ?upd_other by done; try done; intros _ _ []; done.
Qed.

(** The executor that is printed is locked or has no process. *)
Lemma shape_print n s e rest : shape n s -> code s = IPrint e :: rest -> p_locked (procs s e) = true \/ p_running (procs s e) = false.
Proof.
  intros [? Hc|?? Hc|??? Hc ? Hl|??? Hc|??? Hc|??? Hc] E; rewrite E in Hc; simplify_eq; try by right.
  - inversion Hc as [|?? (?&?&?)]; done.
  - left. by apply Hl.
  - unfold plan in Hc. by destruct (seq k (n - k)).
Qed.

Ltac pcase i e := destruct (decide (i = e)) as [->|?]; [rewrite ?upd_same|rewrite ?upd_other by done]; cbn.

(** Steps that change only the pipes and buffers, or flags other than those in question, of an executor that is running and not locked. *)
Lemma good_chan n s e c f :
  good n s -> p_running (procs s e) = true \/ (code s = [] /\ quitting s = false) ->
  (p_buffered (procs s e) = true /\ p_locked (procs s e) = false \/ forall ch, c_buffers (f ch) = c_buffers ch) ->
  good n (s <| procs ::= upd e (withChan c f) |>).
Proof.
  intros [Hsh Hd] Hr Hf.
  assert (Hfl : forall i, let p := procs (s <| procs ::= upd e (withChan c f) |>) i in
            p_buffered p = p_buffered (procs s i) /\ p_locked p = p_locked (procs s i) /\ p_running p = p_running (procs s i)).
  { intros i. cbn. pcase i e; [|done]. destruct (withChan_flags c f (procs s e)) as (?&?&?&?). done. }
  assert (Hb : forall i, p_buffered (procs s i) = false -> forall c', bufs c' (procs s i) = [] ->
            bufs c' (procs (s <| procs ::= upd e (withChan c f) |>) i) = []).
  { intros i Hi c' Hb'. cbn. pcase i e; [|done]. unfold bufs. rewrite chanOf_withChan. case_decide; [|done].
    destruct Hf as [[? _]|Hf]; [congruence|]. by rewrite Hf. }
  assert (Hu : unlocked s -> unlocked (s <| procs ::= upd e (withChan c f) |>)).
  { intros H i. destruct (Hfl i) as (_&->&_). apply H. }
  assert (Hlk : forall x, lockedOnly s x -> lockedOnly (s <| procs ::= upd e (withChan c f) |>) x).
  { intros x H i. destruct (Hfl i) as (_&->&_). apply H. }
  split.
  - destruct Hsh as [Hq Hc Hl|x Hq Hc Hl Hx|x rest Hq Hc Hs Hl Hx|x rest Hq Hc Hs Hl Hx|k Hq Hk Hc Hl Hx|k Hq Hk Hc Hl Hx Hy].
    + apply sh_sets; auto.
    + eapply (sh_end _ _ x); eauto. by destruct (Hfl x) as (_&_&->).
    + eapply (sh_switch _ _ x); eauto. by destruct (Hfl x) as (->&_).
    + eapply (sh_unlock _ _ x); eauto. destruct (Hfl x) as (->&_). intros Hbx c'. apply Hb; auto.
    + eapply (sh_quit _ _ k); eauto. intros i Hi. destruct (Hfl i) as (_&_&->). destruct (Hx i Hi) as [Hx1 Hx2].
      split; [done|]. intros c'. cbn. pcase i e; [|done]. destruct Hr as [?|[_ ?]]; congruence.
    + eapply (sh_quit_print _ _ k); eauto; [by destruct (Hfl k) as (_&_&->)|].
      intros i Hi. destruct (Hfl i) as (_&_&->). destruct (Hy i Hi) as [Hx1 Hx2].
      split; [done|]. intros c'. cbn. pcase i e; [|done]. destruct Hr as [?|[_ ?]]; congruence.
  - intros i. destruct (Hfl i) as (->&->&_). intros H1 H2 c'. apply Hb; auto.
Qed.

(** Steps that change only m_active and the like. *)
Lemma good_same n s s' :
  good n s -> quitting s = false -> quitting s' = false -> code s = [] -> setsOnly (code s') ->
  (forall i, p_buffered (procs s' i) = p_buffered (procs s i) /\ p_locked (procs s' i) = p_locked (procs s i)
             /\ forall c, bufs c (procs s' i) = bufs c (procs s i)) -> good n s'.
Proof.
  intros [Hsh Hd] Hq Hq' Hc Hc' Hs. split.
  - apply sh_sets; [done|done|]. intros i. destruct (Hs i) as (_&->&_).
    destruct Hsh as [? ? H|? ? ? H ?| | |?|?]; first [congruence|apply H].
  - intros i. destruct (Hs i) as (->&->&Hb). intros ?? c. rewrite Hb. by apply Hd.
Qed.

Lemma good_exec n s l s' : good n s -> exec1 s l s' -> good n s'.
Proof.
  intros [Hsh Hd] Hx. destruct Hx as [s e rest c t d buf Hc Hn Hb|s e rest Hc Hn|s e b rest Hc Hb|s e b rest Hc Hb|s e rest Hc|s e rest Hc].
  - (* print *)
    assert (Hfl : forall i, let p := procs (s <| procs ::= upd e (withChan c (fun ch => ch <| c_buffers := buf |>)) |>) i in
            p_buffered p = p_buffered (procs s i) /\ p_locked p = p_locked (procs s i) /\ p_running p = p_running (procs s i)).
    { intros i. cbn. pcase i e; [|done]. destruct (withChan_flags c (fun ch => ch <| c_buffers := buf |>) (procs s e)) as (?&?&?&?). done. }
    assert (Hu : unlocked s -> unlocked (s <| procs ::= upd e (withChan c (fun ch => ch <| c_buffers := buf |>)) |>)).
    { intros H i. destruct (Hfl i) as (_&->&_). apply H. }
    assert (Hbe : forall i, i <> e -> forall c', bufs c' (procs (s <| procs ::= upd e (withChan c (fun ch => ch <| c_buffers := buf |>)) |>) i) = bufs c' (procs s i)).
    { intros i Hi c'. cbn. by rewrite upd_other. }
    split.
    + destruct Hsh as [Hq Hc' Hl|x Hq Hc' Hl Hx|x rest' Hq Hc' Hs Hl Hx|x rest' Hq Hc' Hs Hl Hx|k Hq Hk Hc' Hl Hx|k Hq Hk Hc' Hl Hx Hy]; rewrite Hc in Hc'.
      * inversion Hc' as [|?? (?&?&?)]; done.
      * injection Hc' as -> ->. eapply (sh_end _ _ x); eauto. by destruct (Hfl x) as (_&_&->).
      * injection Hc' as -> ->. eapply (sh_switch _ _ x); eauto; [|by destruct (Hfl x) as (->&_)].
        intros i. destruct (Hfl i) as (_&->&_). apply Hl.
      * done.
      * unfold plan in Hc'. by destruct (seq k (n - k)).
      * injection Hc' as -> ->. eapply (sh_quit_print _ _ k); eauto; [by destruct (Hfl k) as (_&_&->)|].
        intros i Hi. destruct (Hfl i) as (_&_&->). destruct (Hy i Hi) as [? Hz]. split; [done|]. intros c'. rewrite Hbe; [apply Hz|lia].
    + intros i. destruct (Hfl i) as (->&->&_). intros H1 H2 c'. destruct (decide (i = e)) as [->|Hi]; [|rewrite Hbe by done; by apply Hd].
      exfalso. pose proof (Hd e H1 H2 c) as Hz. unfold bufs in Hz. by rewrite Hb in Hz.
  - (* printed *)
    split; [|exact Hd].
    pose proof (nextChan_None _ Hn) as He.
    destruct Hsh as [Hq Hc' Hl|x Hq Hc' Hl Hx|x rest' Hq Hc' Hs Hl Hx|x rest' Hq Hc' Hs Hl Hx|k Hq Hk Hc' Hl Hx|k Hq Hk Hc' Hl Hx Hy]; rewrite Hc in Hc'.
    * inversion Hc' as [|?? (?&?&?)]; done.
    * injection Hc' as -> ->. apply sh_sets; [done|constructor|done].
    * injection Hc' as -> ->. eapply (sh_unlock _ _ x); eauto.
    * done.
    * unfold plan in Hc'. by destruct (seq k (n - k)).
    * injection Hc' as -> ->. eapply (sh_quit _ _ (S k)); eauto. intros i Hi. destruct (decide (i = k)) as [->|?]; [done|]. apply Hy. lia.
  - (* same *)
    split; [|exact Hd].
    destruct Hsh as [Hq Hc' Hl|x Hq Hc' Hl Hx|x rest' Hq Hc' Hs Hl Hx|x rest' Hq Hc' Hs Hl Hx|k Hq Hk Hc' Hl Hx|k Hq Hk Hc' Hl Hx Hy]; rewrite Hc in Hc'; try done.
    * apply sh_sets; [done| |done]. by inversion Hc'.
    * unfold plan in Hc'. by destruct (seq k (n - k)).
  - (* set *)
    assert (quitting s = false /\ unlocked s /\ setsOnly rest) as (Hq&Hu&Hr).
    { destruct Hsh as [Hq Hc' Hl|x Hq Hc' Hl Hx|x rest' Hq Hc' Hs Hl Hx|x rest' Hq Hc' Hs Hl Hx|k Hq Hk Hc' Hl Hx|k Hq Hk Hc' Hl Hx Hy]; rewrite Hc in Hc'; try done.
      - by inversion Hc'.
      - unfold plan in Hc'. by destruct (seq k (n - k)). }
    assert (Hl : forall s1, (forall i, p_locked (procs s1 i) = p_locked (upd e (fun p => p <| p_locked := true |> <| p_buffered := b |>) (procs s) i)) -> lockedOnly s1 e).
    { intros s1 H i. rewrite H. pcase i e; [done|]. rewrite (Hu i). split; done. }
    split.
    + destruct b.
      * eapply (sh_unlock _ _ e); [done|done|done|by apply Hl|]. cbn. rewrite upd_same. done.
      * eapply (sh_switch _ _ e); [done|done|done|by apply Hl|]. cbn. by rewrite upd_same.
    + intros i. cbn. pcase i e; [done|]. apply Hd.
  - (* unlock *)
    assert (quitting s = false /\ lockedOnly s e /\ setsOnly rest /\ (p_buffered (procs s e) = false -> forall c, bufs c (procs s e) = [])) as (Hq&Hl&Hr&He).
    { destruct Hsh as [Hq Hc' Hl|x Hq Hc' Hl Hx|x rest' Hq Hc' Hs Hl Hx|x rest' Hq Hc' Hs Hl Hx|k Hq Hk Hc' Hl Hx|k Hq Hk Hc' Hl Hx Hy]; rewrite Hc in Hc'; try done.
      - by inversion Hc' as [|?? (?&?&?)].
      - by injection Hc' as -> ->.
      - unfold plan in Hc'. by destruct (seq k (n - k)). }
    split.
    + apply sh_sets; [done|done|]. intros i. cbn. pcase i e; [done|]. destruct (p_locked (procs s i)) eqn:E; [|done]. by apply Hl in E.
    + intros i. cbn. pcase i e; [|apply Hd]. intros H _ c. by apply He.
  - (* destroy *)
    assert (exists k, quitting s = true /\ (k < n)%nat /\ unlocked s /\ doneBefore s k /\ e = k /\ rest = IPrint k :: plan n (S k)) as (k&Hq&Hk&Hu&Hdn&->&->).
    { destruct Hsh as [Hq Hc' Hl|x Hq Hc' Hl Hx|x rest' Hq Hc' Hs Hl Hx|x rest' Hq Hc' Hs Hl Hx|k Hq Hk Hc' Hl Hx|k Hq Hk Hc' Hl Hx Hy]; rewrite Hc in Hc'; try done.
      - by inversion Hc' as [|?? (?&?&?)].
      - destruct (decide (k = n)) as [->|Hkn]; [by rewrite plan_end in Hc'|]. rewrite plan_S in Hc' by lia.
        injection Hc' as -> ->. exists k. split_and!; try done. lia. }
    split.
    + eapply (sh_quit_print _ _ k); [done|done|done| | |].
      * intros i. cbn. pcase i k; [|apply Hu]. apply Hu.
      * cbn. by rewrite upd_same.
      * intros i Hi. cbn. rewrite upd_other by lia. by apply Hdn.
    + intros i. cbn. pcase i k; [|apply Hd]. intros H1 H2 c. rewrite closePipes_bufs. apply Hd; [exact H1|exact H2].
Qed.

Lemma good_step n s l s' : good n s -> step n s l s' -> good n s'.
Proof.
  intros Hg Hst. destruct Hst as [s l s' Hx|s t Ht|s e c d Hr Hd|s e c d rest Hr Hl Hd Hp Hb|s e c d rest Hr Hl Hd Hp Hb|s e c d Hc Hq Ha Hr Hb
    |s e c d Hc Hq Ha Hr Hb|s e Hc Hq Ha Hr|s e Hc Hq Hr|s e rest Hc Hq Ha|s e Hc Hq Ha Hr|s Hc Hq].
  - eapply good_exec; eauto.
  - destruct Hg as [Hsh Hd]. split; [|done]. destruct Hsh; [eapply sh_sets|eapply sh_end|eapply sh_switch|eapply sh_unlock|eapply sh_quit|eapply sh_quit_print]; eauto.
  - apply good_chan; auto.
  - apply good_chan; auto.
  - apply good_chan; auto.
  - apply good_chan; auto. left. split; [done|]. destruct Hg as [[? ? H|? ? ? H ?| | |?|?] _]; first [congruence|apply H].
  - done.
  - eapply good_same; eauto; cbn; [rewrite Hc; constructor|]. intros i. pcase i e; done.
  - destruct Hg as [Hsh Hd]. split.
    + eapply (sh_end _ _ e); [done|done| |cbn; by rewrite upd_same].
      intros i. assert (p_locked (procs s i) = false) by (destruct Hsh as [? ? H|? ? ? H ?| | |?|?]; first [congruence|apply H]).
      cbn. pcase i e; done.
    + intros i. cbn. pcase i e; [|apply Hd]. intros H1 H2 c. rewrite closePipes_bufs. apply Hd; [exact H1|exact H2].
  - eapply good_same; eauto; cbn; [rewrite Hc; constructor|]. intros i. pcase i e; done.
  - eapply good_same; eauto; cbn; [apply setsOnly_passOn|]. intros i. unfold ps. pcase i e; done.
  - destruct Hg as [Hsh Hd]. split; [|exact Hd]. eapply (sh_quit _ _ 0); [done|lia|cbn; unfold plan; by rewrite Nat.sub_0_r| |].
    + intros i. cbn. destruct Hsh as [? ? H|? ? ? H ?| | |?|?]; first [congruence|apply H].
    + intros i Hi. lia.
Qed.
Lemma good_run n ls s : run n (start n) ls s -> good n s.
Proof. intros H. eapply (run_ind_r n (start n) (fun _ s => good n s)); [apply good_start| |exact H]. intros. by eapply good_step. Qed.

(** * Nothing gets lost or doubled between reading and printing *)
Lemma step_items n s l s' i c : good n s -> step n s l s' ->
  bufs c (procs s i) ++ handed i c l = printed i c l ++ bufs c (procs s' i).
Proof.
  intros [Hsh Hd] Hst.
  destruct Hst as [s l s' Hx|s t Ht|s e c0 d Hr Hn|s e c0 d rest Hr Hl Hn Hp Hb|s e c0 d rest Hr Hl Hn Hp Hb|s e c0 d Hc Hq Ha Hr Hb
    |s e c0 d Hc Hq Ha Hr Hb|s e Hc Hq Ha Hr|s e Hc Hq Hr|s e rest Hc Hq Ha|s e Hc Hq Ha Hr|s Hc Hq]; cbn [handed printed omap list_omap handed1 printed1].
  - destruct Hx as [s e rest c0 t d buf Hc Hn Hb|s e rest Hc Hn|s e b rest Hc Hb|s e b rest Hc Hb|s e rest Hc|s e rest Hc];
      unfold handed, printed; cbn; rewrite ?(right_id_L [] (++)).
    + destruct (decide (e = i /\ c0 = c)) as [[-> ->]|Hne]; cbn.
      * rewrite upd_same. unfold bufs. rewrite chanOf_withChan, decide_True by done. by rewrite Hb.
      * pcase i e; [|done]. unfold bufs. rewrite chanOf_withChan, decide_False by naive_solver. done.
    + done.
    + done.
    + pcase i e; done.
    + pcase i e; done.
    + pcase i e; [by rewrite closePipes_bufs|done].
  - by rewrite (right_id_L [] (++)).
  - rewrite (right_id_L [] (++)). cbn. pcase i e; [|done]. unfold bufs. rewrite chanOf_withChan. case_decide; by subst.
  - unfold handed, printed; cbn. destruct (decide (e = i /\ c0 = c)) as [[-> ->]|Hne]; cbn.
    + rewrite upd_same. unfold bufs. by rewrite chanOf_withChan, decide_True.
    + rewrite (right_id_L [] (++)). pcase i e; [|done]. unfold bufs. rewrite chanOf_withChan, decide_False by naive_solver. done.
  - unfold handed, printed; cbn. destruct (decide (e = i /\ c0 = c)) as [[-> ->]|Hne]; cbn.
    + rewrite upd_same. pose proof (Hd i Hb Hl c) as Hz. unfold bufs in *. rewrite chanOf_withChan, decide_True by done. cbn. by rewrite Hz.
    + rewrite (right_id_L [] (++)). pcase i e; [|done]. unfold bufs. rewrite chanOf_withChan, decide_False by naive_solver. done.
  - unfold handed, printed; cbn. destruct (decide (e = i /\ c0 = c)) as [[-> ->]|Hne]; cbn.
    + rewrite upd_same. unfold bufs. by rewrite chanOf_withChan, decide_True.
    + rewrite (right_id_L [] (++)). pcase i e; [|done]. unfold bufs. rewrite chanOf_withChan, decide_False by naive_solver. done.
  - unfold handed, printed; cbn. destruct (decide (e = i /\ c0 = c)) as [[-> ->]|Hne]; cbn; [|by rewrite (right_id_L [] (++))].
    rewrite (Hd i Hb); [done|]. destruct Hsh as [? ? H|? ? ? H ?| | |?|?]; first [congruence|apply H].
  - rewrite (right_id_L [] (++)). cbn. pcase i e; done.
  - rewrite (right_id_L [] (++)). cbn. pcase i e; [by rewrite closePipes_bufs|done].
  - rewrite (right_id_L [] (++)). cbn. pcase i e; done.
  - rewrite (right_id_L [] (++)). cbn. unfold ps. pcase i e; done.
  - by rewrite (right_id_L [] (++)).
Qed.
Lemma run_items n ls s i c : run n (start n) ls s -> handed i c ls = printed i c ls ++ bufs c (procs s i).
Proof.
  intros H. pattern ls, s. eapply run_ind_r; [| |exact H]; clear ls s H.
  - cbn. pcase i 0%nat; by destruct c.
  - intros ls s l s' Hr IH Hst. rewrite handed_app, printed_app, IH, <-!(assoc_L (++)). f_equal.
    eapply step_items; [by eapply good_run|exact Hst].
Qed.

Lemma run_over n ls s i c : run n (start n) ls s -> over s -> (i < n)%nat -> bufs c (procs s i) = [].
Proof.
  intros H [Hq Hc] Hi. destruct (good_run _ _ _ H) as [[?|?|?|?|k _ Hk Hc' _ Hd|k _ Hk Hc'] _]; try congruence.
  destruct (decide (k = n)) as [->|]; [by apply Hd|]. rewrite plan_S in Hc' by lia. congruence.
Qed.

(** * The pipes *)
Lemma written_app e c l1 l2 : written e c (l1 ++ l2) = written e c l1 ++ written e c l2.
Proof. apply flat_map_app. Qed.
Lemma taken_app e c l1 l2 : taken e c (l1 ++ l2) = taken e c l1 ++ taken e c l2.
Proof. apply flat_map_app. Qed.
Lemma read_app e c l1 l2 : read e c (l1 ++ l2) = read e c l1 ++ read e c l2.
Proof. apply flat_map_app. Qed.

Lemma step_pipe n s l s' i c : step n s l s' ->
  pipe c (procs s i) ++ written i c l = taken i c l ++ pipe c (procs s' i).
Proof.
  intros Hst.
  destruct Hst as [s l s' Hx|s t Ht|s e c0 d Hr Hn|s e c0 d rest Hr Hl Hn Hp Hb|s e c0 d rest Hr Hl Hn Hp Hb|s e c0 d Hc Hq Ha Hr Hb
    |s e c0 d Hc Hq Ha Hr Hb|s e Hc Hq Ha Hr|s e Hc Hq Hr|s e rest Hc Hq Ha|s e Hc Hq Ha Hr|s Hc Hq]; unfold written, taken; cbn; rewrite ?(right_id_L [] (++)).
  - destruct Hx as [s e rest c0 t d buf Hc Hn Hb|s e rest Hc Hn|s e b rest Hc Hb|s e b rest Hc Hb|s e rest Hc|s e rest Hc];
      cbn; rewrite ?(right_id_L [] (++)); try done; try (pcase i e; done).
    + pcase i e; [|done]. unfold pipe. rewrite chanOf_withChan. case_decide; by subst.
    + destruct (decide (e = i)) as [->|]; cbn; [|by rewrite upd_other].
      rewrite upd_same, closePipes_pipe, (right_id_L [] (++)). by destruct c.
  - done.
  - destruct (decide (e = i /\ c0 = c)) as [[-> ->]|Hne]; cbn.
    + rewrite upd_same. unfold pipe. by rewrite chanOf_withChan, decide_True.
    + rewrite (right_id_L [] (++)). pcase i e; [|done]. unfold pipe. rewrite chanOf_withChan, decide_False by naive_solver. done.
  - destruct (decide (e = i /\ c0 = c)) as [[-> ->]|Hne]; cbn.
    + rewrite upd_same. unfold pipe. by rewrite chanOf_withChan, decide_True, Hp.
    + pcase i e; [|done]. unfold pipe. rewrite chanOf_withChan, decide_False by naive_solver. done.
  - destruct (decide (e = i /\ c0 = c)) as [[-> ->]|Hne]; cbn.
    + rewrite upd_same. unfold pipe. by rewrite chanOf_withChan, decide_True, Hp.
    + pcase i e; [|done]. unfold pipe. rewrite chanOf_withChan, decide_False by naive_solver. done.
  - pcase i e; [|done]. unfold pipe. rewrite chanOf_withChan. case_decide; by subst.
  - done.
  - pcase i e; done.
  - destruct (decide (e = i)) as [->|]; cbn; [|by rewrite upd_other].
    rewrite upd_same, closePipes_pipe, (right_id_L [] (++)). by destruct c.
  - pcase i e; done.
  - unfold ps. pcase i e; done.
  - done.
Qed.
Lemma run_pipe n ls s i c : run n (start n) ls s -> written i c ls = taken i c ls ++ pipe c (procs s i).
Proof.
  intros H. pattern ls, s. eapply run_ind_r; [| |exact H]; clear ls s H.
  - cbn. pcase i 0%nat; by destruct c.
  - intros ls s l s' Hr IH Hst. rewrite written_app, taken_app, IH, <-!(assoc_L (++)). f_equal. by eapply step_pipe.
Qed.
Lemma taken_read i c ls : nothingDropped ls -> taken i c ls = read i c ls.
Proof.
  induction ls as [|l ls IH]; intros H; [done|]. unfold taken, read in *. cbn. f_equal.
  - destruct l; cbn; try done. destruct (H e out err) as [-> ->]; [by left|]. case_decide; [by destruct c|done].
  - apply IH. intros e o r Hin. eapply H. right. exact Hin.
Qed.

(** * Time *)
Definition timesOk (s : st) (i : nat) (ts : list N) : Prop :=
  ordered ts /\ (forall t, t ∈ ts -> t <= now s) /\
  (forall c, ordered (map it_time (bufs c (procs s i)))) /\
  (forall c t x, t ∈ ts -> x ∈ bufs c (procs s i) -> t <= it_time x) /\
  (forall c x, x ∈ bufs c (procs s i) -> it_time x <= now s).

Lemma ordered_snoc l t : ordered l -> (forall x, x ∈ l -> x <= t) -> ordered (l ++ [t]).
Proof.
  intros H1 H2 i j x y Hij Hi Hj. apply lookup_app_Some in Hj as [Hj|[Hl Hj]].
  - rewrite lookup_app_l in Hi by (apply lookup_lt_Some in Hj; lia). eauto.
  - apply list_lookup_singleton_Some in Hj as [Hj ->]. rewrite lookup_app_l in Hi by lia. apply H2. by eapply elem_of_list_lookup_2.
Qed.
Lemma ordered_tail x l : ordered (x :: l) -> ordered l.
Proof. intros H i j a b Hij Hi Hj. apply (H (S i) (S j) a b); [lia|done|done]. Qed.
Lemma ordered_head x l y : ordered (x :: l) -> y ∈ l -> x <= y.
Proof. intros H Hy. apply elem_of_list_lookup in Hy as [j Hj]. apply (H 0%nat (S j)); [lia|done|done]. Qed.

Lemma step_now n s l s' : step n s l s' -> now s <= now s'.
Proof. intros Hst. destruct Hst as [s l s' Hx| | | | | | | | | | |]; cbn; try lia. destruct Hx; cbn; lia. Qed.

Lemma timesOk_same s s' i ts : timesOk s i ts -> now s <= now s' -> (forall c, bufs c (procs s' i) = bufs c (procs s i)) -> timesOk s' i ts.
Proof.
  intros (H1&H2&H3&H4&H5) Hn Hb. split_and!.
  - done.
  - intros t Ht. specialize (H2 t Ht). lia.
  - intros c. rewrite Hb. apply H3.
  - intros c t x. rewrite Hb. apply H4.
  - intros c x. rewrite Hb. intros Hx. specialize (H5 c x Hx). lia.
Qed.
Lemma timesOk_append s s' i ts c0 d : timesOk s i ts -> now s' = now s ->
  (forall c, bufs c (procs s' i) = if decide (c = c0) then bufs c (procs s i) ++ [mkItem (now s) d] else bufs c (procs s i)) -> timesOk s' i ts.
Proof.
  intros (H1&H2&H3&H4&H5) Hn Hb.
  assert (Hin : forall c x, x ∈ bufs c (procs s' i) -> x ∈ bufs c (procs s i) \/ it_time x = now s).
  { intros c x. rewrite Hb. case_decide; [|by left]. rewrite elem_of_app, elem_of_list_singleton. intros [?| ->]; auto. }
  split_and!.
  - done.
  - intros t Ht. rewrite Hn. auto.
  - intros c. rewrite Hb. case_decide; [|apply H3]. rewrite map_app. cbn. apply ordered_snoc; [apply H3|].
    intros x Hx. apply elem_of_list_fmap in Hx as (y&->&Hy). by eapply H5.
  - intros c t x Ht Hx. destruct (Hin _ _ Hx) as [?| ->]; eauto.
  - intros c x Hx. rewrite Hn. destruct (Hin _ _ Hx) as [?| ->]; [eauto|lia].
Qed.
Lemma timesOk_direct s s' i ts : timesOk s i ts -> now s' = now s -> (forall c, bufs c (procs s i) = []) ->
  (forall c, bufs c (procs s' i) = []) -> timesOk s' i (ts ++ [now s]).
Proof.
  intros (H1&H2&H3&H4&H5) Hn Hb Hb'. split_and!.
  - by apply ordered_snoc.
  - intros t. rewrite Hn, elem_of_app, elem_of_list_singleton. intros [?| ->]; [auto|lia].
  - intros c. rewrite Hb'. intros ????? Hx. done.
  - intros c t x _. rewrite Hb'. by intros ?%elem_of_nil.
  - intros c x. rewrite Hb'. by intros ?%elem_of_nil.
Qed.

Lemma step_times n s l s' i ts : good n s -> step n s l s' -> timesOk s i ts -> timesOk s' i (ts ++ printTimes i l).
Proof.
  intros [Hsh Hd] Hst Hok. pose proof (step_now _ _ _ _ Hst) as Hnow.
  destruct Hst as [s l s' Hx|s t Ht|s e c0 d Hr Hn|s e c0 d rest Hr Hl Hn Hp Hb|s e c0 d rest Hr Hl Hn Hp Hb|s e c0 d Hc Hq Ha Hr Hb
    |s e c0 d Hc Hq Ha Hr Hb|s e Hc Hq Ha Hr|s e Hc Hq Hr|s e rest Hc Hq Ha|s e Hc Hq Ha Hr|s Hc Hq]; unfold printTimes; cbn [omap list_omap printTime].
  - destruct Hx as [s e rest c0 t d buf Hc Hn Hb|s e rest Hc Hn|s e b rest Hc Hb|s e b rest Hc Hb|s e rest Hc|s e rest Hc];
      cbn [omap list_omap printTime]; rewrite ?(right_id_L [] (++)); try done;
      try (eapply timesOk_same; [exact Hok|done|]; intros c; cbn; pcase i e; [by rewrite ?closePipes_bufs|done]).
    destruct (decide (e = i)) as [->|Hne].
    + destruct Hok as (H1&H2&H3&H4&H5). destruct (nextChan_Some _ _ Hn) as (it&l&Hit&Hmin).
      unfold bufs in Hit. rewrite Hb in Hit. injection Hit as <- <-. cbn in Hmin.
      assert (Hbufs : forall c, bufs c (procs (s <| procs ::= upd i (withChan c0 (fun ch => ch <| c_buffers := buf |>)) |>) i)
                     = if decide (c = c0) then buf else bufs c (procs s i)).
      { intros c. cbn. rewrite upd_same. unfold bufs. rewrite chanOf_withChan. by case_decide. }
      assert (Hc0 : bufs c0 (procs s i) = mkItem t d :: buf) by done.
      assert (Hsub : forall c x, x ∈ bufs c (procs (s <| procs ::= upd i (withChan c0 (fun ch => ch <| c_buffers := buf |>)) |>) i) -> x ∈ bufs c (procs s i)).
      { intros c x. rewrite Hbufs. case_decide; [|done]. subst. rewrite Hc0. intros. by right. }
      split_and!.
      * apply ordered_snoc; [done|]. intros x Hx. apply (H4 c0 x (mkItem t d)); [done|]. rewrite Hc0. by left.
      * intros x. cbn. rewrite elem_of_app, elem_of_list_singleton. intros [?| ->]; [auto|].
        apply (H5 c0 (mkItem t d)). rewrite Hc0. by left.
      * intros c. rewrite Hbufs. case_decide; [|apply H3]. subst. specialize (H3 c0). rewrite Hc0 in H3. by eapply ordered_tail.
      * intros c x y Hx Hy. apply elem_of_app in Hx as [Hx| ->%elem_of_list_singleton]; [eauto|].
        apply Hsub in Hy. destruct (bufs c (procs s i)) as [|z zs] eqn:Ez; [by apply elem_of_nil in Hy|].
        pose proof (Hmin c z zs Ez) as Hm. apply elem_of_cons in Hy as [->|Hy]; [done|].
        specialize (H3 c). rewrite Ez in H3. cbn in H3. pose proof (ordered_head _ _ (it_time y) H3 (elem_of_list_fmap_1 _ _ _ Hy)). lia.
      * intros c x Hx. cbn. eauto.
    + rewrite (right_id_L [] (++)). eapply timesOk_same; [exact Hok|done|]. intros c. cbn. by rewrite upd_other by done.
  - rewrite (right_id_L [] (++)). by eapply timesOk_same.
  - rewrite (right_id_L [] (++)). eapply timesOk_same; [exact Hok|done|]. intros c. cbn. pcase i e; [|done].
    unfold bufs. rewrite chanOf_withChan. by case_decide; subst.
  - rewrite (right_id_L [] (++)). destruct (decide (i = e)) as [->|Hne].
    + eapply (timesOk_append s _ e _ c0 d); [exact Hok|done|]. intros c. cbn. rewrite upd_same. unfold bufs. rewrite chanOf_withChan. by case_decide.
    + eapply timesOk_same; [exact Hok|done|]. intros c. cbn. by rewrite upd_other by done.
  - destruct (decide (e = i)) as [->|Hne].
    + eapply (timesOk_direct s); [exact Hok|done|by apply Hd|]. intros c. cbn. rewrite upd_same. pose proof (Hd i Hb Hl c) as Hz. unfold bufs in *.
      rewrite chanOf_withChan. by case_decide.
    + rewrite (right_id_L [] (++)). eapply timesOk_same; [exact Hok|done|]. intros c. cbn. by rewrite upd_other by done.
  - rewrite (right_id_L [] (++)). destruct (decide (i = e)) as [->|Hne].
    + eapply (timesOk_append s _ e _ c0 d); [exact Hok|done|]. intros c. cbn. rewrite upd_same. unfold bufs. rewrite chanOf_withChan. by case_decide.
    + eapply timesOk_same; [exact Hok|done|]. intros c. cbn. by rewrite upd_other by done.
  - assert (Hu : unlocked s) by (destruct Hsh as [? ? H|? ? ? H ?| | |?|?]; first [congruence|apply H]).
    destruct (decide (e = i)) as [->|Hne].
    + eapply (timesOk_direct s); [exact Hok|done| |]; apply Hd; auto.
    + by rewrite (right_id_L [] (++)).
  - rewrite (right_id_L [] (++)). eapply timesOk_same; [exact Hok|done|]. intros c. cbn. pcase i e; done.
  - rewrite (right_id_L [] (++)). eapply timesOk_same; [exact Hok|done|]. intros c. cbn. pcase i e; [by rewrite closePipes_bufs|done].
  - rewrite (right_id_L [] (++)). eapply timesOk_same; [exact Hok|done|]. intros c. cbn. pcase i e; done.
  - rewrite (right_id_L [] (++)). eapply timesOk_same; [exact Hok|done|]. intros c. cbn. unfold ps. pcase i e; done.
  - rewrite (right_id_L [] (++)). eapply timesOk_same; [exact Hok|done|]. done.
Qed.
Lemma run_times n ls s i : run n (start n) ls s -> timesOk s i (printTimes i ls).
Proof.
  intros H. pattern ls, s. eapply run_ind_r; [| |exact H]; clear ls s H.
  - assert (Hb : forall c, bufs c (procs (start n) i) = []).
    { intros c. cbn. pcase i 0%nat; by destruct c. }
    split_and!.
    + intros ????? Hx. done.
    + by intros t ?%elem_of_nil.
    + intros c. rewrite Hb. intros ????? Hx. done.
    + by intros c t x ?%elem_of_nil.
    + intros c x. rewrite Hb. by intros ?%elem_of_nil.
  - intros ls s l s' Hr IH Hst. rewrite printTimes_app. eapply step_times; [by eapply good_run|exact Hst|exact IH].
Qed.

(** * One printing is not interrupted by another one *)
Lemma app_split_mid {A} (ls l l1 l2 : list A) (x : A) : ls ++ l = l1 ++ x :: l2 ->
  (exists m, l2 = m ++ l /\ ls = l1 ++ x :: m) \/ (exists m, l1 = ls ++ m /\ l = m ++ x :: l2).
Proof.
  revert l1. induction ls as [|y ls IH]; intros l1 H; cbn in H.
  - right. exists l1. done.
  - destruct l1 as [|z l1]; cbn in H; injection H as -> H.
    + left. exists ls. subst. done.
    + destruct (IH _ H) as [(m&->&->)|(m&->&->)]; [left|right]; exists m; done.
Qed.

Definition isFlush (k e : nat) (l : label) : Prop := exists c d t, l = LPrint e c d t (Flushed k).
Definition onePrinting (ls : list label) : Prop :=
  forall k e e' l1 l2 l3 x y, ls = l1 ++ x :: l2 ++ y :: l3 -> isFlush k e x -> isFlush k e' y ->
    e' = e /\ Forall (mayComeBetween k e) l2.
Definition printingsOk (s : st) (ls : list label) : Prop :=
  onePrinting ls /\
  (forall k e x, x ∈ ls -> isFlush k e x -> (k <= flushes s)%nat) /\
  (forall e l1 x l2, ls = l1 ++ x :: l2 -> isFlush (flushes s) e x ->
     (exists rest, code s = IPrint e :: rest) /\ Forall (mayComeBetween (flushes s) e) l2).

Lemma step_print n s l s' : step n s l s' ->
  (exists e c d t rest, code s = IPrint e :: rest /\ code s' = code s /\ flushes s' = flushes s /\ l = [LPrint e c d t (Flushed (flushes s))]) \/
  (l = [] /\ exists e rest, code s = IPrint e :: rest /\ flushes s' = S (flushes s)) \/
  ((forall k e x, x ∈ l -> ~ isFlush k e x) /\ flushes s' = flushes s /\
   ((forall e rest, code s <> IPrint e :: rest) \/
    (code s' = code s /\ forall e c d t h, LPrint e c d t h ∈ l -> p_running (procs s e) = true /\ p_locked (procs s e) = false))).
Proof.
  intros Hst.
  assert (Hnil : code s = [] -> forall e rest, code s <> IPrint e :: rest) by congruence.
  destruct Hst as [s l s' Hx|s t Ht|s e c0 d Hr Hn|s e c0 d rest Hr Hl Hn Hp Hb|s e c0 d rest Hr Hl Hn Hp Hb|s e c0 d Hc Hq Ha Hr Hb
    |s e c0 d Hc Hq Ha Hr Hb|s e Hc Hq Ha Hr|s e Hc Hq Hr|s e rest Hc Hq Ha|s e Hc Hq Ha Hr|s Hc Hq].
  1: destruct Hx as [s e rest c0 t d buf Hc Hn Hb|s e rest Hc Hn|s e b rest Hc Hb|s e b rest Hc Hb|s e rest Hc|s e rest Hc].
  1: left; exists e, c0, d, t, rest; done.
  1: right; left; eauto.
  all: right; right; split_and!; try done;
    try (intros k e' x Hx; repeat (apply elem_of_cons in Hx as [->|Hx]; [intros (?&?&?&?); discriminate|]); by apply elem_of_nil in Hx).
  all: try (left; congruence).
  all: try (left; by apply Hnil).
  all: right; split; [done|]; intros e' c1 d1 t1 h Hx; repeat (apply elem_of_cons in Hx as [Hx|Hx]; [simplify_eq; done|]); by apply elem_of_nil in Hx.
Qed.

Lemma printings_step n s l s' ls : good n s -> step n s l s' -> printingsOk s ls -> printingsOk s' (ls ++ l).
Proof.
  intros [Hsh _] Hst (H1&H2&H3).
  destruct (step_print _ _ _ _ Hst) as [(e&c&d&t&rest&Hc&Hc'&Hf&->)|[[-> (e&rest&Hc&Hf)]|(Hno&Hf&Hor)]].
  - assert (Hnew : isFlush (flushes s) e (LPrint e c d t (Flushed (flushes s)))) by (repeat eexists).
    split_and!.
    + intros k e1 e2 l1 l2 l3 x y E Hx Hy. symmetry in E. symmetry in E. apply app_split_mid in E as [(m&E&->)|(m&->&E)].
      * symmetry in E. apply app_split_mid in E as [(m'&->&->)|(m'&->&E)].
        -- eapply H1; [|exact Hx|exact Hy]. done.
        -- destruct m' as [|? m']; [|by destruct m']. cbn in E. injection E as <- <-.
           destruct Hy as (?&?&?&[= -> -> -> -> <-]). rewrite (right_id_L [] (++)).
           destruct (H3 _ _ _ _ eq_refl Hx) as [[r' Hr'] ?]. rewrite Hc in Hr'. by injection Hr' as -> ->.
      * destruct m as [|? m]; cbn in E; [|by destruct m]. injection E as <- E. by destruct l2.
    + intros k e1 x Hx Hk. rewrite Hf. apply elem_of_app in Hx as [Hx|Hx]; [by eapply H2|].
      apply elem_of_list_singleton in Hx as ->. destruct Hk as (?&?&?&[= -> -> -> -> <-]). done.
    + intros e1 l1 x l2 E Hx. rewrite Hf in *. apply app_split_mid in E as [(m&->&->)|(m&->&E)].
      * destruct (H3 _ _ _ _ eq_refl Hx) as [[r' Hr'] Hall]. rewrite Hc in Hr'. injection Hr' as -> ->. split; [rewrite Hc'; eauto|].
        apply Forall_app_2; [done|]. constructor; [done|constructor].
      * destruct m as [|? m]; cbn in E; [|by destruct m]. injection E as <- <-. destruct Hx as (?&?&?&[= -> -> -> ->]).
        split; [rewrite Hc'; eauto|constructor].
  - rewrite (right_id_L [] (++)). split_and!.
    + done.
    + intros k e1 x Hx Hk. rewrite Hf. specialize (H2 _ _ _ Hx Hk). lia.
    + intros e1 l1 x l2 -> Hx. exfalso. rewrite Hf in Hx. enough (S (flushes s) <= flushes s)%nat by lia.
      eapply H2; [|exact Hx]. apply elem_of_app; right; by left.
  - split_and!.
    + intros k e1 e2 l1 l2 l3 x y E Hx Hy. apply app_split_mid in E as [(m&E&->)|(m&->&E)].
      * symmetry in E. apply app_split_mid in E as [(m'&->&->)|(m'&->&E)].
        -- eapply H1; [|exact Hx|exact Hy]. done.
        -- exfalso. eapply Hno; [|exact Hy]. rewrite E. apply elem_of_app; right; by left.
      * exfalso. eapply Hno; [|exact Hx]. rewrite E. apply elem_of_app; right; by left.
    + intros k e1 x Hx Hk. rewrite Hf. apply elem_of_app in Hx as [Hx|Hx]; [by eapply H2|]. by destruct (Hno _ _ _ Hx Hk).
    + intros e1 l1 x l2 E Hx. rewrite Hf in *. apply app_split_mid in E as [(m&->&->)|(m&->&E)].
      * destruct (H3 _ _ _ _ eq_refl Hx) as [[r' Hr'] Hall]. destruct Hor as [Hor|[Hc' Hor]]; [by destruct (Hor _ _ Hr')|].
        split; [rewrite Hc'; eauto|]. apply Forall_app_2; [done|]. apply Forall_forall. intros z Hz.
        destruct z as [| | |ez cz dz tz hz| | | | | | |]; try done. destruct (Hor _ _ _ _ _ Hz) as [Hrun Hlk].
        destruct hz as [|k]; cbn; [|exfalso; eapply Hno; [exact Hz|repeat eexists]].
        intros ->. destruct (shape_print _ _ _ _ Hsh Hr') as [?|?]; congruence.
      * exfalso. eapply Hno; [|exact Hx]. rewrite E. apply elem_of_app; right; by left.
Qed.
Lemma run_printings n ls s : run n (start n) ls s -> printingsOk s ls.
Proof.
  intros H. pattern ls, s. eapply run_ind_r; [| |exact H]; clear ls s H.
  - split_and!.
    + intros k e e' [|] l2 l3 x y E; done.
    + by intros k e x ?%elem_of_nil.
    + intros e [|] x l2 E; done.
  - intros ls s l s' Hr IH Hst. eapply printings_step; [by eapply good_run|exact Hst|exact IH].
Qed.

(** * What a command writes while its output is buffered *)
Lemma good_run_from n s ls s' : good n s -> run n s ls s' -> good n s'.
Proof. intros Hg H. revert Hg. induction H; [done|]. intros Hg. apply IHrun. by eapply good_step. Qed.
Lemma run_items_from n s ls s' i c : good n s -> run n s ls s' ->
  bufs c (procs s i) ++ handed i c ls = printed i c ls ++ bufs c (procs s' i).
Proof.
  intros Hg H. revert Hg. induction H as [s|s l s1 ls s2 H1 H2 IH]; intros Hg; [unfold handed, printed; cbn; by rewrite (right_id_L [] (++))|].
  rewrite handed_app, printed_app, (assoc_L (++)), (step_items _ _ _ _ _ _ Hg H1), <-!(assoc_L (++)). f_equal.
  apply IH. by eapply good_step.
Qed.
Lemma step_quitting n s l s' : step n s l s' -> quitting s' = false -> quitting s = false.
Proof. intros Hst. destruct Hst as [s l s' Hx| | | | | | | | | | |]; cbn; try done. destruct Hx; cbn; done. Qed.
Lemma run_quitting n s ls s' : run n s ls s' -> quitting s' = false -> quitting s = false.
Proof. induction 1; [done|]. intros Hq. eapply step_quitting; eauto. Qed.

Definition collecting (e : nat) (s : st) : Prop :=
  p_running (procs s e) = true /\ p_buffered (procs s e) = true /\ IPrint e ∉ code s.
Lemma notin_tail (i x : instr) l : i ∉ x :: l -> i ∉ l.
Proof. intros H1 H2. apply H1. by right. Qed.
Lemma sets_noprint e l : setsOnly l -> IPrint e ∉ l.
Proof. intros H Hin. unfold setsOnly in H. rewrite Forall_forall in H. destruct (H _ Hin) as (?&?&?). done. Qed.

Lemma collecting_step n s l s' e : good n s -> step n s l s' -> quitting s' = false -> collecting e s ->
  (forall b, LMode e b ∉ l) -> LProcEnd e ∉ l -> collecting e s' /\ forall c, printed e c l = [].
Proof.
  intros [Hsh Hd] Hst Hq' (H1&H2&H3) Hm He.
  destruct Hst as [s l s' Hx|s t Ht|s i c0 d Hr Hn|s i c0 d rest Hr Hl Hn Hp Hb|s i c0 d rest Hr Hl Hn Hp Hb|s i c0 d Hc Hq Ha Hr Hb
    |s i c0 d Hc Hq Ha Hr Hb|s i Hc Hq Ha Hr|s i Hc Hq Hr|s i rest Hc Hq Ha|s i Hc Hq Ha Hr|s Hc Hq].
  - destruct Hx as [s i rest c0 t d buf Hc Hn Hb|s i rest Hc Hn|s i b rest Hc Hb|s i b rest Hc Hb|s i rest Hc|s i rest Hc]; rewrite Hc in H3.
    + assert (Hie : i <> e). { intros ->. apply H3. by left. }
      split; [split_and!; cbn; rewrite ?upd_other by done; try done; by rewrite Hc|].
      intros c. unfold printed. cbn. rewrite decide_False; [done|]. naive_solver.
    + split; [|done]. split_and!; try done. cbn. by eapply notin_tail.
    + split; [|done]. split_and!; try done. cbn. by eapply notin_tail.
    + assert (Hie : e <> i). { intros ->. apply (Hm b). by left. }
      split; [|done]. split_and!; cbn; rewrite ?upd_other by done; try done. intros Hin.
      apply elem_of_app in Hin as [Hin|Hin]; [destruct b; [by apply elem_of_nil in Hin|apply elem_of_list_singleton in Hin; congruence]|].
      apply elem_of_cons in Hin as [?|Hin]; [done|]. by apply (notin_tail _ _ _ H3).
    + split; [|done]. split_and!; [cbn; pcase e i; done..|]. cbn. by eapply notin_tail.
    + exfalso. destruct Hsh as [? Hc' Hl|x ? Hc'|x rest' ? Hc'|x rest' ? Hc'|k Hq|k Hq]; try (rewrite Hc in Hc'); try done; [|cbn in Hq'; congruence..].
      inversion Hc' as [|?? (?&?&?)]; done.
  - done.
  - split; [|done]. destruct (withChan_flags c0 (fun ch => ch <| c_pipe ::= (fun x => x ++ d) |>) (procs s e)) as (Hf1&Hf2&Hf3&Hf4).
    split_and!; [..|done]; cbn; pcase e i; congruence.
  - split; [|done]. destruct (withChan_flags c0 (fun ch => mkChannel rest (c_buffers ch ++ [mkItem (now s) d])) (procs s e)) as (Hf1&Hf2&Hf3&Hf4).
    split_and!; [..|done]; cbn; pcase e i; congruence.
  - assert (Hie : i <> e) by congruence.
    split; [split_and!; cbn; rewrite ?upd_other by done; done|]. intros c. unfold printed. cbn. rewrite decide_False; [done|naive_solver].
  - assert (Hie : i <> e) by congruence. split; [split_and!; cbn; rewrite ?upd_other by done; done|]. done.
  - assert (Hie : i <> e) by congruence. split; [done|]. intros c. unfold printed. cbn. rewrite decide_False; [done|naive_solver].
  - split; [|done]. split_and!; [..|done]; cbn; pcase e i; done.
  - assert (Hie : i <> e). { intros ->. apply He. by left. }
    split; [|done]. split_and!; cbn; rewrite ?upd_other by done; try done. intros Hin%elem_of_list_singleton. congruence.
  - split; [|done]. split_and!; [..|done]; cbn; pcase e i; done.
  - split; [|done]. assert (Hie : i <> e) by congruence. split_and!; cbn; unfold ps; rewrite ?upd_other by done; try done.
    apply sets_noprint, setsOnly_passOn.
  - done.
Qed.
Lemma collecting_run n s ls s' e : good n s -> run n s ls s' -> quitting s' = false -> collecting e s ->
  (forall b, LMode e b ∉ ls) -> LProcEnd e ∉ ls -> collecting e s' /\ forall c, printed e c ls = [].
Proof.
  intros Hg H. revert Hg. induction H as [s|s l s1 ls s2 H1 H2 IH]; intros Hg Hq Hc Hm He; [done|].
  assert (Hq1 : quitting s1 = false) by (by eapply run_quitting).
  destruct (collecting_step _ _ _ _ e Hg H1 Hq1 Hc) as [Hc1 Hp1].
  { intros b Hb. apply (Hm b), elem_of_app. by left. } { intros Hb. apply He, elem_of_app. by left. }
  destruct IH as [Hc2 Hp2]; [by eapply good_step|done|done|..].
  { intros b Hb. apply (Hm b), elem_of_app. by right. } { intros Hb. apply He, elem_of_app. by right. }
  split; [done|]. intros c. by rewrite printed_app, Hp1, Hp2.
Qed.

Lemma flushes_le n s ls s' : run n s ls s' -> forall k e x, x ∈ ls -> isFlush k e x -> (flushes s <= k)%nat.
Proof.
  induction 1 as [s|s l s1 ls s2 H1 H2 IH]; intros k e x Hx Hk; [by apply elem_of_nil in Hx|].
  apply elem_of_app in Hx as [Hx|Hx].
  - destruct (step_print _ _ _ _ H1) as [(e'&c&d&t&rest&Hc&Hc'&Hf&->)|[[-> (e'&rest&Hc&Hf)]|(Hno&Hf&Hor)]].
    + apply elem_of_list_singleton in Hx as ->. destruct Hk as (?&?&?&[= -> -> -> -> <-]). done.
    + by apply elem_of_nil in Hx.
    + by destruct (Hno _ _ _ Hx Hk).
  - specialize (IH _ _ _ Hx Hk). destruct (step_print _ _ _ _ H1) as [(e'&c&d&t&rest&Hc&Hc'&Hf&->)|[[-> (e'&rest&Hc&Hf)]|(Hno&Hf&Hor)]]; lia.
Qed.
Lemma flushed_none k e c ls : (forall x, x ∈ ls -> ~ isFlush k e x) -> flushed k e c ls = [].
Proof.
  induction ls as [|l ls IH]; intros H; [done|]. unfold flushed in *. cbn.
  rewrite IH by (intros x Hx; apply H; by right).
  destruct l as [| | |e' c' d t h| | | | | | |]; try done. cbn. destruct h as [|k']; [done|]. rewrite decide_False; [done|].
  intros (->&->&->). eapply (H (LPrint e c d t (Flushed k))); [by left|]. repeat eexists.
Qed.

Lemma flush_all n s ls s' e c : run n s ls s' -> code s = [IPrint e] -> p_running (procs s e) = false -> code s' = [] ->
  flushed (flushes s) e c ls = bufs c (procs s e).
Proof.
  induction 1 as [s|s l s1 ls s2 H1 H2 IH]; intros Hc Hr Hc'; [congruence|]. rewrite flushed_app.
  destruct H1 as [s l s' Hx|s t Ht|s i c0 d Hr' Hn|s i c0 d rest Hr' Hl Hn Hp Hb|s i c0 d rest Hr' Hl Hn Hp Hb|s i c0 d Hc1 Hq Ha Hr' Hb
    |s i c0 d Hc1 Hq Ha Hr' Hb|s i Hc1 Hq Ha Hr'|s i Hc1 Hq Hr'|s i rest Hc1 Hq Ha|s i Hc1 Hq Ha Hr'|s Hc1 Hq]; try congruence.
  - destruct Hx as [s i rest c0 t d buf Hc1 Hn Hb|s i rest Hc1 Hn|s i b rest Hc1 Hb|s i b rest Hc1 Hb|s i rest Hc1|s i rest Hc1]; try congruence.
    + rewrite Hc in Hc1. injection Hc1 as <- <-. cbn in IH. rewrite upd_same in IH.
      destruct (withChan_flags c0 (fun ch => ch <| c_buffers := buf |>) (procs s e)) as (Hf1&Hf2&Hf3&Hf4).
      rewrite IH by (done || congruence). unfold flushed. cbn. unfold bufs. rewrite chanOf_withChan.
      destruct (decide (c = c0)) as [->|Hne]; [by rewrite decide_True, Hb|rewrite decide_False; [done|naive_solver]].
    + rewrite Hc in Hc1. injection Hc1 as <- <-. rewrite (nextChan_None _ Hn). cbn.
      apply flushed_none. intros x Hx Hk. pose proof (flushes_le _ _ _ _ H2 _ _ _ Hx Hk) as Hle. cbn in Hle. lia.
  - by apply IH.
  - assert (Hie : e <> i) by congruence. cbn in IH. rewrite upd_other in IH by done. by apply IH.
  - assert (Hie : e <> i) by congruence. cbn in IH. rewrite upd_other in IH by done. by apply IH.
  - assert (Hie : e <> i) by congruence. cbn in IH. rewrite upd_other in IH by done. by apply IH.
Qed.

Lemma command_output n l1 s1 e s2 l2 s3 l s4 l3 s5 :
  run n (start n) l1 s1 -> p_buffered (procs s1 e) = true -> step n s1 [LProcStart e] s2 ->
  run n s2 l2 s3 -> (forall b, LMode e b ∉ l2) -> LProcEnd e ∉ l2 ->
  step n s3 (LProcEnd e :: l) s4 -> run n s4 l3 s5 -> code s5 = [] ->
  (forall c, printed e c l2 = []) /\ forall c, flushed (flushes s4) e c l3 = bufs c (procs s1 e) ++ handed e c l2.
Proof.
  intros Hr1 Hb Hs1 Hr2 Hm He Hs2 Hr3 Hc.
  assert (Hg1 : good n s1) by (by eapply good_run). assert (Hg2 : good n s2) by (by eapply good_step).
  assert (collecting e s2 /\ forall c, bufs c (procs s2 e) = bufs c (procs s1 e)) as [Hc2 Hb2].
  { inversion Hs1 as [? ? ? Hx| | | | | | |? e0 Hc0 Hq0 Ha0 Hr0| | | |]; subst; [inversion Hx|].
    unfold collecting. cbn. rewrite upd_same. cbn. rewrite Hc0. split; [|done]. split_and!; [done|done|]. by intros ?%elem_of_nil. }
  assert (quitting s3 = false /\ code s4 = [IPrint e] /\ p_running (procs s4 e) = false /\ forall c, bufs c (procs s4 e) = bufs c (procs s3 e))
    as (Hq3&Hc4&Hr4&Hb4).
  { inversion Hs2 as [? ? ? Hx| | | | | | | |? e0 Hc0 Hq0 Hr0| | |]; subst; [inversion Hx|].
    cbn. rewrite upd_same. split_and!; try done. intros c. by rewrite closePipes_bufs. }
  destruct (collecting_run _ _ _ _ e Hg2 Hr2 Hq3 Hc2 Hm He) as [_ Hp]. split; [done|]. intros c.
  rewrite (flush_all _ _ _ _ _ _ Hr3 Hc4 Hr4 Hc), Hb4, <-Hb2.
  pose proof (run_items_from _ _ _ _ e c Hg2 Hr2) as Hit. rewrite Hp in Hit. by rewrite Hit.
Qed.

(** * Who writes directly *)
Definition availOk (n : nat) (s : st) : Prop :=
  NoDup (avail s) /\ (forall i, i ∈ avail s <-> (i < n)%nat /\ p_active (procs s i) = false) /\
  (forall i, p_active (procs s i) = true -> (i < n)%nat).

Lemma availOk_same n s s' : availOk n s -> avail s' = avail s -> (forall i, p_active (procs s' i) = p_active (procs s i)) -> availOk n s'.
Proof. intros (H1&H2&H3) Ha Hp. split_and!; [by rewrite Ha|intros i; by rewrite Ha, Hp|intros i; rewrite Hp; apply H3]. Qed.
Lemma withChan_active c f p : p_active (withChan c f p) = p_active p.
Proof. by destruct c, p. Qed.
Lemma availOk_step n s l s' : availOk n s -> step n s l s' -> availOk n s'.
Proof.
  intros Hok Hst.
  destruct Hst as [s l s' Hx|s t Ht|s e c0 d Hr Hn|s e c0 d rest Hr Hl Hn Hp Hb|s e c0 d rest Hr Hl Hn Hp Hb|s e c0 d Hc Hq Ha Hr Hb
    |s e c0 d Hc Hq Ha Hr Hb|s e Hc Hq Ha Hr|s e Hc Hq Hr|s e rest Hc Hq Ha|s e Hc Hq Ha Hr|s Hc Hq].
  1: destruct Hx as [s e rest c0 t d buf Hc Hn Hb|s e rest Hc Hn|s e b rest Hc Hb|s e b rest Hc Hb|s e rest Hc|s e rest Hc].
  all: try (eapply availOk_same; [exact Hok|done|]; intros i; cbn; try done; pcase i e; rewrite ?withChan_active; done).
  - destruct Hok as (H1&H2&H3). rewrite Ha in *. apply NoDup_cons in H1 as [H1 H1'].
    destruct (H2 e) as [He _]. destruct He as [He1 He2]; [by left|].
    split_and!; cbn.
    + done.
    + intros i. pcase i e; [naive_solver|]. rewrite <-H2. rewrite elem_of_cons. naive_solver.
    + intros i. pcase i e; [done|]. apply H3.
  - destruct Hok as (H1&H2&H3). assert (He : (e < n)%nat) by auto.
    assert (Hne : e ∉ avail s). { rewrite H2, Ha. naive_solver. }
    split_and!; cbn; unfold ps.
    + apply NoDup_app. split_and!; [done| |apply NoDup_singleton]. intros x Hx Hx'%elem_of_list_singleton. by subst.
    + intros i. rewrite elem_of_app, elem_of_list_singleton. pcase i e; [naive_solver|]. rewrite H2. naive_solver.
    + intros i. pcase i e; [done|]. apply H3.
Qed.
Lemma availOk_start n : availOk n (start n).
Proof.
  split_and!; cbn.
  - apply NoDup_ListNoDup, seq_NoDup.
  - intros i. rewrite elem_of_seq. assert (p_active (upd 0 (fun p => p <| p_buffered := false |>) (fun _ => newProc) i) = false) as ->
      by (by pcase i 0%nat). lia || naive_solver lia.
  - intros i. pcase i 0%nat; done.
Qed.
Lemma availOk_run n ls s : run n (start n) ls s -> availOk n s.
Proof. intros H. eapply (run_ind_r n (start n) (fun _ s => availOk n s)); [apply availOk_start| |exact H]. intros. by eapply availOk_step. Qed.

Lemma elem_of_actives n ps i : i ∈ actives n ps <-> (i < n)%nat /\ p_active (ps i) = true.
Proof. unfold actives. rewrite elem_of_list_filter, elem_of_seq. naive_solver lia. Qed.

(** The mode an executor will have when the code has been carried out. *)
Fixpoint eff (l : list instr) (i : nat) (b : bool) : bool :=
  match l with
  | [] => b
  | ISetBuffered j b' :: r => eff r i (if decide (i = j) then b' else b)
  | _ :: r => eff r i b
  end.
Definition finally (s : st) (i : nat) : bool := eff (code s) i (p_buffered (procs s i)).
(** Running, or next to be taken when nothing is running. *)
Definition inFront (s : st) (i : nat) : Prop :=
  p_active (procs s i) = true \/ (forall j, p_active (procs s j) = false) /\ exists rest, avail s = i :: rest.

Lemma eff_map L i b : i ∈ L -> eff (map (fun x => ISetBuffered x false) L) i b = false.
Proof.
  assert (Hf : forall L i, eff (map (fun x => ISetBuffered x false) L) i false = false).
  { induction L0 as [|x L0 IH]; intros j; [done|]. cbn. case_decide; apply IH. }
  revert b. induction L as [|x L IH]; intros b Hi; [by apply elem_of_nil in Hi|]. cbn.
  apply elem_of_cons in Hi as [->|Hi]; [rewrite decide_True by done; apply Hf|by apply IH].
Qed.

Lemma finally_exec s l s' i : exec1 s l s' -> finally s' i = finally s i.
Proof.
  intros Hx. unfold finally. destruct Hx as [s e rest c0 t d buf Hc Hn Hb|s e rest Hc Hn|s e b rest Hc Hb|s e b rest Hc Hb|s e rest Hc|s e rest Hc]; cbn; rewrite Hc; cbn.
  - pcase i e; [|done]. by destruct (withChan_flags c0 (fun ch => ch <| c_buffers := buf |>) (procs s e)) as (->&_).
  - done.
  - case_decide; by subst.
  - destruct (decide (i = e)) as [->|Hne]; [rewrite upd_same|rewrite upd_other by done]; by destruct b.
  - pcase i e; done.
  - pcase i e; done.
Qed.
Lemma active_exec s l s' : exec1 s l s' -> avail s' = avail s /\ forall i, p_active (procs s' i) = p_active (procs s i).
Proof.
  intros Hx. destruct Hx as [s e rest c0 t d buf Hc Hn Hb|s e rest Hc Hn|s e b rest Hc Hb|s e b rest Hc Hb|s e rest Hc|s e rest Hc]; split; try done; intros i; cbn;
    (pcase i e; rewrite ?withChan_active; done).
Qed.
Lemma front_same s s' i : avail s' = avail s -> (forall j, p_active (procs s' j) = p_active (procs s j)) -> inFront s i -> inFront s' i.
Proof.
  intros Ha Hp [H|[H1 [rest H2]]]; [left; by rewrite Hp|right]. split; [intros j; by rewrite Hp|]. exists rest. by rewrite Ha.
Qed.

Definition someFront (s : st) : Prop := quitting s = false -> exists i, inFront s i /\ finally s i = false.
Lemma someFront_same s s' : someFront s -> (quitting s' = false -> quitting s = false) -> avail s' = avail s ->
  (forall j, p_active (procs s' j) = p_active (procs s j)) -> (forall i, finally s' i = finally s i) -> someFront s'.
Proof.
  intros H Hq Ha Hp Hf Hq'. destruct (H (Hq Hq')) as (i&H1&H2). exists i. split; [by eapply front_same|by rewrite Hf].
Qed.
Lemma someFront_step n s l s' : availOk n s -> someFront s -> step n s l s' -> someFront s'.
Proof.
  intros Hav Hok Hst.
  destruct Hst as [s l s' Hx|s t Ht|s e c0 d Hr Hn|s e c0 d rest Hr Hl Hn Hp Hb|s e c0 d rest Hr Hl Hn Hp Hb|s e c0 d Hc Hq Ha Hr Hb
    |s e c0 d Hc Hq Ha Hr Hb|s e Hc Hq Ha Hr|s e Hc Hq Hr|s e rest Hc Hq Ha|s e Hc Hq Ha Hr|s Hc Hq].
  - destruct (active_exec _ _ _ Hx) as [Ha Hp]. eapply someFront_same; [exact Hok| |exact Ha|exact Hp|intros i; by eapply finally_exec].
    by destruct Hx.
  - done.
  - eapply someFront_same; [exact Hok|done|done|intros i; cbn; pcase i e; by rewrite ?withChan_active|].
    intros i. unfold finally. cbn. pcase i e; [|done]. f_equal. by destruct c0.
  - eapply someFront_same; [exact Hok|done|done|intros i; cbn; pcase i e; by rewrite ?withChan_active|].
    intros i. unfold finally. cbn. pcase i e; [|done]. f_equal. by destruct c0.
  - eapply someFront_same; [exact Hok|done|done|intros i; cbn; pcase i e; by rewrite ?withChan_active|].
    intros i. unfold finally. cbn. pcase i e; [|done]. f_equal. by destruct c0.
  - eapply someFront_same; [exact Hok|done|done|intros i; cbn; pcase i e; by rewrite ?withChan_active|].
    intros i. unfold finally. cbn. pcase i e; [|done]. f_equal. by destruct c0.
  - done.
  - eapply someFront_same; [exact Hok|done|done|intros i; cbn; by pcase i e|]. intros i. unfold finally. cbn. pcase i e; done.
  - eapply someFront_same; [exact Hok|done|done|intros i; cbn; by pcase i e|]. intros i. unfold finally. cbn. rewrite Hc. cbn. pcase i e; done.
  - intros _. destruct (Hok Hq) as (i&Hi&Hf). exists i. split.
    + left. cbn. pcase i e; [done|]. destruct Hi as [Hi|[_ [r Hi]]]; [done|]. rewrite Ha in Hi. congruence.
    + unfold finally in *. cbn. rewrite Hc in *. cbn in *. pcase i e; done.
  - intros _. destruct (Hok Hq) as (i&Hi&Hf). unfold finally in *. rewrite Hc in Hf. cbn in Hf.
    assert (Hia : p_active (procs s i) = true). { destruct Hi as [?|[Hi _]]; [done|]. by rewrite Hi in Ha. }
    destruct Hav as (H1&H2&H3). cbn. unfold passOn.
    assert (Hbe : p_buffered (ps e) = p_buffered (procs s e)) by (unfold ps; by rewrite upd_same). rewrite Hbe.
    destruct (p_buffered (procs s e)) eqn:Ebe.
    + exists i. assert (i <> e) by congruence. cbn. unfold ps. rewrite upd_other by done. split; [|done]. left. cbn. by rewrite upd_other.
    + destruct (actives n ps) as [|x L] eqn:EL.
      * destruct (avail s ++ [e]) as [|f r] eqn:Ef; [by destruct (avail s)|]. exists f. split.
        -- right. split; [|cbn; exists r; done]. intros j. cbn. destruct (p_active (ps j)) eqn:Ej; [|done]. exfalso.
           assert (j ∈ actives n ps) as Hj; [|rewrite EL in Hj; by apply elem_of_nil in Hj].
           apply elem_of_actives. split; [|done]. unfold ps in Ej. revert Ej. pcase j e; [done|apply H3].
        -- cbn. by rewrite (decide_True _ _ (eq_refl f)).
      * exists x. split.
        -- left. cbn. assert (x ∈ actives n ps) as Hx by (rewrite EL; by left). by apply elem_of_actives in Hx as [_ Hx].
        -- cbn [eff]. apply (eff_map (x :: L)). by left.
  - intros [=].
Qed.
Lemma someFront_run n ls s : (1 <= n)%nat -> run n (start n) ls s -> someFront s.
Proof.
  intros Hn H. eapply (run_ind_r n (start n) (fun _ s => someFront s)); [| |exact H].
  - intros _. exists 0%nat. split; [|done]. right. split; [intros j; cbn; by pcase j 0%nat|]. cbn. destruct n as [|n]; [lia|]. cbn. eauto.
  - intros ls1 s1 l s1' Hr IH Hst. eapply someFront_step; [by eapply availOk_run|exact IH|exact Hst].
Qed.

(** With at most two executors. *)
Definition noSets (l : list instr) : Prop := forall e b, ISetBuffered e b ∉ l.
Inductive oneOk (s : st) : Prop :=
| oo_plain : noSets (code s) -> (forall i j, p_buffered (procs s i) = false -> p_buffered (procs s j) = false -> i = j) -> oneOk s
| oo_pass e rest : code s = ISetBuffered e true :: rest -> (rest = [] \/ exists x, rest = [ISetBuffered x false]) ->
    (forall i, p_buffered (procs s i) = false -> i = e) -> oneOk s
| oo_none x : (code s = [ISetBuffered x false] \/ exists e, code s = [IUnlock e; ISetBuffered x false]) ->
    (forall i, p_buffered (procs s i) = true) -> oneOk s.
Lemma oneOk_unique s i j : oneOk s -> p_buffered (procs s i) = false -> p_buffered (procs s j) = false -> i = j.
Proof.
  intros [_ H|e rest _ _ H|x _ H] Hi Hj; [by apply H| |].
  - rewrite (H i Hi), (H j Hj). done.
  - rewrite H in Hi. done.
Qed.
Lemma oneOk_same s s' : oneOk s -> code s' = code s -> (forall i, p_buffered (procs s' i) = p_buffered (procs s i)) -> oneOk s'.
Proof.
  intros [H1 H2|e rest H1 H2 H3|x H1 H2] Hc Hb.
  - apply oo_plain; [by rewrite Hc|]. intros i j. rewrite !Hb. apply H2.
  - eapply (oo_pass _ e); [by rewrite Hc|done|]. intros i. rewrite Hb. apply H3.
  - eapply (oo_none _ x); [by rewrite Hc|]. intros i. rewrite Hb. apply H2.
Qed.
Lemma oneOk_nil s s' : oneOk s -> code s = [] -> noSets (code s') -> (forall i, p_buffered (procs s' i) = p_buffered (procs s i)) -> oneOk s'.
Proof.
  intros H Hc Hn Hb. apply oo_plain; [done|]. intros i j. rewrite !Hb. by apply oneOk_unique.
Qed.
Lemma noSets_nil : noSets [].
Proof. by intros e b ?%elem_of_nil. Qed.
Lemma noSets_tail x l : noSets (x :: l) -> noSets l.
Proof. intros H e b Hin. apply (H e b). by right. Qed.

Lemma oneOk_exec s l s' : oneOk s -> exec1 s l s' -> oneOk s'.
Proof.
  intros Hok Hx. destruct Hx as [s e rest c0 t d buf Hc Hn Hb|s e rest Hc Hn|s e b rest Hc Hb|s e b rest Hc Hb|s e rest Hc|s e rest Hc].
  - eapply oneOk_same; [exact Hok|done|]. intros i. cbn. pcase i e; [|done]. by destruct c0.
  - destruct Hok as [H1 H2|e' rest' H1 H2 H3|x H1 H2]; [|congruence|destruct H1 as [?|[??]]; congruence].
    apply oo_plain; [|done]. cbn. rewrite Hc in H1. by eapply noSets_tail.
  - destruct Hok as [H1 H2|e' rest' H1 H2 H3|x H1 H2].
    + exfalso. apply (H1 e b). rewrite Hc. by left.
    + rewrite Hc in H1. injection H1 as -> -> ->. destruct H2 as [->|[x ->]].
      * apply oo_plain; [apply noSets_nil|]. intros i j Hi Hj. cbn in *. rewrite (H3 i Hi), (H3 j Hj). done.
      * eapply (oo_none _ x); [by left|]. intros i. cbn. destruct (p_buffered (procs s i)) eqn:Ei; [done|].
        rewrite (H3 i Ei) in Ei. congruence.
    + destruct H1 as [H1|[? H1]]; rewrite Hc in H1; [|done]. injection H1 as -> -> ->. by rewrite H2 in Hb.
  - destruct Hok as [H1 H2|e' rest' H1 H2 H3|x H1 H2].
    + exfalso. apply (H1 e b). rewrite Hc. by left.
    + rewrite Hc in H1. injection H1 as -> -> ->.
      assert (Hall : forall i, p_buffered (upd e' (fun p => p <| p_locked := true |> <| p_buffered := true |>) (procs s) i) = true).
      { intros i. pcase i e'; [done|]. destruct (p_buffered (procs s i)) eqn:Ei; [done|]. by apply H3 in Ei. }
      destruct H2 as [->|[x ->]].
      * apply oo_plain; [by intros ??[[=]|?%elem_of_nil]%elem_of_cons|]. intros i j Hi. cbn in Hi. by rewrite Hall in Hi.
      * eapply (oo_none _ x); [right; by exists e'|]. exact Hall.
    + destruct H1 as [H1|[? H1]]; rewrite Hc in H1; [|done]. injection H1 as -> -> ->. apply oo_plain; cbn.
      * intros ?? [[=]|[[=]|?%elem_of_nil]%elem_of_cons]%elem_of_cons. done.
      * intros i j. pcase i x; [|by rewrite H2]. pcase j x; [done|]. by rewrite H2.
  - assert (Hb : forall i, p_buffered (upd e (fun p => p <| p_locked := false |>) (procs s) i) = p_buffered (procs s i)) by (intros i; by pcase i e).
    destruct Hok as [H1 H2|e' rest' H1 H2 H3|x H1 H2]; [|congruence|].
    + apply oo_plain; cbn; [rewrite Hc in H1; by eapply noSets_tail|]. intros i j. rewrite !Hb. apply H2.
    + destruct H1 as [H1|[? H1]]; rewrite Hc in H1; [done|]. injection H1 as -> ->. eapply (oo_none _ x); [by left|]. intros i. cbn. rewrite Hb. apply H2.
  - assert (Hb : forall i, p_buffered (upd e closePipes (procs s) i) = p_buffered (procs s i)) by (intros i; by pcase i e).
    destruct Hok as [H1 H2|e' rest' H1 H2 H3|x H1 H2]; [|congruence|destruct H1 as [?|[??]]; congruence].
    apply oo_plain; cbn; [rewrite Hc in H1; by eapply noSets_tail|]. intros i j. rewrite !Hb. apply H2.
Qed.
Lemma actives_two n ps e : (n <= 2)%nat -> (e < n)%nat -> p_active (ps e) = false -> actives n ps = [] \/ exists x, actives n ps = [x].
Proof.
  intros Hn He Hp. unfold actives. destruct n as [|[|[|n]]]; [lia| | |lia]; cbn [seq].
  - assert (e = 0)%nat as -> by lia. rewrite filter_cons_False by congruence. by left.
  - destruct e as [|[|e]]; [| |lia].
    + rewrite filter_cons_False by congruence. destruct (decide (p_active (ps 1%nat) = true)).
      * rewrite filter_cons_True by done. right. eauto.
      * rewrite filter_cons_False by done. by left.
    + destruct (decide (p_active (ps 0%nat) = true)).
      * rewrite filter_cons_True by done. rewrite filter_cons_False by congruence. right. eauto.
      * rewrite filter_cons_False by done. rewrite filter_cons_False by congruence. by left.
Qed.
Lemma oneOk_step n s l s' : (n <= 2)%nat -> availOk n s -> oneOk s -> step n s l s' -> oneOk s'.
Proof.
  intros Hn2 Hav Hok Hst.
  destruct Hst as [s l s' Hx|s t Ht|s e c0 d Hr Hn|s e c0 d rest Hr Hl Hn Hp Hb|s e c0 d rest Hr Hl Hn Hp Hb|s e c0 d Hc Hq Ha Hr Hb
    |s e c0 d Hc Hq Ha Hr Hb|s e Hc Hq Ha Hr|s e Hc Hq Hr|s e rest Hc Hq Ha|s e Hc Hq Ha Hr|s Hc Hq].
  - by eapply oneOk_exec.
  - eapply oneOk_same; [exact Hok|done|done].
  - eapply oneOk_same; [exact Hok|done|]. intros i. cbn. pcase i e; [|done]. by destruct c0.
  - eapply oneOk_same; [exact Hok|done|]. intros i. cbn. pcase i e; [|done]. by destruct c0.
  - eapply oneOk_same; [exact Hok|done|]. intros i. cbn. pcase i e; [|done]. by destruct c0.
  - eapply oneOk_same; [exact Hok|done|]. intros i. cbn. pcase i e; [|done]. by destruct c0.
  - done.
  - eapply oneOk_same; [exact Hok|done|]. intros i. cbn. by pcase i e.
  - eapply oneOk_nil; [exact Hok|done| |intros i; cbn; by pcase i e]. by intros ??[=]%elem_of_list_singleton.
  - eapply oneOk_same; [exact Hok|done|]. intros i. cbn. by pcase i e.
  - assert (Hbs : forall i, p_buffered (ps i) = p_buffered (procs s i)) by (intros i; unfold ps; by pcase i e).
    destruct (p_buffered (ps e)) eqn:Ee.
    + eapply oneOk_nil; [exact Hok|done|cbn; unfold passOn; rewrite Ee; apply noSets_nil|done].
    + assert (He : (e < n)%nat) by (destruct Hav as (_&_&H3); auto).
      assert (Hpe : p_active (ps e) = false) by (unfold ps; by rewrite upd_same).
      eapply (oo_pass _ e); [cbn; unfold passOn; by rewrite Ee| |].
      * destruct (actives_two n ps e Hn2 He Hpe) as [->|[x ->]]; [|right; by exists x]. destruct (avail s ++ [e]); [by left|right; eauto].
      * intros i. cbn. rewrite Hbs. intros Hi. rewrite Hbs in Ee. by eapply oneOk_unique.
  - eapply oneOk_nil; [exact Hok|done| |done]. cbn. intros i b Hin. apply elem_of_list_In, in_flat_map in Hin as (x&_&[[=]|[[=]|[]]]).
Qed.
Lemma oneOk_run n ls s : (n <= 2)%nat -> run n (start n) ls s -> oneOk s.
Proof.
  intros Hn H. eapply (run_ind_r n (start n) (fun _ s => oneOk s)); [| |exact H].
  - apply oo_plain; [apply noSets_nil|]. intros i j. cbn. pcase i 0%nat; [|done]. pcase j 0%nat; done.
  - intros ls1 s1 l s1' Hr IH Hst. eapply oneOk_step; [done|by eapply availOk_run|exact IH|exact Hst].
Qed.
