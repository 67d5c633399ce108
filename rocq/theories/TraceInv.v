(** The commands of the running targets, as the history shows them. *)
From stdpp Require Import prelude gmap.
From Verif Require Import Base Data Infer UpToDate Graph Exec ExecSpec GraphProofs PruneProofs SchedInv.

Lemma split_tail {A} (l : list A) : forall evs pre e post, evs ++ l = pre ++ e :: post -> e ∉ l ->
  exists post', post = post' ++ l /\ evs = pre ++ e :: post'.
Proof.
  induction l as [|x l IH] using rev_ind; intros evs pre e post H Hn.
  - rewrite app_nil_r in H. exists post. by rewrite app_nil_r.
  - rewrite app_assoc in H. apply snoc_split in H as [(-> & -> & ->)|(post' & -> & H)].
    + exfalso. apply Hn. set_solver.
    + destruct (IH _ _ _ _ H) as (post'' & -> & ->); [set_solver|]. exists post''. by rewrite app_assoc.
Qed.

Lemma split_app {A} (l : list A) : forall evs pre e post, evs ++ l = pre ++ e :: post ->
  (exists post', post = post' ++ l /\ evs = pre ++ e :: post') \/ (exists pre', pre = evs ++ pre' /\ l = pre' ++ e :: post).
Proof.
  induction evs as [|x evs IH]; intros pre e post H.
  - right. by exists pre.
  - destruct pre as [|y pre]; cbn in H; injection H as -> H.
    + left. exists evs. done.
    + destruct (IH _ _ _ H) as [(post' & -> & ->)|(pre' & -> & ->)]; [left; by exists post'|right; by exists pre'].
Qed.

Lemma cmdEventsOf_app t a b : cmdEventsOf t (a ++ b) = cmdEventsOf t a ++ cmdEventsOf t b.
Proof. apply List.filter_app. Qed.
Lemma cmdEventsOf_all t l : Forall (fun e => aboutCmds t e = true) l -> cmdEventsOf t l = l.
Proof. induction 1 as [|e l He Hl IH]; [done|]. unfold cmdEventsOf. cbn. rewrite He. f_equal. exact IH. Qed.
Lemma cmdEventsOf_none t l : Forall (fun e => aboutCmds t e = false) l -> cmdEventsOf t l = [].
Proof. induction 1 as [|e l He Hl IH]; [done|]. unfold cmdEventsOf. cbn. rewrite He. exact IH. Qed.
Lemma about_other t x l : x <> t -> Forall (fun e => aboutCmds t e = true) l -> cmdEventsOf x l = [].
Proof.
  intros Hne Hl. apply cmdEventsOf_none. eapply Forall_impl; [exact Hl|]. intros [] H; cbn in *; try done;
    apply bool_decide_eq_true in H; apply bool_decide_eq_false; congruence.
Qed.
Lemma about_cmdEvent t l : Forall (fun e => aboutCmds t e = true) l -> Forall cmdEvent l.
Proof. intros Hl. eapply Forall_impl; [exact Hl|]. by intros []. Qed.

Section Trace.
Context (kind : command -> ckind).
Notation ranTo := (ranTo kind).

Lemma ranTo_about t cmds l st : ranTo t cmds l st -> Forall (fun e => aboutCmds t e = true) l.
Proof. induction 1; repeat constructor; cbn; try (by apply bool_decide_eq_true); done. Qed.
Lemma ranTo_go t cmds tr c rest code l st : ranTo t cmds tr (Running (c :: rest)) -> (seenCode kind c code <= c_max c)%N ->
  ranTo t rest l st -> ranTo t cmds (tr ++ LExit t c code :: l) st.
Proof.
  intros H. remember (Running (c :: rest)) as st0 eqn:E. revert E. induction H; intros E Hc Hl; try done.
  - injection E as -> ->. cbn. by constructor.
  - cbn. constructor; [done|]. auto.
Qed.
Lemma ranTo_stop t cmds tr c rest code : ranTo t cmds tr (Running (c :: rest)) -> (c_max c < seenCode kind c code)%N ->
  ranTo t cmds (tr ++ [LExit t c code]) (Finished true).
Proof.
  intros H. remember (Running (c :: rest)) as st0 eqn:E. revert E. induction H; intros E Hc; try done.
  - injection E as -> ->. cbn. by constructor.
  - cbn. constructor; [done|]. auto.
Qed.

(** What holds of the commands in the history of a pass; [P] tells about the targets not finished. *)
Definition stOk (P : tid -> tstatus -> Prop) (t : tid) (post : list logev) (st : tstatus) : Prop :=
  match st with Finished f => LEnd t f ∈ post | _ => P t st end.
Record TI (P : tid -> tstatus -> Prop) (evs : list logev) : Prop := {
  ti_start : forall pre t cmds post, evs = pre ++ LStart t cmds :: post ->
    cmdEventsOf t pre = [] /\ exists st, ranTo t cmds (cmdEventsOf t post) st /\ stOk P t post st;
  ti_only : forall t, cmdEventsOf t evs <> [] -> started evs t;
  ti_last : forall pre t f post, evs = pre ++ LEnd t f :: post -> cmdEventsOf t post = [];
}.

Lemma TI_nil P : TI P [].
Proof. split; [|done|]; intros; exfalso; by eapply app_cons_not_nil. Qed.

Lemma TI_mono (P Q : tid -> tstatus -> Prop) evs : (forall t st, P t st -> Q t st) -> TI P evs -> TI Q evs.
Proof.
  intros H [T1 T2 T3]. split; [|done|done]. intros pre t cmds post E. destruct (T1 pre t cmds post E) as (H1 & st & H2 & H3).
  split; [done|]. exists st. split; [done|]. destruct st; cbn in *; auto.
Qed.

(** Events that have nothing to do with commands. *)
Definition plain (e : logev) : Prop :=
  match e with LStart _ _ | LCmd _ _ | LExit _ _ _ => False | _ => True end.
Lemma TI_plain P evs l : Forall plain l -> TI P evs -> TI P (evs ++ l).
Proof.
  intros Hl [T1 T2 T3]. assert (forall t, cmdEventsOf t l = []) as Hc.
  { intros t. apply cmdEventsOf_none. eapply Forall_impl; [exact Hl|]. by intros []. }
  split.
  - intros pre t cmds post H. apply split_tail in H as (post' & -> & H).
    2: { intros Hin. rewrite Forall_forall in Hl. by apply Hl in Hin. }
    destruct (T1 _ _ _ _ H) as (H1 & st & H2 & H3). split; [done|]. exists st. rewrite cmdEventsOf_app, Hc, app_nil_r.
    split; [done|]. destruct st; cbn in *; [done|done|]. apply elem_of_app. by left.
  - intros t. rewrite cmdEventsOf_app, Hc, app_nil_r. intros H. apply started_app. left. auto.
  - intros pre t f post [(post' & -> & H)|(pre' & -> & H)]%split_app.
    + rewrite cmdEventsOf_app, Hc, app_nil_r. by eapply T3.
    + specialize (Hc t). rewrite H, cmdEventsOf_app in Hc. apply app_eq_nil in Hc as [_ Hc]. exact Hc.
Qed.

(** A running target goes on. *)
Lemma TI_extend (P Q : tid -> tstatus -> Prop) evs t l :
  TI P evs -> Forall (fun e => aboutCmds t e = true) l -> started evs t ->
  (forall x st, x <> t -> P x st -> Q x st) -> not (dealtWith evs t) ->
  (forall cmds tr st, ranTo t cmds tr st -> P t st -> exists st', ranTo t cmds (tr ++ l) st' /\ Q t st') ->
  (forall f, not (Q t (Finished f))) ->
  TI Q (evs ++ l).
Proof.
  intros [T1 T2 T3] Hl Hst Hother Hnd Hgo HnF. split.
  - intros pre x cmds post H. apply split_tail in H as (post' & -> & H).
    2: { intros Hin. rewrite Forall_forall in Hl. by apply Hl in Hin. }
    destruct (T1 _ _ _ _ H) as (H1 & st & H2 & H3). split; [done|]. rewrite cmdEventsOf_app.
    destruct (decide (x = t)) as [->|Hne].
    + rewrite (cmdEventsOf_all t l Hl).
      assert (P t st) as HP.
      { destruct st; cbn in H3; [done|done|]. exfalso. apply Hnd. left. exists failed. rewrite H. apply elem_of_app. right. by right. }
      destruct (Hgo _ _ _ H2 HP) as (st' & Hr & HQ). exists st'. split; [done|].
      destruct st'; cbn; try done. exfalso. by eapply HnF.
    + rewrite (about_other t x l Hne Hl), app_nil_r. exists st. split; [done|].
      destruct st; cbn in *; eauto. apply elem_of_app. by left.
  - intros x. rewrite cmdEventsOf_app. intros Hx. apply started_app. left. destruct (decide (x = t)) as [->|Hne]; [done|].
    apply T2. by rewrite (about_other t x l Hne Hl), app_nil_r in Hx.
  - intros pre x f post H. apply split_tail in H as (post' & -> & H).
    2: { intros Hin. rewrite Forall_forall in Hl. by apply Hl in Hin. }
    assert (x <> t) as Hne. { intros ->. apply Hnd. left. exists f. rewrite H. apply elem_of_app. right. by left. }
    rewrite cmdEventsOf_app, (about_other t x l Hne Hl), app_nil_r. by eapply T3.
Qed.
(** ... to its end. *)
Lemma TI_finish (P Q : tid -> tstatus -> Prop) evs t l f :
  TI P evs -> Forall (fun e => aboutCmds t e = true) l -> started evs t ->
  (forall x st, x <> t -> P x st -> Q x st) -> not (dealtWith evs t) ->
  (forall cmds tr st, ranTo t cmds tr st -> P t st -> ranTo t cmds (tr ++ l) (Finished f)) ->
  TI Q (evs ++ l ++ [LEnd t f]).
Proof.
  intros [T1 T2 T3] Hl Hst Hother Hnd Hgo.
  assert (forall x, cmdEventsOf x [LEnd t f] = []) as He by done. split.
  - intros pre x cmds post H. apply split_tail in H as (post' & -> & H).
    2: { intros [Hin|Hin]%elem_of_app; [|set_solver]. rewrite Forall_forall in Hl. by apply Hl in Hin. }
    destruct (T1 _ _ _ _ H) as (H1 & st & H2 & H3). split; [done|]. rewrite !cmdEventsOf_app, He, app_nil_r.
    destruct (decide (x = t)) as [->|Hne].
    + rewrite (cmdEventsOf_all t l Hl).
      assert (P t st) as HP.
      { destruct st; cbn in H3; [done|done|]. exfalso. apply Hnd. left. exists failed. rewrite H. apply elem_of_app. right. by right. }
      exists (Finished f). split; [by eapply Hgo|]. cbn. rewrite !elem_of_app. right. right. by left.
    + rewrite (about_other t x l Hne Hl), app_nil_r. exists st. split; [done|].
      destruct st; cbn in *; eauto. apply elem_of_app. by left.
  - intros x. rewrite !cmdEventsOf_app, He, app_nil_r. intros Hx. apply started_app. left. destruct (decide (x = t)) as [->|Hne]; [done|].
    apply T2. by rewrite (about_other t x l Hne Hl), app_nil_r in Hx.
  - intros pre x f' post H. rewrite app_assoc in H. apply snoc_split in H as [(-> & _ & _)|(post0 & -> & H)]; [done|].
    apply split_tail in H as (post' & -> & H).
    2: { intros Hin. rewrite Forall_forall in Hl. by apply Hl in Hin. }
    assert (x <> t) as Hne. { intros ->. apply Hnd. left. exists f'. rewrite H. apply elem_of_app. right. by left. }
    rewrite !cmdEventsOf_app, He, (about_other t x l Hne Hl), !app_nil_r. by eapply T3.
Qed.
(** A target is started. *)
Lemma TI_begin (P : tid -> tstatus -> Prop) evs t cmds : TI P evs -> not (started evs t) ->
  TI (fun x st => (x <> t /\ P x st) \/ (x = t /\ st = match cmds with [] => Finished false | _ => Stopped cmds end))
     (evs ++ [LStart t cmds]) \/ cmds = [].
Proof.
  intros [T1 T2 T3] Hns. destruct cmds as [|c cs]; [by right|left].
  assert (cmdEventsOf t evs = []) as Hcl.
  { destruct (cmdEventsOf t evs) eqn:E; [done|]. exfalso. apply Hns, T2. by rewrite E. }
  split.
  - intros pre x cmds post H. apply snoc_split in H as [(-> & -> & [= <- <-])|(post' & -> & H)].
    + split; [done|]. exists (Stopped (c :: cs)). split; [constructor|]. cbn. right. done.
    + destruct (T1 _ _ _ _ H) as (H1 & st & H2 & H3). split; [done|]. exists st.
      rewrite cmdEventsOf_app. replace (cmdEventsOf x [LStart t (c :: cs)]) with (@nil logev) by done. rewrite app_nil_r.
      split; [done|]. assert (x <> t) as Hne.
      { intros ->. apply Hns. exists cmds. rewrite H. apply elem_of_app. right. by left. }
      destruct st; cbn in *; auto. apply elem_of_app. by left.
  - intros x. rewrite cmdEventsOf_app. replace (cmdEventsOf x [LStart t (c :: cs)]) with (@nil logev) by done.
    rewrite app_nil_r. intros H. apply started_app. left. auto.
  - intros pre x f post H. apply snoc_split in H as [(_ & _ & [=])|(post' & -> & H)].
    rewrite cmdEventsOf_app. replace (cmdEventsOf x [LStart t (c :: cs)]) with (@nil logev) by done. rewrite app_nil_r. by eapply T3.
Qed.

(** *** How many commands run at once *)
Definition bounded (n : nat) (log : list logev) : Prop :=
  forall pre, pre `prefix_of` log -> NoDup (cmdsRunning pre) /\ length (cmdsRunning pre) <= n.
Lemma cmdsRunning_snoc log e : cmdsRunning (log ++ [e]) =
  match e with LCmd t _ => t :: cmdsRunning log | LExit t _ _ => removeOne t (cmdsRunning log) | _ => cmdsRunning log end.
Proof. unfold cmdsRunning. by rewrite fold_left_app. Qed.
Lemma prefix_snoc {A} (pre l : list A) x : pre `prefix_of` l ++ [x] -> pre `prefix_of` l \/ pre = l ++ [x].
Proof.
  intros [k Hk]. destruct k as [|y k _] using rev_ind.
  - right. by rewrite app_nil_r in Hk.
  - left. exists k. rewrite app_assoc in Hk. by apply app_inj_tail in Hk as [-> _].
Qed.
Lemma bounded_snoc n log e : bounded n log -> NoDup (cmdsRunning (log ++ [e])) -> length (cmdsRunning (log ++ [e])) <= n ->
  bounded n (log ++ [e]).
Proof. intros H H1 H2 pre [Hp| ->]%prefix_snoc; [by apply H|done]. Qed.
Lemma bounded_cur n log : bounded n log -> NoDup (cmdsRunning log) /\ length (cmdsRunning log) <= n.
Proof. intros H. by apply H. Qed.
Lemma removeOne_length x l : length (removeOne x l) <= length l.
Proof. induction l as [|y l IH]; cbn; [lia|]. destruct (decide _); cbn; lia. Qed.
Lemma bounded_exit n log t c code : bounded n log -> bounded n (log ++ [LExit t c code]).
Proof.
  intros H. destruct (bounded_cur _ _ H) as [H1 H2]. apply bounded_snoc; [done|..]; rewrite cmdsRunning_snoc.
  - by apply removeOne_nodup.
  - pose proof (removeOne_length t (cmdsRunning log)). lia.
Qed.
Lemma noCmd_running log l : Forall (fun e => not (cmdEvent e)) l -> cmdsRunning (log ++ l) = cmdsRunning log.
Proof.
  intros Hl. revert log. induction Hl as [|e l He Hl IH]; intros log; [by rewrite app_nil_r|].
  replace (log ++ e :: l) with ((log ++ [e]) ++ l) by by rewrite <- app_assoc. rewrite IH, cmdsRunning_snoc.
  by destruct e; try done; exfalso; apply He.
Qed.
Lemma noCmd_bounded n log l : Forall (fun e => not (cmdEvent e)) l -> bounded n log -> bounded n (log ++ l).
Proof.
  intros Hl. revert log. induction Hl as [|e l He Hl IH]; intros log H; [by rewrite app_nil_r|].
  replace (log ++ e :: l) with ((log ++ [e]) ++ l) by by rewrite <- app_assoc. apply IH.
  destruct (bounded_cur n log H) as [H1 H2].
  assert (cmdsRunning (log ++ [e]) = cmdsRunning log) as Hr by (apply noCmd_running; by constructor).
  apply bounded_snoc; rewrite ?Hr; done.
Qed.
Lemma ranTo_bounded n t cmds l st : ranTo t cmds l st -> forall log, bounded n log -> t ∉ cmdsRunning log ->
  length (cmdsRunning log) < n ->
  bounded n (log ++ l) /\ cmdsRunning (log ++ l) = match st with Running _ => t :: cmdsRunning log | _ => cmdsRunning log end.
Proof.
  assert (forall log c, bounded n log -> t ∉ cmdsRunning log -> length (cmdsRunning log) < n -> bounded n (log ++ [LCmd t c])) as Hcmd.
  { intros log c H Hn Hl. destruct (bounded_cur _ _ H) as [H1 H2]. apply bounded_snoc; [done|..]; rewrite cmdsRunning_snoc; cbn.
    - by constructor.
    - lia. }
  assert (forall log c code, cmdsRunning ((log ++ [LCmd t c]) ++ [LExit t c code]) = cmdsRunning log) as Hback.
  { intros. rewrite !cmdsRunning_snoc. cbn. by destruct (decide (t = t)). }
  induction 1 as [|c cs|c cs|c cs code Hc|c cs code evs st Hc Hr IH]; intros log H Hn Hl.
  - by rewrite app_nil_r.
  - by rewrite app_nil_r.
  - split; [by apply Hcmd|]. by rewrite cmdsRunning_snoc.
  - replace (log ++ [LCmd t c; LExit t c code]) with ((log ++ [LCmd t c]) ++ [LExit t c code]) by by rewrite <- app_assoc.
    split; [|apply Hback]. by apply bounded_exit, Hcmd.
  - replace (log ++ LCmd t c :: LExit t c code :: evs) with (((log ++ [LCmd t c]) ++ [LExit t c code]) ++ evs)
      by by rewrite <- !app_assoc.
    destruct (IH ((log ++ [LCmd t c]) ++ [LExit t c code])) as [I1 I2].
    + by apply bounded_exit, Hcmd.
    + by rewrite Hback.
    + by rewrite Hback.
    + split; [done|]. by rewrite I2, Hback.
Qed.

(** *** runCmds does what [ranTo] says *)
Lemma runCmds_spec t cmds : forall codes launch res, runCmds kind t cmds codes launch = Some res ->
  match res with
  | RDone f l => ranTo t cmds l (Finished f)
  | RProc rest l => ranTo t cmds l (Running rest) /\ exists c cs, rest = c :: cs /\ kind c = KProcess
  | RFatal l => exists rest, ranTo t cmds l (Stopped rest)
  end.
Proof.
  induction cmds as [|c cmds IH]; intros codes launch res; cbn [runCmds].
  - destruct codes; [|done]. intros [= <-]. constructor.
  - destruct (kind c) as [|allowed] eqn:Ek.
    + destruct codes; [|done]. intros [= <-]. destruct launch; [|eexists; constructor]. split; [constructor|eauto].
    + destruct codes as [|k codes]; [done|]. destruct (existsb (N.eqb k) allowed); [|done].
      assert (seenCode kind c k = k) as Hs by (unfold seenCode; by rewrite Ek).
      destruct (c_max c <? k)%N eqn:Em.
      * apply N.ltb_lt in Em. destruct codes; [|done]. intros [= <-]. constructor. by rewrite Hs.
      * apply N.ltb_ge in Em. destruct (runCmds kind t cmds codes launch) as [res'|] eqn:Er; [|done]. intros [= <-].
        specialize (IH _ _ _ Er). destruct res'; cbn.
        -- constructor; [by rewrite Hs|done].
        -- destruct IH. split; [|done]. constructor; [by rewrite Hs|done].
        -- destruct IH as [rest0 IH]. exists rest0. constructor; [by rewrite Hs|done].
Qed.
Lemma effective_seen c code : kind c = KProcess -> effectiveCode code = seenCode kind c code.
Proof.
  intros Ek. unfold seenCode. rewrite Ek. unfold effectiveCode. change (2 ^ 31)%N with 2147483648%N.
  destruct (N.eqb_spec code 62097), (N.leb_spec 2147483648 code); destruct (decide _); cbn; try done; try lia; tauto.
Qed.
End Trace.
