(** What the scheduler invariants mean for the history of a build. *)
From Coq Require Import Relations.
From stdpp Require Import prelude gmap.
From RecordUpdate Require Import RecordUpdate.
From Verif Require Import Base Data Infer UpToDate Graph Exec ExecSpec GraphProofs BuildProofs PruneProofs SchedInv TraceInv ExecProofs TermProofs.

Local Arguments cmdsRunning : simpl never.
Local Arguments passes : simpl never.
Local Arguments markParents : simpl never.
Local Arguments removeLeaf : simpl never.
Local Arguments findNextTarget : simpl never.

Lemma cmdEventsOf_app t a b : cmdEventsOf t (a ++ b) = cmdEventsOf t a ++ cmdEventsOf t b.
Proof. unfold cmdEventsOf. apply List.filter_app. Qed.
Lemma cmdEventsOf_cons t e l : cmdEventsOf t (e :: l) = (if aboutCmds t e then [e] else []) ++ cmdEventsOf t l.
Proof. unfold cmdEventsOf. cbn. by destruct (aboutCmds t e). Qed.
Lemma cmdEventsOf_in t e l : e ∈ l -> aboutCmds t e = true -> cmdEventsOf t l <> [].
Proof.
  intros Hin Ha E. apply elem_of_list_In in Hin. assert (e ∈ cmdEventsOf t l) as H; [|by rewrite E in H; apply elem_of_nil in H].
  apply elem_of_list_In, filter_In. done.
Qed.
Lemma aboutCmds_cmd t c : aboutCmds t (LCmd t c) = true.
Proof. cbn. by apply bool_decide_eq_true. Qed.

(** *** The log only grows *)
Section Grow.
Context (xp : qstr -> option qstr) (prep : mkfile -> tid -> nat -> option (list command))
        (kind : command -> ckind) (w : world) (o : bopts).
Definition grows (s s' : est) : Prop := exists l, e_log s' = e_log s ++ l.
Lemma grows_refl s s' : e_log s' = e_log s -> grows s s'.
Proof. intros E. exists []. by rewrite E, app_nil_r. Qed.
Lemma grows_trans a b c : grows a b -> grows b c -> grows a c.
Proof. intros [l E] [l' E']. exists (l ++ l'). by rewrite E', E, app_assoc. Qed.
Lemma grows_addLog l s : grows s (addLog l s).
Proof. by exists l. Qed.
Lemma grows_wait n : forall k s, grows s (waitFrom o n k s).
Proof.
  induction n as [|n IH]; intros k s; cbn; [by destruct (e_acquiring s); apply grows_refl|].
  destruct (jobOf k s) as [j|]; [|apply IH]. destruct (procRunning j); [by apply grows_refl|apply IH].
Qed.
Lemma grows_child k t f s : grows s (childFinished o k t f s).
Proof.
  rewrite childFinished_eq.
  assert (forall g2, grows s (continue o k t f g2 s)) as Hc.
  { intros g2. unfold continue. destruct (f && negb (o_keep o)); [|by exists [LEnd t f]].
    eapply grows_trans; [|apply grows_wait]. by exists [LEnd t f]. }
  destruct (f && o_keep o); [|done]. destruct (g_nodes (e_g s) !! t); [|by exists [LEnd t f]].
  destruct (markParents _ t (e_g s)); [done|by exists [LEnd t f]].
Qed.
Local Arguments childFinished : simpl never.
Lemma grows_next ch s s' : buildNextTarget prep kind o ch s = Some s' -> grows s s'.
Proof.
  intros Hb. unfold buildNextTarget in Hb. destruct (e_aborted s); [injection Hb as <-; by apply grows_refl|].
  destruct (e_avail s) as [|k avail]; [injection Hb as <-; by apply grows_refl|]. destruct (e_next s) as [t|]; [|injection Hb as <-; by apply grows_refl].
  destruct (mk_targets (e_mk s) !! t) as [b|]; [|injection Hb as <-; by apply grows_refl].
  destruct (isNil (b_cmds b)).
  { injection Hb as <-. match goal with |- grows _ (set _ _ (set _ _ (childFinished ?a ?b ?c ?d ?x))) => destruct (grows_child b c d x) as [l El] end.
    exists ([LStart t []] ++ l). cbn. rewrite El. cbn. by rewrite <- app_assoc. }
  destruct (prep (e_mk s) t (ch_prep ch)) as [[|c0 cmds0]|]; [injection Hb as <-; by apply grows_refl| |injection Hb as <-; by apply grows_refl].
  destruct (runCmds kind t (c0 :: cmds0) (ch_codes ch) (ch_launch ch)) as [[failed l|rest l|l]|]; [| | |done]; injection Hb as <-.
  - match goal with |- grows _ (set _ _ (set _ _ (childFinished ?a ?b ?c ?d ?x))) => destruct (grows_child b c d x) as [l' El] end.
    exists ([LStart t (c0 :: cmds0)] ++ l ++ l'). cbn. rewrite El. cbn. by rewrite <- !app_assoc.
  - exists ([LStart t (c0 :: cmds0)] ++ l). cbn. by rewrite <- !app_assoc.
  - exists ([LStart t (c0 :: cmds0)] ++ l). cbn. by rewrite <- !app_assoc.
Qed.
Lemma grows_newRoot t s : grows s (newRoot w t s).
Proof. unfold newRoot. destruct (buildGraph _ _ _ _); try by apply grows_refl. by eexists. Qed.
Lemma grows_startProcesses ch s s' : startProcesses xp prep kind w o ch s = Some s' -> grows s s'.
Proof.
  intros Hs. unfold startProcesses in Hs.
  destruct (e_aborted s || negb (bool_decide (e_acquiring s = AIdle)) || isNil (e_avail s)); [injection Hs as <-; by apply grows_refl|].
  match type of Hs with match ?x with _ => _ end = _ => destruct x as [[[[next mk] g] log]| |c| |]; try (injection Hs as <-; by apply grows_refl) end.
  set (s2 := addLog log _) in Hs. assert (grows s s2) as H2 by by exists log.
  eapply grows_trans; [exact H2|].
  destruct next as [t|].
  - destruct (noneRunning o s2); [|injection Hs as <-; by apply grows_refl]. by eapply grows_next.
  - destruct (noneRunning o s2); [|injection Hs as <-; by apply grows_refl].
    destruct (e_pending s2) as [|[t|] pending]; [injection Hs as <-; by apply grows_refl| |injection Hs as <-; by apply grows_refl].
    injection Hs as <-. match goal with |- grows _ (match e_end (newRoot _ _ ?x) with _ => _ end) =>
      assert (grows s2 (newRoot w t x)) as Hx by (eapply (grows_trans _ x); [by apply grows_refl|apply grows_newRoot]);
      destruct (e_end (newRoot w t x)); [done|eapply grows_trans; [exact Hx|by apply grows_refl]] end.
Qed.
Lemma grows_step s e s' : step xp prep kind w o s e = Some s' -> grows s s'.
Proof.
  intros Hs. unfold step in Hs. destruct (e_end s); [done|]. destruct e as [ch| |ch|k code ch|k].
  - destruct (e_queue s) as [|q]; [done|]. eapply (grows_trans _ (s <| e_queue := q |>)); [by apply grows_refl|by eapply grows_startProcesses].
  - destruct (e_acquiring s); try done. injection Hs as <-. by apply grows_refl.
  - destruct (e_acquiring s); try done. destruct (buildNextTarget _ _ _ _ _) as [s1|] eqn:Eb; [|done].
    apply grows_next in Eb. assert (grows s s1) as H1 by (eapply grows_trans; [|exact Eb]; by apply grows_refl).
    destruct (e_end s1); [by injection Hs as <-|].
    destruct (e_wait s) as [[k'|]|]; injection Hs as <-; done.
  - destruct (jobOf k s) as [j|] eqn:Ej; [|done]. destruct (decide (j_state j = JWatched)); [|done].
    destruct (code =? stillActive)%N; [injection Hs as <-; by apply grows_refl|].
    unfold processExit in Hs. destruct (j_cmds j) as [|c rest]; [injection Hs as <-; by apply grows_refl|].
    destruct (c_max c <? effectiveCode code)%N.
    { destruct (ch_codes ch); [|done]. injection Hs as <-. eapply grows_trans; [|apply grows_child]. apply grows_addLog. }
    destruct (runCmds _ _ _ _ _) as [[failed l|rest' l|l]|]; [| | |done]; injection Hs as <-.
    + match goal with |- grows _ (match e_end ?x with _ => _ end) =>
        assert (grows s x) as Hx by (eapply grows_trans; [|apply grows_child]; eapply grows_trans; apply grows_addLog); destruct (e_end x); [done|] end.
      destruct (e_wait _) as [[k'|]|]; try done. destruct (failed && negb (o_keep o)); [done|]. destruct (Nat.eqb k k'); [|done].
      eapply grows_trans; [exact Hx|apply grows_wait].
    + match goal with |- grows _ (if ?b then waitFrom _ _ _ ?x else _) =>
        assert (grows s x) as Hx by (exists ([LExit (j_target j) c code] ++ l); cbn; by rewrite <- app_assoc); destruct b end; [|exact Hx].
      eapply grows_trans; [exact Hx|apply grows_wait].
    + exists ([LExit (j_target j) c code] ++ l). cbn. by rewrite <- app_assoc.
  - destruct (jobOf k s) as [j|] eqn:Ej; [|done]. destruct (j_state j); try done. injection Hs as <-. by apply grows_refl.
Qed.
Lemma grows_run es : forall s s', run xp prep kind w o s es = Some s' -> grows s s'.
Proof.
  induction es as [|e es IH]; intros s s' Hr; cbn in Hr; [injection Hr as <-; by apply grows_refl|].
  destruct (step xp prep kind w o s e) as [s1|] eqn:Es; [|done]. eapply grows_trans; [by eapply grows_step|by apply IH].
Qed.
End Grow.

(** *** Passes and the whole log *)
Definition headed (log : list logev) : Prop := log = [] \/ exists r mk l, log = LRoot r mk :: l.
Definition unpass (p : pass) : list logev := LRoot (p_root p) (p_mk p) :: p_log p.
Lemma passes_nonempty r mk l : passes (LRoot r mk :: l) <> [].
Proof.
  induction l as [|e l IH] using rev_ind; [done|].
  change (LRoot r mk :: l ++ [e]) with ((LRoot r mk :: l) ++ [e]). rewrite passes_snoc.
  destruct (exists_last IH) as (ps & p & Ep). rewrite Ep.
  assert (forall x, addToLast x (ps ++ [p]) <> []) as H by (intros x; rewrite addToLast_snoc; by destruct ps).
  destruct e; try apply H. by destruct ps.
Qed.
Lemma passes_flat log : headed log -> log = concat (map unpass (passes log)).
Proof.
  intros [->|(r & mk & l & ->)]; [done|]. induction l as [|e l IH] using rev_ind; [done|].
  change (LRoot r mk :: l ++ [e]) with ((LRoot r mk :: l) ++ [e]). rewrite passes_snoc.
  assert (passes (LRoot r mk :: l) <> []) as Hne by by apply passes_nonempty.
  revert IH Hne. generalize (LRoot r mk :: l) as lg. intros lg IH Hne.
  destruct (exists_last Hne) as (ps & p & Ep). rewrite Ep in *.
  assert (forall x, concat (map unpass (addToLast x (ps ++ [p]))) = concat (map unpass (ps ++ [p])) ++ [x]) as Ha.
  { intros x. rewrite addToLast_snoc, !map_app, !concat_app. cbn. rewrite !app_nil_r. rewrite <- app_assoc. done. }
  destruct e; try (rewrite Ha; by rewrite <- IH).
  rewrite map_app, concat_app, <- IH. done.
Qed.

Lemma in_concat_split {A} (x : A) (ls : list (list A)) a b : concat ls = a ++ x :: b ->
  exists l1 p q l2, ls = l1 ++ (p ++ x :: q) :: l2 /\ a = concat l1 ++ p /\ b = q ++ concat l2.
Proof.
  revert a b. induction ls as [|l ls IH]; intros a b E; cbn in E; [by destruct a|].
  destruct (split_app _ _ _ _ _ E) as [(q & -> & ->)|(a' & -> & E')].
  - exists [], a, q, ls. cbn. done.
  - destruct (IH _ _ E') as (l1 & p & q & l2 & -> & -> & ->).
    exists (l :: l1), p, q, l2. cbn. by rewrite app_assoc.
Qed.

(** *** One pass *)
Section PassFacts.
Context (kind : command -> ckind) (w : world) (o : bopts) (p : pass) (js : list tid).
Context (HP : passGood w o p) (HT : passTr kind js p).
Local Notation evs := (p_log p).
Local Notation mk0 := (p_mk p).
Local Notation r := (p_root p).

Lemma cmd_started pre t e post : evs = pre ++ e :: post -> aboutCmds t e = true ->
  exists pre1 cmds mid, pre = pre1 ++ LStart t cmds :: mid /\ cmdEventsOf t pre1 = [].
Proof using HT.
  intros E Ha. destruct HT as [T _].
  assert (started evs t) as [cmds Hs].
  { apply (ti_only _ _ _ T). eapply cmdEventsOf_in; [|exact Ha]. rewrite E. apply elem_of_app. right. by left. }
  apply elem_of_list_split in Hs as (pre1 & post1 & E1). destruct (ti_start _ _ _ T _ _ _ _ E1) as [Hn _].
  rewrite E in E1. destruct (split_app (e :: post) pre pre1 (LStart t cmds) post1 E1) as [(mid & -> & ->)|(pre' & -> & E2)].
  - by exists pre1, cmds, mid.
  - exfalso. destruct pre' as [|x pre']; injection E2 as -> E2; [done|].
    rewrite cmdEventsOf_app, cmdEventsOf_cons, Ha in Hn. by destruct (cmdEventsOf t pre).
Qed.

Lemma started_later_no pre t post : evs = pre ++ post -> dealtWith pre t -> not (started pre t) -> not (started evs t).
Proof using HP.
  intros E Hd Hn [cmds Hs]. rewrite E in Hs. apply elem_of_app in Hs as [Hs|Hs]; [apply Hn; by exists cmds|].
  apply elem_of_list_split in Hs as (a & b & ->). rewrite app_assoc in E.
  destruct (pp_once _ _ _ _ _ HP _ _ _ _ E) as [_ H]. apply H. apply dealtWith_app. by left.
Qed.
Lemma no_cmds_after pre d post : evs = pre ++ post -> dealtWith pre d -> cmdEventsOf d post = [].
Proof using HP HT.
  intros E Hd. pose proof HT as [T _].
  assert (forall e a b, pre = a ++ e :: b -> removedBy e = Some d -> not (started a d) -> cmdEventsOf d post = []) as Hno.
  { intros e a b -> Hr Hn. 
    assert (not (started evs d)) as Hns.
    { intros Hs. assert (evs = (a ++ [e]) ++ (b ++ post)) as E' by (rewrite E, <- !app_assoc; done).
      eapply (started_later_no _ _ _ E'); [|  |exact Hs].
      - apply dealtWith_app. right. by apply dealtWith_one.
      - rewrite started_app. intros [?|[cs Hc]%started_one]; [done|]. by rewrite Hc in Hr. }
    destruct (cmdEventsOf d post) as [|x l] eqn:Ec; [done|]. exfalso. apply Hns. apply (ti_only _ _ _ T).
    rewrite E, cmdEventsOf_app, Ec. by destruct (cmdEventsOf d (a ++ e :: b)). }
  destruct Hd as [[f Hd]|[[mk Hd]|[[mk Hd]|Hd]]]; apply elem_of_list_split in Hd as (a & b & Ep).
  - rewrite Ep in E. rewrite <- app_assoc in E. cbn in E. pose proof (ti_last _ _ _ T _ _ _ _ E) as Hl.
    rewrite cmdEventsOf_app in Hl. by apply app_eq_nil in Hl as [_ ?].
  - eapply Hno; [exact Ep|done|]. rewrite Ep in E. rewrite <- app_assoc in E. cbn in E. by destruct (pp_upd _ _ _ _ _ HP _ _ _ _ E) as (_ & ? & _).
  - eapply Hno; [exact Ep|done|]. rewrite Ep in E. rewrite <- app_assoc in E. cbn in E. by destruct (pp_nocmd _ _ _ _ _ HP _ _ _ _ E) as (_ & ? & _).
  - eapply Hno; [exact Ep|done|]. rewrite Ep in E. rewrite <- app_assoc in E. cbn in E. by destruct (pp_unb _ _ _ _ _ HP _ _ _ E) as (_ & _ & ? & _).
Qed.

Lemma cmd_after_deps pre t c post : evs = pre ++ LCmd t c :: post ->
  neededFor mk0 r t /\ forall d, dependsTrans mk0 t d -> dealtWith pre d /\ cmdEventsOf d post = [].
Proof using HP HT.
  intros E. destruct (cmd_started _ t _ _ E (aboutCmds_cmd t c)) as (pre1 & cmds & mid & -> & Hn).
  rewrite <- app_assoc in E. cbn in E.
  split; [by eapply pp_need|]. intros d Hd. pose proof (pp_deps _ _ _ _ _ HP _ _ _ _ E d Hd) as Hw.
  assert (dealtWith (pre1 ++ LStart t cmds :: mid) d) as Hw2 by (apply dealtWith_app; by left).
  split; [done|]. eapply (no_cmds_after ((pre1 ++ LStart t cmds :: mid) ++ [LCmd t c])).
  - rewrite E, <- !app_assoc. done.
  - apply dealtWith_app. by left.
Qed.

Lemma end_unique pre t f post f' : evs = pre ++ LEnd t f :: post -> LEnd t f' ∈ evs -> f' = f.
Proof using HP.
  intros E Hin. rewrite E in Hin. apply elem_of_app in Hin as [Hin|[Hin|Hin]%elem_of_cons].
  - exfalso. destruct (pp_end _ _ _ _ _ HP _ _ _ _ E) as [_ Hn]. apply Hn. left. by exists f'.
  - congruence.
  - exfalso. apply elem_of_list_split in Hin as (a & b & ->).
    assert (evs = (pre ++ LEnd t f :: a) ++ LEnd t f' :: b) as E' by (rewrite E, <- app_assoc; done).
    destruct (pp_end _ _ _ _ _ HP _ _ _ _ E') as [_ Hn]. apply Hn. left. exists f. apply elem_of_app. right. by left.
Qed.

Lemma start_trace pre t cmds post : evs = pre ++ LStart t cmds :: post ->
  cmdEventsOf t pre = [] /\ exists st, ranTo kind t cmds (cmdEventsOf t post) st /\ forall f, st = Finished f <-> LEnd t f ∈ post.
Proof using HP HT.
  intros E. destruct HT as [T J]. destruct (ti_start _ _ _ T _ _ _ _ E) as (H1 & st & H2 & H3).
  split; [done|]. exists st. split; [done|]. intros f.
  assert (LEnd t f ∈ post -> exists f', st = Finished f') as Hfin.
  { intros Hf. destruct st as [rest|rest|f']; [| |by exists f'].
    - exfalso. destruct H3 as [H3 _]. apply (J t H3). left. exists f. rewrite E. apply elem_of_app. right. by right.
    - exfalso. destruct H3 as [H3 _]. apply (J t H3). left. exists f. rewrite E. apply elem_of_app. right. by right. }
  split.
  - by intros ->.
  - intros Hf. destruct (Hfin Hf) as [f' ->]. cbn in H3. f_equal.
    apply elem_of_list_split in Hf as (a & b & ->).
    eapply (end_unique (pre ++ LStart t cmds :: a) t f b); [by rewrite E, <- app_assoc|].
    rewrite E. apply elem_of_app. right. by right.
Qed.

Lemma end_trace pre t f post : evs = pre ++ LEnd t f :: post ->
  exists cmds, LStart t cmds ∈ pre /\ ranTo kind t cmds (cmdEventsOf t pre) (Finished f).
Proof using HP HT.
  intros E. destruct (pp_end _ _ _ _ _ HP _ _ _ _ E) as [[cmds Hs] _]. exists cmds. split; [done|].
  apply elem_of_list_split in Hs as (a & b & ->). rewrite <- app_assoc in E. cbn in E.
  destruct (start_trace _ _ _ _ E) as (H1 & st & H2 & H3).
  rewrite (proj2 (H3 f)) in H2 by (apply elem_of_app; right; by left).
  destruct HT as [T _]. assert (evs = (a ++ LStart t cmds :: b) ++ LEnd t f :: post) as E' by (rewrite E, <- app_assoc; done).
  pose proof (ti_last _ _ _ T _ _ _ _ E') as Hl.
  rewrite cmdEventsOf_app, cmdEventsOf_cons in H2. cbn [aboutCmds app] in H2. rewrite Hl, app_nil_r in H2.
  rewrite cmdEventsOf_app, cmdEventsOf_cons, H1. done.
Qed.

Lemma start_once a t c1 b : evs = a ++ LStart t c1 :: b -> not (started b t).
Proof using HP.
  intros E [c2 Hs]. apply elem_of_list_split in Hs as (x & y & ->).
  assert (evs = (a ++ LStart t c1 :: x) ++ LStart t c2 :: y) as E' by (rewrite E, <- app_assoc; done).
  destruct (pp_once _ _ _ _ _ HP _ _ _ _ E') as [Hn _]. apply Hn. exists c1. apply elem_of_app. right. by left.
Qed.

Lemma failed_not_started t d : failed evs d -> dependsTrans mk0 t d -> not (started evs t).
Proof using HP.
  intros Hf Hd [cmds Hs]. apply elem_of_list_split in Hs as (a & b & E).
  assert (failed a d) as Hfa.
  { unfold failed in *. rewrite E in Hf. apply elem_of_app in Hf as [Hf|[Hf|Hf]%elem_of_cons]; [done|done|].
    exfalso. pose proof (pp_deps _ _ _ _ _ HP _ _ _ _ E d Hd) as Hw.
    apply elem_of_list_split in Hf as (x & y & ->).
    assert (evs = (a ++ LStart t cmds :: x) ++ LEnd d true :: y) as E' by (rewrite E, <- app_assoc; done).
    destruct (pp_end _ _ _ _ _ HP _ _ _ _ E') as [_ Hn]. apply Hn. apply dealtWith_app. by left. }
  destruct (pp_nofail _ _ _ _ _ HP _ _ _ _ E d Hfa) as [_ H]. done.
Qed.

Lemma dealt_ok x : dealtWith evs x -> not (failed evs x) -> (forall d, failed evs d -> not (dependsTrans mk0 x d)) -> dealtWithOk evs x.
Proof using HP.
  intros [[[] Hd]|[Hd|[Hd|Hd]]] Hf Hn; [done|by left|right; by left|right; by right|].
  exfalso. apply elem_of_list_split in Hd as (a & b & E).
  destruct (pp_unb _ _ _ _ _ HP _ _ _ E) as (_ & (d & Hd & Hfd) & _). apply (Hn d); [|done]. unfold failed. rewrite E. apply elem_of_app. by left.
Qed.

Lemma nothing_after_failure pre t post : evs = pre ++ LEnd t true :: post -> o_keep o = false -> forall x, not (started post x).
Proof using HP.
  intros E Hk x [cs Hs]. apply elem_of_list_split in Hs as (a & b & ->).
  assert (evs = (pre ++ LEnd t true :: a) ++ LStart x cs :: b) as E' by (rewrite E, <- app_assoc; done).
  destruct (pp_nofail _ _ _ _ _ HP _ _ _ _ E' t) as [H _]; [|congruence]. apply elem_of_app. right. by left.
Qed.
End PassFacts.

(** *** Builds *)
Section Builds.
Context (xp : qstr -> option qstr) (prep : mkfile -> tid -> nat -> option (list command))
        (kind : command -> ckind) (w : world) (o : bopts) (mk : mkfile) (names : list qstr) (es : list event) (s : est).
Context (Hst : startable o mk) (Hrun : buildRun xp prep kind w o mk names es s).
Definition LFof : Prop := exists e, e ∈ es /\ launchFails e.

Lemma build_good : Good xp prep kind w o (requested mk names) LFof s.
Proof using Hst Hrun.
  destruct Hst as [Hj Hf], Hrun as (s0 & Ha & Hr). destruct (apply_good kind w o mk names s0 Hj Hf Ha) as [HI He].
  eapply run_good; try done. intros (e & He' & Hc). exists e. split; [done|]. by destruct e; cbn in *.
Qed.
Lemma fresh_LI roots : freshS o roots s -> LI kind w o roots s.
Proof using.
  intros (F1 & F2 & F3 & F4 & F5 & F6 & F7 & F8 & F9 & F10 & F11 & F12 & F13 & F14 & F15).
  split; cbn; rewrite ?F1; try done.
  - by intros p ?%elem_of_nil.
  - by intros p ?%elem_of_nil.
  - intros l Hl. apply prefix_nil_inv in Hl as ->. unfold cmdsRunning. cbn. split; [constructor|lia].
  - apply prefix_nil.
  - by intros p ?%elem_of_nil.
Qed.
Lemma build_LI : LI kind w o (requested mk names) s.
Proof using Hst Hrun.
  destruct build_good as [[_ [F|(pre & r & mk0 & evs & C & _)]]|(_ & L & _)]; [by apply fresh_LI|by eapply CI_LI|done].
Qed.
Lemma build_ends : is_Some (e_end s) -> EndsBy xp prep w o (requested mk names) LFof s.
Proof using Hst Hrun. intros [x Hx]. destruct build_good as [[He _]|(_ & _ & E)]; [congruence|done]. Qed.
Lemma fresh_step roots s0 e s1 : freshS o roots s0 -> step xp prep kind w o s0 e = Some s1 -> e_log s1 = [] /\ is_Some (e_end s1).
Proof using Hst.
  intros F H. destruct Hst as [Hjobs _]. unfold step in H. destruct (e_end s0) eqn:He; [done|].
  destruct F as (F1 & F2 & F3 & F4 & F5 & F6 & F7 & F8 & F9 & F10 & F11 & F12 & F13 & F14 & F15).
  assert (forall k, jobOf k s0 = None) as Hnoj by (intros k; unfold jobOf; by rewrite F2).
  destruct e as [ch| |ch|k code ch|k]; rewrite ?F8, ?Hnoj in H; try done.
  destruct (e_queue s0) as [|q]; [done|]. unfold startProcesses in H. cbn in H. rewrite F7, F8 in H. cbn in H.
  destruct (isNil (e_avail s0)) eqn:Eav; [apply isNil_true in Eav; rewrite F9 in Eav; destruct (o_jobs o); [lia|done]|].
  rewrite F3 in H. rewrite findNextTarget_nil in H by done. cbn in H.
  unfold noneRunning in H. cbn in H. rewrite F9, seq_length, Nat.eqb_refl, F6 in H. injection H as <-. cbn. rewrite F1. eauto.
Qed.
Lemma build_headed : headed (e_log s).
Proof using Hst Hrun.
  destruct Hrun as (s0 & Ha & Hr). apply grows_run in Hr as [l Hl].
  assert (e_log s0 = [] /\ (s0 = initState o mk [] 1) \/ exists r m, e_log s0 = [LRoot r m]) as Hh.
  { clear Hl. unfold apply in Ha.
    assert (forall t rest q, e_end (newRoot w t (initState o mk rest q)) = None -> e_log (newRoot w t (initState o mk rest q)) = [LRoot t mk]) as Hn.
    { intros t rest q. unfold newRoot. change (e_mk (initState o mk rest q)) with mk. change (e_g (initState o mk rest q)) with emptyGraph.
      by destruct (buildGraph (w (mk_tick mk)) mk emptyGraph t). }
    destruct names as [|n ns].
    - destruct (decide (mk_targets mk = ∅)); [injection Ha as <-; by left|]. destruct (mk_first mk) as [t|]; [|done].
      destruct (e_end _) as [[]|] eqn:Ee in Ha; try done. right. exists t, mk.
      destruct (o_dump o); [destruct (dumpNode _ _ _ _); [|done]|]; injection Ha as <-; by apply (Hn t [] 1).
    - destruct (mk_find mk n) as [t|]; [|done]. destruct (e_end _) as [[]|] eqn:Ee in Ha; try done. right. exists t, mk.
      destruct (o_dump o); [destruct (dumpNode _ _ _ _); [|done]|]; injection Ha as <-; by eapply (Hn t _ 1). }
  destruct Hh as [[E0 ->]|(r & m & E0)].
  - (* nothing to build: the first event ends it *)
    destruct Hrun as (s1 & Ha' & Hr'). rewrite Ha in Ha'. injection Ha' as <-.
    destruct es as [|e es']; cbn [run] in Hr'; [injection Hr' as <-; by left|].
    destruct (step _ _ _ _ _ _ e) as [s1|] eqn:Es; [|done].
    destruct Hst as [Hj Hf]. destruct (apply_good kind w o mk names _ Hj Hf Ha) as [[F|(pre & r & mk0 & evs & C & _)] _].
    2: { pose proof (ci_log _ _ _ _ _ _ _ _ _ C) as E. rewrite E0 in E. by destruct pre. }
    destruct (fresh_step _ _ _ _ F Es) as [H1 [x Hx]].
    destruct es' as [|e' es']; cbn in Hr'; [injection Hr' as <-; by left|]. unfold step in Hr'. by rewrite Hx in Hr'.
  - right. rewrite Hl, E0. by exists r, m, l.
Qed.

(** Nothing is started after a failure without /K. *)
Lemma stops pre t post : o_keep o = false -> e_log s = pre ++ LEnd t true :: post -> forall x cmds, LStart x cmds ∉ post.
Proof using Hst Hrun.
  intros Hk E x cmds Hin. pose proof build_LI as L. pose proof (passes_flat _ build_headed) as Hfl.
  rewrite E in Hfl. symmetry in Hfl. destruct (in_concat_split _ _ _ _ Hfl) as (l1 & a & b & l2 & Em & -> & ->).
  apply map_eq_app in Em as (ps1 & ps2 & Eps & <- & Em2). destruct ps2 as [|p ps2]; [done|]. injection Em2 as Ep <-.
  assert (p ∈ passes (e_log s)) as Hp by (rewrite E, Eps; apply elem_of_app; right; by left).
  destruct (li_good _ _ _ _ _ L p Hp) as [HP [js HT]].
  assert (exists a', p_log p = a' ++ LEnd t true :: b) as [a' Ea].
  { unfold unpass in Ep. destruct a as [|y a]; injection Ep as Ey Ep; [done|]. by exists a. }
  assert (ps2 = []) as ->.
  { destruct ps2 as [|q ps2]; [done|]. exfalso.
    assert (p ∈ removelast (passes (e_log s))) as Hr.
    { rewrite E, Eps. rewrite removelast_app by done. apply elem_of_app. right. by left. }
    destruct (li_done _ _ _ _ _ L p Hr) as [_ Hc]. apply (Hc Hk t). unfold failed. rewrite Ea. apply elem_of_app. right. by left. }
  cbn in Hin. rewrite app_nil_r in Hin. eapply (nothing_after_failure w o p HP); [exact Ea|done|]. by exists cmds.
Qed.
End Builds.

Lemma ranTo_mem kind t cmds l st : ranTo kind t cmds l st -> forall c, LCmd t c ∈ l -> c ∈ cmds.
Proof.
  induction 1 as [|c cs|c cs|c cs code Hc|c cs code evs st Hc H IH]; intros x Hx.
  - by apply elem_of_nil in Hx.
  - by apply elem_of_nil in Hx.
  - apply elem_of_list_singleton in Hx as [= ->]. by left.
  - apply elem_of_cons in Hx as [[= ->]|Hx]; [by left|]. apply elem_of_list_singleton in Hx. done.
  - apply elem_of_cons in Hx as [[= ->]|Hx]; [by left|]. apply elem_of_cons in Hx as [Hx|Hx]; [done|]. right. by apply IH.
Qed.

Lemma apply_jobs w o mk names s0 : apply w o mk names = Ok s0 -> e_jobs s0 = [].
Proof.
  intros Ha. unfold apply in Ha.
  assert (forall t rest q, e_jobs (newRoot w t (initState o mk rest q)) = []) as Hn by (intros; by rewrite newRoot_jobs).
  destruct names as [|n ns].
  - destruct (decide (mk_targets mk = ∅)); [by injection Ha as <-|]. destruct (mk_first mk) as [t|]; [|done].
    destruct (e_end _) as [[]|] eqn:Ee in Ha; try done.
    destruct (o_dump o); [destruct (dumpNode _ _ _ _); [|done]|]; injection Ha as <-; by apply (Hn t [] 1).
  - destruct (mk_find mk n) as [t|]; [|done]. destruct (e_end _) as [[]|] eqn:Ee in Ha; try done.
    destruct (o_dump o); [destruct (dumpNode _ _ _ _); [|done]|]; injection Ha as <-; by eapply (Hn t _ 1).
Qed.
