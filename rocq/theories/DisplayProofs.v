(** Lemmas about what /D shows. *)
From stdpp Require Import prelude gmap.
From RecordUpdate Require Import RecordUpdate.
From Verif Require Import Base Data Infer UpToDate UpToDateSpec UpToDateProofs Graph Exec ExecSpec GraphProofs BuildProofs SchedInv PruneProofs ExecProofs ExecFacts Display DisplaySpec.

Lemma decisions_app a b : decisions (a ++ b) = decisions a ++ decisions b.
Proof. apply omap_app. Qed.

(** *** One examination *)
Lemma core_seen sn mk t : fst (upToDateCore sn mk t) = true -> exists b, mk_targets mk !! t = Some b /\ fileSeen sn b.
Proof.
  unfold upToDateCore. destruct (mk_targets mk !! t) as [b|]; [|done]. fold (noteFile sn b). intros H. exists b. split; [done|].
  apply noteFile_exists. destruct (isNil (b_deps (noteFile sn b))); [done|].
  destruct (b_exists (noteFile sn b)) eqn:E; [done|]. cbn [fst setTime b_exists] in H. by rewrite E in H.
Qed.
Lemma upd_seen sn mk t : fst (isTargetUpToDateSnap sn mk t) = true -> exists b, mk_targets mk !! t = Some b /\ fileSeen sn b.
Proof.
  unfold isTargetUpToDateSnap. pose proof (core_seen sn mk t) as Hc. destruct (upToDateCore sn mk t) as [[|] mk1]; [intros _; by apply Hc|].
  cbn [andb]. destruct (mk_targets mk1 !! t) as [b1|] eqn:E1; [|done]. unfold forgetTime. rewrite E1.
  destruct (negb false && b_exists b1); done.
Qed.

(** An examined target has the time of its file, or none. *)
Lemma upd_time w mk t u mk' b : isTargetUpToDate w mk t = (u, mk') -> mk_targets mk !! t = Some b -> fileSeen (w (mk_tick mk)) b ->
  timeOf mk' t = if u then fileTime (w (mk_tick mk)) b else 0%N.
Proof.
  unfold isTargetUpToDate. intros H Hb Hs.
  destruct (upd_frame (w (mk_tick mk)) mk t b Hb) as (b' & E & _ & _ & Ht). specialize (Ht Hs).
  destruct (isTargetUpToDateSnap (w (mk_tick mk)) mk t) as [u1 mk1]. injection H as <- <-. cbn [fst snd] in *. subst mk1.
  unfold timeOf. cbn [mk_targets setBlock]. by rewrite lookup_insert.
Qed.
Lemma upd_others w mk t u mk' x : isTargetUpToDate w mk t = (u, mk') -> x <> t -> mk_targets mk' !! x = mk_targets mk !! x.
Proof.
  unfold isTargetUpToDate. destruct (isTargetUpToDateSnap (w (mk_tick mk)) mk t) as [u1 mk1] eqn:E. intros [= <- <-] Hx. cbn [mk_targets].
  destruct (mk_targets mk !! t) as [b|] eqn:Hb.
  - destruct (upd_frame (w (mk_tick mk)) mk t b Hb) as (b' & E' & _). rewrite E in E'. cbn [snd] in E'. subst mk1.
    cbn [setBlock mk_targets]. by rewrite lookup_insert_ne by done.
  - unfold isTargetUpToDateSnap, upToDateCore in E. rewrite Hb in E. rewrite Hb in E. by injection E as <- <-.
Qed.

(** *** Pruning *)
Lemma collect_others w g ls : forall mk ups mk' x, collectUpToDate w mk g ls = (ups, mk') -> x ∉ ls ->
  mk_targets mk' !! x = mk_targets mk !! x.
Proof.
  induction ls as [|t ls IH]; intros mk ups mk' x; cbn -[decide]; [by intros [= <- <-]|].
  intros H [Hx Hl]%not_elem_of_cons. destruct (decide (stateOf g t = ExecutingState)); [by eapply IH|].
  destruct (isTargetUpToDate w mk t) as [u mk1] eqn:Eu. destruct (collectUpToDate w mk1 g ls) as [r mk2] eqn:Er.
  injection H as <- <-. rewrite (IH _ _ _ x Er Hl). by eapply upd_others.
Qed.
Definition upLine (mk : mkfile) (p : tid * mkfile) : shown := Shown true (fst p) (timeOf mk (fst p)).
Definition upDec (p : tid * mkfile) : tid * option mkfile := (fst p, Some (snd p)).
Lemma collect_lines all w g ls : forall mk ups mk', NoDup ls -> collectUpToDate w mk g ls = (ups, mk') ->
  Forall2 (lineFor all w) (map upDec ups) (map (upLine mk') ups).
Proof.
  induction ls as [|t ls IH]; intros mk ups mk' Hnd; cbn -[decide]; [intros [= <- <-]; constructor|].
  apply NoDup_cons in Hnd as [Hn Hnd]. destruct (decide (stateOf g t = ExecutingState)); [by apply IH|].
  destruct (isTargetUpToDate w mk t) as [u mk1] eqn:Eu. destruct (collectUpToDate w mk1 g ls) as [r mk2] eqn:Er.
  intros [= <- <-]. destruct u; [|by eapply IH]. cbn [map]. constructor; [|by eapply IH].
  unfold lineFor, upDec, upLine. cbn [fst snd sh_target sh_upToDate sh_time]. split; [done|]. split; [done|].
  destruct (upd_seen (w (mk_tick mk)) mk t) as (b & Hb & Hs).
  { unfold isTargetUpToDate in Eu. destruct (isTargetUpToDateSnap (w (mk_tick mk)) mk t). by injection Eu as <- _. }
  exists b. split_and!; [done|done|]. rewrite <- (upd_time _ _ _ _ _ _ Eu Hb Hs). unfold timeOf.
  by rewrite (collect_others _ _ _ _ _ _ _ Er Hn).
Qed.
Lemma pruneLoop_lines all w fuel : forall mk g acc mk' g' ups, gwf g -> pruneLoop fuel w mk g acc = Some (mk', g', ups) ->
  exists ups', ups = acc ++ ups' /\ Forall2 (lineFor all w) (map upDec ups') (pruneShown fuel w mk g).
Proof.
  induction fuel as [|fuel IH]; intros mk g acc mk' g' ups Hw; cbn [pruneLoop pruneShown]; destruct (g_dirty g) eqn:Ed; try done;
    try (intros [= <- <- <-]; exists []; rewrite app_nil_r; split; [done|constructor]).
  destruct (collectUpToDate w mk _ (g_leaves _)) as [ups1 mk1] eqn:Ec. intros H.
  set (g1 := Graph (g_nodes g) (g_leaves g) false) in *.
  destruct (collect_spec _ _ _ _ _ _ Ec) as (C1 & C2 & C3).
  assert (gsim g g1) as Hs1 by done. assert (gwf g1) as Hw1 by by eapply gsim_gwf.
  destruct (removeAll_spec w (Bopts false false false 0 false) ups1 g1 Hw1 (C3 (gw_ndl g Hw))) as [P1 P2]; [done|].
  assert (gwf (fold_left (fun g t => removeLeaf t g) (map fst ups1) g1)) as Hw2 by by eapply prunes_gwf.
  destruct (IH _ _ _ _ _ _ Hw2 H) as (ups2 & -> & F). exists (ups1 ++ ups2). rewrite app_assoc. split; [done|].
  rewrite map_app. apply Forall2_app; [|exact F]. eapply (collect_lines all w g1 (g_leaves g)); [apply (gw_ndl g Hw)|exact Ec].
Qed.

Lemma decisions_ups ups : decisions (map (fun p : tid * mkfile => LUpToDate (fst p) (snd p)) ups) = map upDec ups.
Proof. induction ups as [|p ups IH]; [done|]. cbn. by rewrite <- IH. Qed.

Section Build.
Context (xp : qstr -> option qstr) (prep : mkfile -> tid -> nat -> option (list command))
        (kind : command -> ckind) (w : world) (o : bopts).

Lemma available_lines mk g r mk' g' ups : gwf g -> findAvailableTarget xp o w mk g = Ok (r, mk', g', ups) ->
  Forall2 (lineFor (o_all o) w) (map upDec ups ++ waiting r) (availableShown xp o w mk g).
Proof.
  intros Hw. unfold findAvailableTarget, availableShown. destruct (isNil (g_leaves g)); [intros [= <- <- <- <-]; constructor|].
  destruct (if o_all o then Some (mk, g, []) else pruneLoop _ w mk g []) as [[[mk1 g1] ups1]|] eqn:Ep; [|done].
  destruct (applyInferenceRules xp o (w (mk_tick mk1)) mk1 (rev (g_leaves g1))) as [mk2'|]; [|done].
  set (mk2 := Mkfile (mk_targets mk2') _ _ _). intros H.
  assert (ups1 = ups) as -> by (destruct (firstIdle g1); by injection H as <- <- <- <-).
  apply Forall2_app.
  - destruct (o_all o); [injection Ep as <- <- <-; constructor|].
    by destruct (pruneLoop_lines false w _ _ _ _ _ _ _ Hw Ep) as (ups' & -> & F).
  - destruct (firstIdle g1) as [t|]; [|injection H as <- <- <-; constructor]. injection H as <- _ _. cbn [waiting].
    destruct (o_all o).
    + destruct (isTargetUpToDate w mk2 t) as [u mk3] eqn:Eu. repeat constructor. exists mk2. cbn [sh_upToDate sh_time fst].
      rewrite Eu. split; [done|]. intros b Hb Hs. by eapply upd_time.
    + repeat constructor.
Qed.

Lemma next_lines fuel : forall mk g log r mk' g' log', gwf g -> size (g_nodes g) < fuel ->
  findNextTarget xp w o fuel mk g log = Ok (r, mk', g', log') ->
  exists es, log' = log ++ es /\ Forall2 (lineFor (o_all o) w) (decisions es ++ waiting r) (nextShown xp w o fuel mk g).
Proof.
  induction fuel as [|fuel IH]; intros mk g log r mk' g' log' Hw Hf; [lia|]. cbn [findNextTarget nextShown].
  pose proof (findAvailable_spec w o xp mk g Hw) as Ha.
  destruct (findAvailableTarget xp o w mk g) as [[[[r1 mk1] g2] ups]| |c| |] eqn:Ea; try done.
  apply available_lines in Ea; [|done]. destruct Ha as (D & g1 & P & Hw1 & Hr).
  destruct r1 as [t|].
  2:{ intros [= <- <- <- <-]. exists (map (fun p => LUpToDate (fst p) (snd p)) ups). split; [done|].
    rewrite decisions_ups, (app_nil_r (availableShown _ _ _ _ _)). exact Ea. }
  destruct Hr as (Hl & Hs & ->). cbv zeta.
  pose proof (proj1 (gw_leaves g1 Hw1 t) Hl) as [Hin Hc].
  pose proof (prunes_size _ _ _ _ _ P Hw) as Hsz.
  set (g2 := if decide (stateOf g1 t = Unbuildable) then g1 else setState ExecutingState t g1) in *.
  assert (gsim (removeLeaf t g1) (removeLeaf t g2)) as Hsim.
  { unfold g2. destruct (decide _); [done|]. apply removeLeaf_setState; [apply Hw1|done|done]. }
  assert (gwf (removeLeaf t g2)) as Hw2.
  { eapply gsim_gwf; [exact Hsim|]. by apply removeLeaf_gwf. }
  assert (size (g_nodes (removeLeaf t g2)) < fuel) as Hf2.
  { destruct Hsim as [-> _]. pose proof (removeLeaf_size g1 t Hin (gw_edges g1 Hw1) Hc). lia. }
  set (cmds := match mk_targets mk1 !! t with Some b => b_cmds b | None => [] end).
  assert (forall e, decision e = Some (t, None) ->
    findNextTarget xp w o fuel mk1 (removeLeaf t g2) ((log ++ map (fun p => LUpToDate (fst p) (snd p)) ups) ++ [e]) = Ok (r, mk', g', log') ->
    exists es, log' = log ++ es /\ Forall2 (lineFor (o_all o) w) (decisions es ++ waiting r)
      (availableShown xp o w mk g ++ nextShown xp w o fuel mk1 (removeLeaf t g2))) as Hrec.
  { intros e He H. destruct (IH _ _ _ _ _ _ _ Hw2 Hf2 H) as (es & -> & F).
    exists ((map (fun p => LUpToDate (fst p) (snd p)) ups ++ [e]) ++ es). rewrite !app_assoc. split; [done|].
    rewrite !decisions_app, decisions_ups, <- app_assoc. apply Forall2_app; [|exact F].
    cbn. rewrite He. exact Ea. }
  destruct (isNil cmds); cbn [orb]; [by apply Hrec|].
  destruct (o_keep o && bool_decide (stateOf g2 t = Unbuildable)); [by apply Hrec|].
  intros [= <- <- <- <-]. exists (map (fun p => LUpToDate (fst p) (snd p)) ups). split; [done|].
    rewrite decisions_ups, (app_nil_r (availableShown _ _ _ _ _)). exact Ea.
Qed.

(** *** Whatever else happens in a step shows nothing and decides nothing, but starts the waiting target *)
Definition dues (s : est) : list (tid * option mkfile) := decisions (e_log s) ++ waiting (e_next s).
Definition quiet (s s' : est) : Prop := e_next s' = e_next s /\ decisions (e_log s') = decisions (e_log s).
Lemma quiet_dues s s' : quiet s s' -> dues s' = dues s.
Proof. intros [E1 E2]. unfold dues. by rewrite E1, E2. Qed.
Lemma quiet_trans a b c : quiet a b -> quiet b c -> quiet a c.
Proof. intros [A1 A2] [B1 B2]. split; congruence. Qed.
Lemma quiet_log l s : decisions l = [] -> quiet s (addLog l s).
Proof. intros H. split; [done|]. unfold addLog. cbn. by rewrite decisions_app, H, app_nil_r. Qed.
Lemma quiet_wait n : forall k s, quiet s (waitFrom o n k s).
Proof.
  induction n as [|n IH]; intros k s; cbn [waitFrom].
  - by destruct (e_acquiring s).
  - destruct (jobOf k s) as [j|]; [|apply IH]. by destruct (procRunning j); [|apply IH].
Qed.
Lemma quiet_child k t f s : quiet s (childFinished o k t f s).
Proof.
  unfold childFinished. set (s1 := addLog [LEnd t f] s).
  assert (quiet s s1) as H1 by by apply quiet_log.
  clearbody s1. cbv zeta.
  set (s2 := if f then s1 <| e_allok := false |> else s1).
  assert (quiet s s2) as H2 by by unfold s2; destruct f. clearbody s2. clear s1 H1.
  destruct (if f && o_keep o then _ else _) as [[g|]|]; [|done|done].
  set (s3 := s2 <| e_g := removeLeaf t g |>). assert (quiet s s3) as H3 by done. clearbody s3. clear s2 H2.
  set (s4 := match e_acq s3 with O => _ | S a => _ end). assert (quiet s s4) as H4 by (unfold s4; by destruct (e_acq s3)).
  clearbody s4. clear s3 H3.
  set (s5 := dropJob k s4 <| e_avail ::= fun l => l ++ [k] |>). assert (quiet s s5) as H5 by done. clearbody s5. clear s4 H4.
  destruct (f && negb (o_keep o)); [|done]. eapply quiet_trans; [|apply quiet_wait]. done.
Qed.
Lemma cmds_none l : Forall cmdEvent l -> decisions l = [].
Proof. induction 1 as [|e l He _ IH]; [done|]. by destruct e. Qed.
Lemma runCmds_none t launch : forall cmds codes r, runCmds kind t cmds codes launch = Some r ->
  match r with RDone _ l | RProc _ l | RFatal l => decisions l = [] end.
Proof.
  induction cmds as [|c cmds IH]; intros codes r; cbn [runCmds].
  - destruct codes; [|done]. by intros [= <-].
  - destruct (kind c) as [|allowed]; destruct codes as [|k codes]; try done.
    + intros [= <-]. by destruct launch.
    + destruct (existsb _ _); [|done]. destruct (c_max c <? k)%N.
      * destruct codes; [|done]. by intros [= <-].
      * destruct (runCmds kind t cmds codes launch) as [r'|] eqn:E; [|done]. intros [= <-].
        apply IH in E. by destruct r'; cbn in *.
Qed.

Lemma next_dues ch s s' : buildNextTarget prep kind o ch s = Some s' -> regular (e_end s') -> dues s' = dues s.
Proof.
  unfold buildNextTarget. destruct (e_aborted s); [by intros [= <-]|].
  destruct (e_avail s) as [|k avail]; [by intros [= <-]|]. destruct (e_next s) as [t|] eqn:En; [|by intros [= <-]].
  destruct (mk_targets (e_mk s) !! t) as [b|]; [|by intros [= <-]].
  assert (forall x, decisions (e_log x) = decisions (e_log s) ++ [(t, None)] -> forall y, quiet x y ->
    dues (y <| e_next := None |> <| e_queue ::= S |>) = dues s) as Hfin.
  { intros x Hx y [_ Hy]. change (decisions (e_log y) ++ [] = dues s). unfold dues. rewrite En, Hy, Hx. by rewrite app_nil_r. }
  destruct (isNil (b_cmds b)).
  { intros [= <-] _. eapply Hfin; [|apply quiet_child]. cbn. by rewrite decisions_app. }
  destruct (prep (e_mk s) t (ch_prep ch)) as [[|c cs]|]; [by intros [= <-]| |by intros [= <-]].
  set (x := addLog [LStart t (c :: cs)] _).
  assert (decisions (e_log x) = decisions (e_log s) ++ [(t, None)]) as Hx by (unfold x, addLog; cbn; by rewrite decisions_app).
  clearbody x. destruct (runCmds _ _ _ _ _) as [[f l|rest l|l]|] eqn:Er; [| | |done]; apply runCmds_none in Er.
  - intros [= <-] _. eapply Hfin; [exact Hx|]. eapply quiet_trans; [by apply (quiet_log l)|apply quiet_child].
  - intros [= <-] _. change (decisions (e_log x ++ l) ++ [] = dues s). unfold dues. by rewrite decisions_app, Er, Hx, En, !app_nil_r.
  - by intros [= <-].
Qed.

Lemma newRoot_quiet t s : quiet s (newRoot w t s).
Proof.
  unfold newRoot. destruct (buildGraph _ _ _ _); try done. split; [done|]. cbn. by rewrite decisions_app, app_nil_r.
Qed.

Lemma start_dues ch s s' : (e_aborted s = false -> e_next s = None -> gwf (e_g s)) -> startProcesses xp prep kind w o ch s = Some s' -> regular (e_end s') ->
  exists ds, dues s' = dues s ++ ds /\ Forall2 (lineFor (o_all o) w) ds (startShown xp w o s).
Proof.
  intros Hg. unfold startProcesses, startShown.
  destruct (e_aborted s) eqn:Eab; cbn [orb]; [intros [= <-] _; exists []; by rewrite app_nil_r|].
  destruct (negb _ || isNil (e_avail s)); [intros [= <-] _; exists []; by rewrite app_nil_r|].
  assert (forall next mk g log, let s2 := addLog log (s <| e_next := next |> <| e_mk := mk |> <| e_g := g |>) in
    match next with
      | Some t =>
        if noneRunning o s2 then buildNextTarget prep kind o ch s2
        else Some (s2 <| e_acq ::= S |> <| e_acquiring := ARequested |>)
      | None =>
        if noneRunning o s2 then
          match e_pending s2 with
          | [] => Some (finishBuild o 0 s2)
          | None :: _ => Some (ended ECrash s2)
          | Some t :: pending =>
            let s1 := newRoot w t (s2 <| e_g ::= clearGraph |> <| e_mk ::= invalidateTimeStamps |>
                                   <| e_pending := pending |>) in
            Some (if e_end s1 then s1 else s1 <| e_queue ::= S |>)
          end
        else Some s2
    end = Some s' -> regular (e_end s') -> dues s' = decisions (e_log s) ++ decisions log ++ waiting next) as Hrest.
  { intros next mk g log s2 H Hr.
    assert (dues s2 = decisions (e_log s) ++ decisions log ++ waiting next) as <-.
    { unfold dues, s2, addLog. cbn. by rewrite decisions_app, app_assoc. }
    destruct next as [t|].
    - destruct (noneRunning o s2); [by eapply next_dues|]. by injection H as <-.
    - destruct (noneRunning o s2); [|by injection H as <-].
      destruct (e_pending s2) as [|[t|] pending]; [by injection H as <-| |by injection H as <-].
      cbv zeta in H. set (x := s2 <| e_g ::= clearGraph |> <| e_mk ::= invalidateTimeStamps |> <| e_pending := pending |>) in H.
      assert (quiet s2 (newRoot w t x)) as Hx by (eapply (quiet_trans _ x); [done|apply newRoot_quiet]).
      apply quiet_dues. clearbody x. injection H as <-. by destruct (e_end (newRoot w t x)). }
  destruct (e_next s) as [t|] eqn:En.
  - intros H Hr. apply (Hrest (Some t) (e_mk s) (e_g s) []) in H; [|done]. exists []. rewrite app_nil_r, H. unfold dues. by rewrite En.
  - destruct (findNextTarget xp w o _ (e_mk s) (e_g s) []) as [[[[next mk] g] log]| |c| |] eqn:Ef.
    + intros H Hr. apply (Hrest next mk g log) in H; [|done].
      apply next_lines in Ef as (es & -> & F); [|by apply Hg|lia].
      exists (decisions es ++ waiting next). split; [|exact F]. rewrite H. unfold dues. rewrite En. cbn [waiting]. by rewrite app_nil_r.
    + intros [= <-]. done.
    + pose proof (findNextTarget_spec w o xp (S (S (size (g_nodes (e_g s))))) (e_mk s) (e_g s) [] (Hg eq_refl eq_refl) ltac:(lia)) as Hsp.
      by rewrite Ef in Hsp.
    + by intros [= <-].
    + by intros [= <-].
Qed.

Lemma step_dues s e s' : (e_aborted s = false -> e_next s = None -> gwf (e_g s)) -> step xp prep kind w o s e = Some s' -> regular (e_end s') ->
  exists ds, dues s' = dues s ++ ds /\ Forall2 (lineFor (o_all o) w) ds (stepShown xp w o s e).
Proof.
  intros Hg H Hr. unfold step in H. destruct (e_end s); [done|].
  assert (forall x, quiet s x -> s' = x -> exists ds, dues s' = dues s ++ ds /\ Forall2 (lineFor (o_all o) w) ds []) as Hq.
  { intros x Hx ->. exists []. by rewrite app_nil_r, (quiet_dues s x Hx). }
  destruct e as [ch| |ch|k code ch|k]; cbn [stepShown].
  - destruct (e_queue s) as [|q]; [done|]. by apply (start_dues ch (s <| e_queue := q |>)) in H.
  - destruct (e_acquiring s); try done. injection H as <-. (eapply Hq; [|reflexivity]; done).
  - destruct (e_acquiring s); try done. destruct (buildNextTarget _ _ _ _ _) as [s1|] eqn:Eb; [|done].
    assert (regular (e_end s1)) as Hr1.
    { destruct (e_end s1) as [x|] eqn:E1; [injection H as <-; by rewrite E1 in Hr|done]. }
    apply next_dues in Eb; [|done]. exists []. rewrite app_nil_r. split; [|constructor].
    destruct (e_end s1); [by injection H as <-|]. destruct (e_wait s) as [[k'|]|]; by injection H as <-.
  - destruct (jobOf k s) as [j|] eqn:Ej; [|done]. destruct (decide (j_state j = JWatched)); [|done].
    destruct (code =? stillActive)%N; [injection H as <-; (eapply Hq; [|reflexivity]; done)|].
    unfold processExit in H. destruct (j_cmds j) as [|c rest]; [injection H as <-; (eapply Hq; [|reflexivity]; done)|].
    set (sx := addLog [LExit (j_target j) c code] s) in H.
    assert (quiet s sx) as H1 by by apply quiet_log. clearbody sx.
    destruct (c_max c <? effectiveCode code)%N.
    { destruct (ch_codes ch); [|done]. injection H as <-. eapply Hq; [|done]. eapply quiet_trans; [exact H1|apply quiet_child]. }
    destruct (runCmds _ _ _ _ _) as [r|] eqn:Er; [|done]. apply runCmds_none in Er.
    assert (forall l, decisions l = [] -> quiet s (addLog l sx)) as H2.
    { intros l Hl. eapply quiet_trans; [exact H1|]. by apply quiet_log. }
    destruct r as [failed l|rest' l|l]; injection H as H; symmetry in H; (eapply Hq; [|exact H]).
    + match goal with |- quiet _ (match e_end ?x with _ => _ end) =>
        assert (quiet s x) as Hx by (eapply quiet_trans; [by apply (H2 l)|apply quiet_child]); destruct (e_end x); [done|] end.
      destruct (e_wait _) as [[k'|]|]; try done. destruct (failed && negb (o_keep o)); [done|]. destruct (Nat.eqb k k'); [|done].
      eapply quiet_trans; [exact Hx|apply quiet_wait].
    + match goal with |- quiet _ (if ?b then waitFrom _ _ _ ?x else _) =>
        assert (quiet s x) as Hx by (eapply quiet_trans; [by apply (H2 l)|done]); destruct b end; [|exact Hx].
      eapply quiet_trans; [exact Hx|apply quiet_wait].
    + eapply quiet_trans; [by apply (H2 l)|done].
  - destruct (jobOf k s) as [j|] eqn:Ej; [|done]. destruct (j_state j); try done. injection H as <-. (eapply Hq; [|reflexivity]; done).
Qed.

Lemma inv_gwf roots s : SInv kind w o roots s -> e_aborted s = false -> gwf (e_g s).
Proof.
  intros [F|(pre & r & mk0 & evs & C & HA)] Hab.
  - destruct F as (_ & _ & _ & F4 & F5 & _).
    assert (forall t, not (inG (e_g s) t)) as Hno by (intros t; unfold inG; rewrite F4; by intros [? ?]).
    split.
    + split; intros; try (by edestruct Hno); unfold childrenOf, parentsOf in *; rewrite F4 in *; cbn in *; try set_solver; try constructor.
    + rewrite F5. constructor.
    + intros t. rewrite F5. split; [by intros ?%elem_of_nil|]. by intros [?%Hno _].
    + intros t _ ?%Hno. done.
  - rewrite Hab in HA. destruct HA as [N _]. apply (gi_wf _ _ _ _ _ _ _ _ (na_gi _ _ _ _ _ _ N)).
Qed.

Lemma run_dues roots es : (0 < o_jobs o) -> forall s s', SInv kind w o roots s -> e_end s = None -> run xp prep kind w o s es = Some s' -> regular (e_end s') ->
  exists ds, dues s' = dues s ++ ds /\ Forall2 (lineFor (o_all o) w) ds (runShown xp prep kind w o s es).
Proof.
  intros Hj. induction es as [|e es IH]; intros s s' HI He H Hr; cbn [run runShown] in *.
  { injection H as <-. exists []. by rewrite app_nil_r. }
  destruct (step xp prep kind w o s e) as [s1|] eqn:Es; [|done].
  destruct (step_good xp prep kind w o roots Hj True s e s1 HI ltac:(done) Es) as [[He1 HI1]|[He1 G]].
  - destruct (step_dues s e s1) as (ds1 & E1 & F1); [intros; by eapply inv_gwf|done|by rewrite He1|].
    destruct (IH s1 s' HI1 He1 H Hr) as (ds2 & E2 & F2). exists (ds1 ++ ds2). rewrite E2, E1, app_assoc. split; [done|]. by apply Forall2_app.
  - assert (es = [] /\ s' = s1) as [-> ->].
    { destruct es as [|e2 es]; cbn [run] in H; [by injection H as <-|]. destruct He1 as [x Hx]. unfold step in H. by rewrite Hx in H. }
    destruct (step_dues s e s1) as (ds1 & E1 & F1); [intros; by eapply inv_gwf|done|done|]. exists ds1. cbn [runShown]. by rewrite app_nil_r.
Qed.
Lemma init_dues mk rest q : dues (initState o mk rest q) = [].
Proof. done. Qed.
Lemma apply_dues mk names s0 : apply w o mk names = Ok s0 -> dues s0 = [].
Proof.
  unfold apply. cbv zeta.
  assert (forall t rest, (let s := newRoot w t (initState o mk rest 1) in match e_end s with
      | Some (EExit c) => Exits c | Some EError => Throws | Some ECrash => Crashes | Some EDiverge => Diverges
      | None => if o_dump o then match dumpNode (S (size (g_nodes (e_g s)))) (e_g s) 0 t with Some _ => Ok s | None => Diverges end
                else Ok (s <| e_queue := 2%nat |>) end) = Ok s0 -> dues s0 = []) as Hn.
  { intros t rest. cbv zeta. pose proof (newRoot_quiet t (initState o mk rest 1)) as Hq. apply quiet_dues in Hq. rewrite init_dues in Hq.
    generalize dependent (newRoot w t (initState o mk rest 1)). intros s Hs.
    destruct (e_end s) as [[]|]; try done. destruct (o_dump o); [|by intros [= <-]].
    destruct (dumpNode _ _ _ _); [|done]. by intros [= <-]. }
  destruct names as [|n ns].
  - destruct (decide _); [by intros [= <-]|]. destruct (mk_first mk); [apply Hn|done].
  - destruct (mk_find mk n); [apply Hn|done].
Qed.
End Build.

(** *** No target is decided about twice in a pass *)
Lemma decided evs t : t ∈ map fst (decisions evs) -> started evs t \/ dealtWith evs t.
Proof.
  intros H. apply elem_of_list_In, in_map_iff in H as ([x m] & E & Hin). cbn in E. subst x. apply elem_of_list_In in Hin.
  unfold decisions in Hin. apply elem_of_list_omap in Hin as (e & He & Hd).
  destruct e; cbn in Hd; try done; injection Hd as -> <-.
  - right. right. left. eauto.
  - right. right. right. left. eauto.
  - right. by do 3 right.
  - left. by eexists.
Qed.
Lemma decisions_nodup evs : (forall pre e post t m, evs = pre ++ e :: post -> decision e = Some (t, m) -> not (started pre t) /\ not (dealtWith pre t)) ->
  NoDup (map fst (decisions evs)).
Proof.
  induction evs as [|e evs IH] using rev_ind; intros H; [constructor|].
  rewrite decisions_app, map_app. assert (NoDup (map fst (decisions evs))) as Hn.
  { apply IH. intros pre e' post t m E. apply (H pre e' (post ++ [e])). rewrite E, <- app_assoc. done. }
  unfold decisions at 2. cbn. destruct (decision e) as [[t m]|] eqn:Ed; cbn; [|by rewrite app_nil_r].
  destruct (H evs e [] t m eq_refl Ed) as [H1 H2].
  apply NoDup_app. split_and!; [done| |apply NoDup_singleton].
  intros x Hx ->%elem_of_list_singleton. by destruct (decided _ _ Hx).
Qed.
