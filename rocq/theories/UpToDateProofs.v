(** Lemmas about the up-to-date check. *)
From stdpp Require Import prelude gmap.
From Verif Require Import Base BaseProofs Data Infer UpToDate UpToDateSpec.
Local Open Scope N_scope.

Lemma stamp_dec sn mk d : (exists ts, hasStamp sn mk d ts) \/ (forall ts, ~ hasStamp sn mk d ts).
Proof.
  unfold hasStamp. destruct (blockOf mk d) as [b|] eqn:E.
  - destruct (decide (b_time b = 0)) as [Z|NZ].
    + destruct (sn_stat sn d) as [tm|] eqn:S.
      * destruct (decide (tm = 0)) as [->|N0].
        -- right. intros ts [H1 [(b' & Hb & Ht)|[_ H2]]].
           ++ injection Hb as <-. congruence.
           ++ congruence.
        -- left. exists tm. split; [done|]. right. split; [|done]. intros b' Hb. injection Hb as <-. done.
      * right. intros ts [H1 [(b' & Hb & Ht)|[_ H2]]]; [|done]. injection Hb as <-. congruence.
    + left. exists (b_time b). split; [done|]. left. by exists b.
  - destruct (sn_stat sn d) as [tm|] eqn:S.
    + destruct (decide (tm = 0)) as [->|N0].
      * right. intros ts [H1 [(b' & Hb & Ht)|[_ H2]]]; congruence.
      * left. exists tm. split; [done|]. right. split; [|done]. intros b' Hb. done.
    + right. intros ts [H1 [(b' & Hb & Ht)|[_ H2]]]; congruence.
Qed.

Lemma stamp_fun sn mk d a b : hasStamp sn mk d a -> hasStamp sn mk d b -> a = b.
Proof.
  intros [Ha [(x & Hx & Ta)|[Na Sa]]] [Hb [(y & Hy & Tb)|[Nb Sb]]].
  - congruence.
  - apply Nb in Hx. congruence.
  - apply Na in Hy. congruence.
  - congruence.
Qed.

Lemma latest_spec sn mk deps acc tm :
  latestDependentTime sn mk deps acc <= tm <->
  ((exists d, d ∈ deps /\ countsAsNow sn mk d) -> sn_now sn <= tm) /\
  ((forall d, d ∈ deps -> ~ countsAsNow sn mk d) ->
   acc <= tm /\ forall d ts, d ∈ deps -> hasStamp sn mk d ts -> ts <= tm).
Proof.
  revert acc. induction deps as [|d deps IH]; intros acc.
  { cbn. split.
    - intros H. split; [intros (d & Hd & _); by apply elem_of_nil in Hd|].
      intros _. split; [done|]. intros d ts Hd. by apply elem_of_nil in Hd.
    - intros [_ H]. apply H. intros d Hd. by apply elem_of_nil in Hd. }
  assert (Now : countsAsNow sn mk d ->
    sn_now sn <= tm <->
    ((exists d', d' ∈ d :: deps /\ countsAsNow sn mk d') -> sn_now sn <= tm) /\
    ((forall d', d' ∈ d :: deps -> ~ countsAsNow sn mk d') ->
     acc <= tm /\ forall d' ts, d' ∈ d :: deps -> hasStamp sn mk d' ts -> ts <= tm)).
  { intros Hc. split.
    - intros H. split; [done|]. intros Hn. exfalso. apply (Hn d); [left|done].
    - intros [H _]. apply H. exists d. split; [left|done]. }
  assert (Later : forall ts, ~ countsAsNow sn mk d -> hasStamp sn mk d ts ->
    latestDependentTime sn mk deps (if acc <? ts then ts else acc) <= tm <->
    ((exists d', d' ∈ d :: deps /\ countsAsNow sn mk d') -> sn_now sn <= tm) /\
    ((forall d', d' ∈ d :: deps -> ~ countsAsNow sn mk d') ->
     acc <= tm /\ forall d' ts, d' ∈ d :: deps -> hasStamp sn mk d' ts -> ts <= tm)).
  { intros ts Hnc Hts. rewrite IH. split.
    - intros [H1 H2]. split.
      + intros (d' & Hd & Hc). apply elem_of_cons in Hd as [->|Hd]; [done|]. apply H1. by exists d'.
      + intros Hn. destruct H2 as [H2 H3]. { intros d' Hd. apply Hn. by right. }
        split; [destruct (N.ltb_spec acc ts); lia|].
        intros d' ts' Hd Hts'. apply elem_of_cons in Hd as [->|Hd]; [|by eapply H3].
        rewrite (stamp_fun _ _ _ _ _ Hts' Hts). destruct (N.ltb_spec acc ts); lia.
    - intros [H1 H2]. split.
      + intros (d' & Hd & Hc). apply H1. exists d'. split; [by right|done].
      + intros Hn. destruct H2 as [H2 H3].
        { intros d' Hd. apply elem_of_cons in Hd as [->|Hd]; [done|by apply Hn]. }
        split.
        * destruct (N.ltb_spec acc ts); [|done]. apply (H3 d); [left|done].
        * intros d' ts' Hd. apply H3. by right. }
  cbn [latestDependentTime].
  destruct (match mk_find mk d with Some k => mk_targets mk !! k | None => None end) as [b|] eqn:Eb.
  - destruct (negb (b_exists b) && negb (isNil (b_cmds b))) eqn:Ep.
    + apply Now. left. exists b. apply andb_true_iff in Ep as [E1 E2]. split; [done|].
      split; [by destruct (b_exists b)|]. by destruct (b_cmds b).
    + assert (Hnp : ~ pseudoWithCommands mk d).
      { intros (b' & Hb & He & Hc). unfold blockOf in Hb. rewrite Eb in Hb. injection Hb as <-.
        rewrite He in Ep. destruct (b_cmds b); [done|]. done. }
      destruct (N.eqb_spec (b_time b) 0) as [Z|NZ].
      * unfold statTime. destruct (sn_stat sn d) as [x|] eqn:S.
        -- destruct (N.eqb_spec x 0) as [Zx|NZx].
           ++ apply Now. right. intros ts [H1 [(b' & Hb & Ht)|[_ H2]]]; [|congruence].
              unfold blockOf in Hb. rewrite Eb in Hb. injection Hb as <-. congruence.
           ++ assert (Hs : hasStamp sn mk d x).
              { split; [done|]. right. split; [|done]. intros b' Hb.
                unfold blockOf in Hb. rewrite Eb in Hb. by injection Hb as <-. }
              apply Later; [|done]. intros [H|H]; [done|]. by apply (H x).
        -- cbn. apply Now. right. intros ts [H1 [(b' & Hb & Ht)|[_ H2]]]; [|congruence].
           unfold blockOf in Hb. rewrite Eb in Hb. injection Hb as <-. congruence.
      * destruct (N.eqb_spec (b_time b) 0) as [|_]; [done|].
        assert (Hs : hasStamp sn mk d (b_time b)). { split; [done|]. left. by exists b. }
        apply Later; [|done]. intros [H|H]; [done|]. by apply (H (b_time b)).
  - assert (Hnp : ~ pseudoWithCommands mk d).
    { intros (b' & Hb & He & Hc). unfold blockOf in Hb. by rewrite Eb in Hb. }
    unfold statTime. destruct (sn_stat sn d) as [x|] eqn:S.
    + destruct (N.eqb_spec x 0) as [Zx|NZx].
      * apply Now. right. intros ts [H1 [(b' & Hb & Ht)|[_ H2]]]; [|congruence].
        unfold blockOf in Hb. by rewrite Eb in Hb.
      * assert (Hs : hasStamp sn mk d x).
        { split; [done|]. right. split; [|done]. intros b' Hb. unfold blockOf in Hb. by rewrite Eb in Hb. }
        apply Later; [|done]. intros [H|H]; [done|]. by apply (H x).
    + cbn. apply Now. right. intros ts [H1 [(b' & Hb & Ht)|[_ H2]]]; [|congruence].
      unfold blockOf in Hb. by rewrite Eb in Hb.
Qed.

(** Looking a name up does not depend on the contents of the blocks. *)
Lemma mk_find_setBlock mk t b n : is_Some (mk_targets mk !! t) -> mk_find (setBlock mk t b) n = mk_find mk n.
Proof.
  intros [x Hx]. unfold mk_find, setBlock. cbn [mk_targets].
  assert (H : forall k (A : Type) (x y : A),
    match <[t:=b]> (mk_targets mk) !! k with Some _ => x | None => y end
    = match mk_targets mk !! k with Some _ => x | None => y end).
  { intros k A u v. destruct (decide (k = t)) as [->|].
    - by rewrite lookup_insert, Hx.
    - by rewrite lookup_insert_ne. }
  cbn zeta. by rewrite !H.
Qed.

Lemma blockOf_setBlock mk t b d : is_Some (mk_targets mk !! t) -> mk_find mk d <> Some t ->
  blockOf (setBlock mk t b) d = blockOf mk d.
Proof.
  intros Ht Hd. unfold blockOf. rewrite mk_find_setBlock by done.
  destruct (mk_find mk d) as [k|]; [|done]. cbn. rewrite lookup_insert_ne; [done|congruence].
Qed.

(** The check only depends on the blocks of the dependents. *)
Definition sameDeps (mk mk' : mkfile) (deps : list qstr) : Prop :=
  forall d, d ∈ deps -> blockOf mk' d = blockOf mk d.

Lemma hasStamp_same sn mk mk' d ts : blockOf mk' d = blockOf mk d -> hasStamp sn mk' d ts <-> hasStamp sn mk d ts.
Proof. intros E. unfold hasStamp. by rewrite E. Qed.
Lemma pseudo_same mk mk' d : blockOf mk' d = blockOf mk d -> pseudoWithCommands mk' d <-> pseudoWithCommands mk d.
Proof. intros E. unfold pseudoWithCommands. by rewrite E. Qed.
Lemma counts_same sn mk mk' d : blockOf mk' d = blockOf mk d -> countsAsNow sn mk' d <-> countsAsNow sn mk d.
Proof.
  intros E. unfold countsAsNow. rewrite (pseudo_same mk mk') by done.
  split; (intros [H|H]; [by left|right; intros ts Hs; apply (H ts)]);
    revert Hs; apply hasStamp_same; done.
Qed.
Lemma latest_same sn mk mk' deps acc : sameDeps mk mk' deps ->
  latestDependentTime sn mk' deps acc = latestDependentTime sn mk deps acc.
Proof.
  revert acc. induction deps as [|d deps IH]; intros acc H; [done|].
  cbn [latestDependentTime]. pose proof (H d ltac:(left)) as Hd. unfold blockOf in Hd. rewrite Hd.
  assert (Hs : sameDeps mk mk' deps) by (intros x Hx; apply H; by right).
  destruct (match mk_find mk d with Some k => mk_targets mk !! k | None => None end) as [b|].
  - rewrite !IH by done. done.
  - rewrite !IH by done. done.
Qed.

(** ** upToDateCore *)
Definition noteFile (sn : snap) (b : block) : block :=
  match sn_stat sn (b_name b) with Some tm => setExists tm b | None => b end.

Lemma noteFile_fields sn b : b_name (noteFile sn b) = b_name b /\ b_deps (noteFile sn b) = b_deps b /\
  b_cmds (noteFile sn b) = b_cmds b /\ b_rules (noteFile sn b) = b_rules b /\ b_acs (noteFile sn b) = b_acs b.
Proof. unfold noteFile. by destruct (sn_stat sn (b_name b)). Qed.
Lemma noteFile_exists sn b : b_exists (noteFile sn b) = true <-> fileSeen sn b.
Proof.
  unfold noteFile, fileSeen. destruct (sn_stat sn (b_name b)); cbn.
  - split; [left; done|done].
  - split; [by right|intros [H|H]; done].
Qed.
Lemma noteFile_time sn b : b_time (noteFile sn b) = fileTime sn b.
Proof. unfold noteFile, fileTime. by destruct (sn_stat sn (b_name b)). Qed.

Lemma core_result sn mk t b : mk_targets mk !! t = Some b ->
  (forall d, d ∈ b_deps b -> mk_find mk d <> Some t) ->
  (fst (upToDateCore sn mk t) = true <->
   fileSeen sn b /\ (b_deps b = [] \/ noneNewerCode sn mk (b_deps b) (fileTime sn b))).
Proof.
  intros Hb Hown. unfold upToDateCore. rewrite Hb. fold (noteFile sn b).
  destruct (noteFile_fields sn b) as (_ & E & _). rewrite E.
  pose proof (noteFile_exists sn b) as He. pose proof (noteFile_time sn b) as Ht.
  destruct (isNil (b_deps b)) eqn:En.
  - assert (b_deps b = []) as -> by (by destruct (b_deps b)). cbn [fst].
    rewrite He. split; [intros H; split; [done|by left]|by intros [H _]].
  - assert (Hne : b_deps b <> []) by (by destruct (b_deps b)).
    cbn [fst]. rewrite (latest_same sn mk).
    2:{ intros d Hd. apply blockOf_setBlock; [by rewrite Hb|by apply Hown]. }
    rewrite andb_true_iff. rewrite N.leb_le.
    destruct (b_exists (noteFile sn b)) eqn:Ex.
    + rewrite Ex, Ht, latest_spec.
      assert (Hseen : fileSeen sn b) by (by apply He). clear He.
      split.
      * intros [_ [H1 H2]]. split; [done|]. right. split; [done|]. intros Hn. by apply H2.
      * intros [_ [H|[H1 H2]]]; [done|]. split; [done|]. split; [done|].
        intros Hn. split; [lia|]. by apply H2.
    + cbn [setTime b_exists]. rewrite Ex. split; [by intros [? _]|]. intros [H _]. apply He in H. done.
Qed.

(** What the check leaves behind. *)
Record sameButTime (b b' : block) : Prop := {
  st_name : b_name b' = b_name b;
  st_deps : b_deps b' = b_deps b;
  st_cmds : b_cmds b' = b_cmds b;
  st_rules : b_rules b' = b_rules b;
  st_acs : b_acs b' = b_acs b;
}.
Lemma sbt_refl b : sameButTime b b. Proof. done. Qed.
Lemma sbt_note sn b : sameButTime b (noteFile sn b).
Proof. destruct (noteFile_fields sn b) as (?&?&?&?&?). by split. Qed.
Lemma sbt_time tm b b' : sameButTime b b' -> sameButTime b (setTime tm b').
Proof. intros []. by split. Qed.
Lemma sbt_trans a b c : sameButTime a b -> sameButTime b c -> sameButTime a c.
Proof. intros [] []. split; congruence. Qed.

Lemma setBlock_fields mk t b : mk_first (setBlock mk t b) = mk_first mk /\ mk_dir (setBlock mk t b) = mk_dir mk.
Proof. done. Qed.
Lemma setBlock_twice mk t b b' : setBlock (setBlock mk t b) t b' = setBlock mk t b'.
Proof. unfold setBlock. cbn. by rewrite insert_insert. Qed.

Lemma core_frame sn mk t b : mk_targets mk !! t = Some b ->
  exists b', snd (upToDateCore sn mk t) = setBlock mk t b' /\ sameButTime b b' /\
    (b_exists b' = true <-> fileSeen sn b) /\ (fileSeen sn b -> b_time b' = fileTime sn b).
Proof.
  intros Hb. unfold upToDateCore. rewrite Hb. fold (noteFile sn b).
  pose proof (sbt_note sn b) as Hs. pose proof (noteFile_exists sn b) as He. pose proof (noteFile_time sn b) as Ht.
  destruct (isNil (b_deps (noteFile sn b))).
  - exists (noteFile sn b). done.
  - cbn [snd]. rewrite setBlock_twice.
    destruct (b_exists (noteFile sn b)) eqn:Ex.
    + exists (noteFile sn b). rewrite Ex. done.
    + eexists. split; [done|]. split; [by apply sbt_time|]. cbn [setTime b_exists]. rewrite Ex.
      split; [done|]. intros H. apply He in H. done.
Qed.

Lemma forget_frame u mk t b : mk_targets mk !! t = Some b ->
  exists b', forgetTime (u, mk) t = (u, setBlock mk t b') /\ sameButTime b b' /\ b_exists b' = b_exists b /\
    b_time b' = (if negb u && b_exists b then 0 else b_time b).
Proof.
  intros Hb. unfold forgetTime. rewrite Hb. destruct (negb u && b_exists b).
  - eexists. split; [done|]. done.
  - exists b. split; [|done]. unfold setBlock. rewrite insert_id by done. by destruct mk.
Qed.

(** ** Dependents added by rules *)
Lemma containsStr_spec d l : containsStr d l = true <-> d ∈ l.
Proof.
  unfold containsStr. rewrite existsb_exists. split.
  - intros (x & Hx & He). apply qeqb_spec in He as ->. by apply elem_of_list_In.
  - intros H. exists d. split; [by apply elem_of_list_In|]. by apply qeqb_spec.
Qed.

Lemma addInferred_spec sn name rs deps d :
  d ∈ addInferred sn name rs deps <->
  d ∈ deps \/ ((exists r, r ∈ rs /\ d = inferredDependent r name) /\ sn_stat sn d <> None).
Proof.
  revert deps. induction rs as [|r rs IH]; intros deps; cbn [addInferred].
  { split; [by left|]. intros [H|[(r & Hr & _) _]]; [done|]. by apply elem_of_nil in Hr. }
  rewrite IH. set (e := inferredDependent r name).
  assert (Hin : d ∈ (if negb (containsStr e deps) && match sn_stat sn e with Some _ => true | None => false end
                     then deps ++ [e] else deps) <-> d ∈ deps \/ (d = e /\ sn_stat sn e <> None)).
  { destruct (containsStr e deps) eqn:Ec; cbn [negb andb].
    - apply containsStr_spec in Ec. split; [by left|]. by intros [H|[-> _]].
    - destruct (sn_stat sn e) eqn:Es.
      + rewrite elem_of_app, elem_of_list_singleton. split; intros [H|H]; try by left.
        * right. by split.
        * right. by destruct H.
      + split; [by left|]. by intros [H|[_ H]]. }
  rewrite Hin. split.
  - intros [[H|[-> H]]|[(r' & Hr & ->) H]].
    + by left.
    + right. split; [|done]. exists r. split; [left|done].
    + right. split; [|done]. exists r'. split; [by right|done].
  - intros [H|[(r' & Hr & ->) H]].
    + by left; left.
    + apply elem_of_cons in Hr as [->|Hr].
      * left. right. done.
      * right. split; [|done]. by exists r'.
Qed.

Lemma addInferred_length sn name rs deps :
  (length deps <= length (addInferred sn name rs deps))%nat /\
  (length (addInferred sn name rs deps) = length deps -> addInferred sn name rs deps = deps).
Proof.
  revert deps. induction rs as [|r rs IH]; intros deps; cbn [addInferred]; [done|].
  set (b := negb _ && _).
  destruct (IH (if b then deps ++ [inferredDependent r name] else deps)) as [H1 H2].
  destruct b.
  - rewrite app_length in *. cbn in *. split; [lia|]. intros E. lia.
  - done.
Qed.

(** ** The whole check *)
Lemma newer_ext sn mk ds ds' tm : (forall d, d ∈ ds <-> d ∈ ds') ->
  noneNewerCode sn mk ds tm <-> noneNewerCode sn mk ds' tm.
Proof.
  intros E. unfold noneNewerCode.
  assert (H1 : (exists d, d ∈ ds /\ countsAsNow sn mk d) <-> (exists d, d ∈ ds' /\ countsAsNow sn mk d)).
  { split; intros (d & Hd & Hc); exists d; (split; [by apply E|done]). }
  rewrite H1. split; intros [H2 H3]; (split; [done|]); intros Hn d ts Hd; apply H3; try by apply E.
  - intros d' Hd'. apply Hn. by apply E.
  - intros d' Hd'. apply Hn. by apply E.
Qed.
Lemma newer_same sn mk mk' ds tm : sameDeps mk mk' ds ->
  noneNewerCode sn mk' ds tm <-> noneNewerCode sn mk ds tm.
Proof.
  intros E. unfold noneNewerCode.
  assert (Ec : forall d, d ∈ ds -> countsAsNow sn mk' d <-> countsAsNow sn mk d).
  { intros d Hd. apply counts_same. by apply E. }
  assert (Es : forall d ts, d ∈ ds -> hasStamp sn mk' d ts <-> hasStamp sn mk d ts).
  { intros d ts Hd. apply hasStamp_same. by apply E. }
  split; intros [H1 H2]; split.
  - intros (d & Hd & Hc). apply H1. exists d. split; [done|]. by apply Ec.
  - intros Hn d ts Hd Hs. apply (H2 ltac:(intros d' Hd' Hc; apply (Hn d'); [done|by apply Ec]) d); [done|]. by apply Es.
  - intros (d & Hd & Hc). apply H1. exists d. split; [done|]. by apply Ec.
  - intros Hn d ts Hd Hs. apply (H2 ltac:(intros d' Hd' Hc; apply (Hn d'); [done|by apply Ec]) d); [done|]. by apply Es.
Qed.
Lemma newer_nil sn mk tm : noneNewerCode sn mk [] tm.
Proof.
  split; [intros (d & Hd & _)|intros _ d ts Hd]; by apply elem_of_nil in Hd.
Qed.

Lemma core_result' sn mk t b : mk_targets mk !! t = Some b ->
  (forall d, d ∈ b_deps b -> mk_find mk d <> Some t) ->
  (fst (upToDateCore sn mk t) = true <-> fileSeen sn b /\ noneNewerCode sn mk (b_deps b) (fileTime sn b)).
Proof.
  intros Hb Ho. rewrite (core_result sn mk t b) by done. split; intros [H1 H2]; (split; [done|]).
  - destruct H2 as [->|H2]; [apply newer_nil|done].
  - by right.
Qed.

Lemma upd_result sn mk t b ds : mk_targets mk !! t = Some b -> notOwnDependent sn mk t b -> allDeps sn b ds ->
  (fst (isTargetUpToDateSnap sn mk t) = true <->
   fileSeen sn b /\ noneNewerCode sn mk (b_deps b) (fileTime sn b) /\ noneNewerCode sn mk ds (fileTime sn b)).
Proof.
  intros Hb Hown Hall.
  assert (Hown0 : forall d, d ∈ b_deps b -> mk_find mk d <> Some t) by (intros d Hd; apply Hown; by left).
  pose proof (core_result' sn mk t b Hb Hown0) as Hc.
  destruct (core_frame sn mk t b Hb) as (b1 & Hmk1 & Hs1 & He1 & Ht1).
  unfold isTargetUpToDateSnap. destruct (upToDateCore sn mk t) as [u mk1]. cbn [fst snd] in Hc, Hmk1. subst mk1.
  cbn [setBlock mk_targets]. rewrite lookup_insert. fold (setBlock mk t b1).
  assert (Fg : forall (v : bool) m, fst (forgetTime (v, m) t) = v).
  { intros v m. unfold forgetTime. destruct (mk_targets m !! t) as [x|]; [|done]. by destruct (negb v && b_exists x). }
  destruct u; cbn [andb].
  2:{ rewrite Fg. split; [done|]. intros (H1 & H2 & _). apply Hc. done. }
  assert (Hseen : fileSeen sn b /\ noneNewerCode sn mk (b_deps b) (fileTime sn b)) by (by apply Hc).
  clear Hc. destruct Hseen as [Hseen Hcode].
  destruct Hs1 as [En Ed Ec Er Ea].
  assert (Hx : forall d, d ∈ addInferred sn (b_name b1) (b_rules b1) (b_deps b1) <-> d ∈ ds).
  { intros d. rewrite addInferred_spec, En, Ed, Er. symmetry. apply Hall. }
  assert (Hstay : addInferred sn (b_name b1) (b_rules b1) (b_deps b1) = b_deps b1 ->
    (true = true <-> fileSeen sn b /\ noneNewerCode sn mk (b_deps b) (fileTime sn b)
                     /\ noneNewerCode sn mk ds (fileTime sn b))).
  { intros E. split; [|done]. intros _. split; [done|]. split; [done|].
    apply (newer_ext sn mk (b_deps b)); [|done]. intros d. rewrite <- Hx, E, Ed. done. }
  destruct (isNil (b_rules b1)) eqn:Enil; cbn [negb].
  { rewrite Fg. apply Hstay. by destruct (b_rules b1). }
  set (deps' := addInferred sn (b_name b1) (b_rules b1) (b_deps b1)) in *.
  destruct (addInferred_length sn (b_name b1) (b_rules b1) (b_deps b1)) as [L1 L2]. fold deps' in L1, L2.
  destruct (Nat.ltb_spec (length (b_deps b1)) (length deps')) as [Hlt|Hge].
  2:{ rewrite Fg. apply Hstay. apply L2. lia. }
  set (bx := setDeps deps' (setRules [] b1)).
  set (mkx := setBlock (setBlock mk t b1) t bx).
  assert (Hbx : mk_targets mkx !! t = Some bx) by (unfold mkx, setBlock; cbn; apply lookup_insert).
  assert (Hsome : is_Some (mk_targets mk !! t)) by (by rewrite Hb).
  assert (Hfx : forall n, mk_find mkx n = mk_find mk n).
  { intros n. unfold mkx. rewrite setBlock_twice. by apply mk_find_setBlock. }
  assert (Hownx : forall d, d ∈ deps' -> mk_find mk d <> Some t).
  { intros d Hd. apply Hx in Hd. apply Hall in Hd. by apply Hown. }
  assert (Hcx : fst (upToDateCore sn mkx t) = true <->
    fileSeen sn bx /\ noneNewerCode sn mkx (b_deps bx) (fileTime sn bx)).
  { apply core_result'; [done|]. intros d Hd. rewrite Hfx. by apply Hownx. }
  destruct (core_frame sn mkx t bx Hbx) as (b2 & Hmk2 & _).
  destruct (upToDateCore sn mkx t) as [u2 mk2]. cbn [fst snd] in Hcx, Hmk2. subst mk2.
  assert (Hl2 : mk_targets (setBlock mkx t b2) !! t = Some b2) by (unfold setBlock; cbn; apply lookup_insert).
  destruct (forget_frame u2 (setBlock mkx t b2) t b2 Hl2) as (b3 & -> & _).
  unfold setBlock at 1. cbn [mk_targets]. rewrite lookup_insert. rewrite Fg.
  rewrite Hcx.
  assert (Hseenx : fileSeen sn bx).
  { unfold fileSeen, bx. cbn. rewrite En. destruct Hseen as [H|H]; [by left|]. right. apply He1. by right. }
  assert (Htx : fileTime sn bx = fileTime sn b).
  { unfold fileTime, bx. cbn. rewrite En. destruct (sn_stat sn (b_name b)) eqn:Es; [done|].
    rewrite Ht1 by done. unfold fileTime. by rewrite Es. }
  rewrite Htx. unfold bx at 2. cbn [setDeps b_deps].
  rewrite (newer_same sn mk mkx deps').
  2:{ intros d Hd. unfold mkx. rewrite setBlock_twice. apply blockOf_setBlock; [done|by apply Hownx]. }
  rewrite (newer_ext sn mk deps' ds) by done. split; [by intros [? ?]|by intros (? & ? & ?)].
Qed.

Lemma upd_frame sn mk t b : mk_targets mk !! t = Some b ->
  exists b', snd (isTargetUpToDateSnap sn mk t) = setBlock mk t b' /\ sameButTime b b' /\
    (b_exists b' = true <-> fileSeen sn b) /\
    (fileSeen sn b -> b_time b' = if fst (isTargetUpToDateSnap sn mk t) then fileTime sn b else 0).
Proof.
  intros Hb. destruct (core_frame sn mk t b Hb) as (b1 & Hmk1 & Hs1 & He1 & Ht1).
  unfold isTargetUpToDateSnap. destruct (upToDateCore sn mk t) as [u mk1]. cbn [snd] in Hmk1. subst mk1.
  cbn [setBlock mk_targets]. rewrite lookup_insert. fold (setBlock mk t b1).
  assert (Fin : forall v bb, sameButTime b bb -> (b_exists bb = true <-> fileSeen sn b) ->
    (fileSeen sn b -> v = true -> b_time bb = fileTime sn b) ->
    exists b', snd (forgetTime (v, setBlock mk t bb) t) = setBlock mk t b' /\ sameButTime b b' /\
    (b_exists b' = true <-> fileSeen sn b) /\
    (fileSeen sn b -> b_time b' = if fst (forgetTime (v, setBlock mk t bb) t) then fileTime sn b else 0)).
  { intros v bb Hs He Ht.
    assert (Hl : mk_targets (setBlock mk t bb) !! t = Some bb) by (unfold setBlock; cbn; apply lookup_insert).
    destruct (forget_frame v (setBlock mk t bb) t bb Hl) as (b' & -> & Hs' & He' & Ht').
    exists b'. cbn [fst snd]. rewrite setBlock_twice. split; [done|]. split; [by eapply sbt_trans|].
    rewrite He'. split; [done|]. intros Hseen. rewrite Ht'. destruct v; cbn; [by apply Ht|].
    assert (b_exists bb = true) as -> by (by apply He). done. }
  destruct u; cbn [andb]; [|by apply Fin].
  destruct (isNil (b_rules b1)); cbn [negb]; [by apply Fin; [..|intros; apply Ht1]|].
  destruct (length (b_deps b1) <? _)%nat; [|by apply Fin; [..|intros; apply Ht1]].
  set (deps' := addInferred sn (b_name b1) (b_rules b1) (b_deps b1)).
  set (bx := setDeps deps' (setRules [] b1)).
  set (mkx := setBlock (setBlock mk t b1) t bx).
  assert (Hbx : mk_targets mkx !! t = Some bx) by (unfold mkx, setBlock; cbn; apply lookup_insert).
  destruct (core_frame sn mkx t bx Hbx) as (b2 & Hmk2 & Hs2 & He2 & Ht2).
  destruct (upToDateCore sn mkx t) as [u2 mk2]. cbn [snd] in Hmk2. subst mk2.
  assert (Hl2 : mk_targets (setBlock mkx t b2) !! t = Some b2) by (unfold setBlock; cbn; apply lookup_insert).
  destruct (forget_frame u2 (setBlock mkx t b2) t b2 Hl2) as (b3 & -> & Hs3 & He3 & Ht3).
  assert (Hl3 : mk_targets (setBlock (setBlock mkx t b2) t b3) !! t = Some b3)
    by (unfold setBlock; cbn; apply lookup_insert).
  rewrite Hl3. unfold mkx. rewrite !setBlock_twice.
  assert (Hfx : fileSeen sn bx <-> fileSeen sn b).
  { unfold fileSeen, bx. cbn. rewrite (st_name _ _ Hs1). rewrite He1. unfold fileSeen. tauto. }
  apply Fin.
  - destruct Hs1, Hs2, Hs3. split; cbn; try done; rewrite ?st_name2, ?st_cmds2, ?st_acs2, ?st_name1, ?st_cmds1, ?st_acs1; done.
  - cbn. rewrite He3, He2. done.
  - intros Hseen ->. cbn. rewrite Ht3. cbn. rewrite Ht2 by (by apply Hfx).
    unfold fileTime, bx. cbn. rewrite (st_name _ _ Hs1).
    destruct (sn_stat sn (b_name b)) eqn:Es; [done|]. rewrite Ht1 by done. unfold fileTime. by rewrite Es.
Qed.
