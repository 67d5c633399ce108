(** Lemmas about the cycle check and the preselection of rules. *)
From stdpp Require Import prelude gmap relations.
From Verif Require Import Base BaseProofs Data Infer UpToDate UpToDateProofs Graph Front FrontSpec.

Lemma mk_find_is mk n k : mk_find mk n = Some k -> is_Some (mk_targets mk !! k).
Proof.
  unfold mk_find. destruct (mk_targets mk !! toLower n) eqn:E; [intros [= <-]; eauto|].
  destruct (mk_targets mk !! replaceChar 47%N 92%N (toLower n)) eqn:E2; [|done]. intros [= <-]. eauto.
Qed.
Lemma edge_is mk x y : edge mk x y -> is_Some (mk_targets mk !! x) /\ is_Some (mk_targets mk !! y).
Proof. intros (b & d & Hb & _ & Hf). split; [eauto|]. by eapply mk_find_is. Qed.
Lemma edge_src mk x y : edge mk x y -> is_Some (mk_targets mk !! x).
Proof. intros H. by destruct (edge_is _ _ _ H). Qed.
Lemma edge_tgt mk x y : edge mk x y -> is_Some (mk_targets mk !! y).
Proof. intros H. by destruct (edge_is _ _ _ H). Qed.
Lemma tc_src mk x y : tc (edge mk) x y -> is_Some (mk_targets mk !! x).
Proof. intros H. inversion H; subst; by eapply edge_src. Qed.
Lemma tc_tgt mk x y : tc (edge mk) x y -> is_Some (mk_targets mk !! y).
Proof. intros H. induction H; [by eapply edge_tgt|done]. Qed.
Lemma cycle_is mk t : cycleReachable mk t -> is_Some (mk_targets mk !! t).
Proof. intros (x & H1 & H2). inversion H1; subst; [by eapply tc_src|by eapply edge_src]. Qed.
Lemma depsOf_edge mk t d c : d ∈ depsOf mk t -> mk_find mk d = Some c -> edge mk t c.
Proof.
  unfold depsOf. destruct (mk_targets mk !! t) as [b|] eqn:E; [|intros H; by apply elem_of_nil in H].
  intros Hd Hf. by exists b, d.
Qed.
Lemma edge_depsOf mk t c : edge mk t c -> exists d, d ∈ depsOf mk t /\ mk_find mk d = Some c.
Proof. intros (b & d & Hb & Hd & Hf). exists d. unfold depsOf. by rewrite Hb. Qed.

Lemma path_size (m : gmap tid block) (path : list tid) :
  NoDup path -> (forall p, p ∈ path -> is_Some (m !! p)) -> length path <= size m.
Proof.
  intros Hn Hin.
  rewrite <- (size_list_to_set (C := gset tid)) by done.
  rewrite <- (size_dom (D := gset tid)). apply subseteq_size.
  intros x Hx. apply elem_of_list_to_set in Hx. apply elem_of_dom. by apply Hin.
Qed.

Lemma rtc_cons mk x y z : edge mk x y -> rtc (edge mk) y z -> rtc (edge mk) x z.
Proof. apply rtc_l. Qed.

Lemma cycle_step mk t c : edge mk t c -> cycleReachable mk c -> cycleReachable mk t.
Proof. intros He (x & H1 & H2). exists x. split; [by eapply rtc_l|done]. Qed.

Lemma no_cycle_from_deps mk t :
  (forall c, edge mk t c -> ~ cycleReachable mk c) -> ~ cycleReachable mk t.
Proof.
  intros H (x & H1 & H2). inversion H1 as [|? y ? Hy H3]; subst.
  - inversion H2 as [? ? He|? y ? Hy H3]; subst.
    + apply (H x He). exists x. split; [done|]. by apply tc_once.
    + apply (H y Hy). exists x. split; [by apply tc_rtc|]. by eapply tc_l.
  - apply (H y Hy). by exists x.
Qed.

(** ** checkForCycles *)
Section Check.
Context (mk : mkfile).
Notation E := (edge mk).
Definition okDone (done : list tid) : Prop :=
  forall x, x ∈ done -> is_Some (mk_targets mk !! x) /\ ~ cycleReachable mk x.

Definition okRes (done : list tid) (from : tid -> Prop) (r : cycres) : Prop :=
  match r with
  | NoCycle done' => done ⊆ done' /\ okDone done'
  | CycleAt c => exists x, from x /\ rtc E x c /\ tc E c c
  | CycleFuel => False
  end.

Lemma checkDeps_ok (rec : list tid -> tid -> cycres) deps done :
  (forall done d c, okDone done -> d ∈ deps -> mk_find mk d = Some c ->
     okRes done (eq c) (rec done c) /\ (forall done', rec done c = NoCycle done' -> c ∈ done')) ->
  okDone done ->
  okRes done (fun x => exists d, d ∈ deps /\ mk_find mk d = Some x) (checkDeps rec mk deps done)
  /\ (forall done', checkDeps rec mk deps done = NoCycle done' ->
        forall d c, d ∈ deps -> mk_find mk d = Some c -> c ∈ done').
Proof.
  revert done. induction deps as [|d deps IH]; intros done Hrec Hd.
  { cbn. split; [done|]. intros done' _ d c H. by apply elem_of_nil in H. }
  cbn [checkDeps].
  assert (Hrec' : forall done d0 c, okDone done -> d0 ∈ deps -> mk_find mk d0 = Some c ->
    okRes done (eq c) (rec done c) /\ (forall done', rec done c = NoCycle done' -> c ∈ done')).
  { intros dn d0 c H1 H2. apply Hrec; [done|by right]. }
  destruct (mk_find mk d) as [c|] eqn:Ef.
  - destruct (Hrec done d c Hd ltac:(left) Ef) as [H1 H2].
    destruct (rec done c) as [dn|x|] eqn:Er.
    + destruct H1 as [H1 H3]. destruct (IH dn Hrec' H3) as [H4 H5].
      destruct (checkDeps rec mk deps dn) as [dn2|y|] eqn:Ec.
      * split.
        -- destruct H4 as [H4 H6]. split; [|done]. intros z Hz. apply H4, H1, Hz.
        -- intros done' [= <-] d' c' Hd' Hf. apply elem_of_cons in Hd' as [->|Hd'].
           ++ rewrite Ef in Hf. injection Hf as <-. destruct H4 as [H4 _]. apply H4. by apply H2.
           ++ by apply (H5 dn2 eq_refl d').
      * split; [|done]. destruct H4 as (z & (d' & Hd' & Hf) & Hz). exists z. split; [|done].
        exists d'. split; [by right|done].
      * done.
    + split; [|done]. destruct H1 as (z & <- & Hz). exists c. split; [|done]. exists d. split; [left|done].
    + done.
  - destruct (IH done Hrec' Hd) as [H4 H5]. split.
    + destruct (checkDeps rec mk deps done) as [dn2|y|]; [done| |done].
      destruct H4 as (z & (d' & Hd' & Hf) & Hz). exists z. split; [|done].
      exists d'. split; [by right|done].
    + intros done' Ec d' c' Hd' Hf. apply elem_of_cons in Hd' as [->|Hd']; [congruence|].
      by apply (H5 done' Ec d').
Qed.

Lemma check_ok fuel path done t :
  NoDup path -> (forall p, p ∈ path -> is_Some (mk_targets mk !! p)) -> is_Some (mk_targets mk !! t) ->
  size (mk_targets mk) < length path + fuel -> okDone done -> (forall p, p ∈ path -> tc E p t) ->
  okRes done (eq t) (checkForCycles fuel mk path done t)
  /\ (forall done', checkForCycles fuel mk path done t = NoCycle done' -> t ∈ done').
Proof.
  revert path done t. induction fuel as [|fuel IH]; intros path done t Hn Hp Ht Hsz Hd Hpath.
  { pose proof (path_size _ _ Hn Hp). lia. }
  cbn [checkForCycles].
  destruct (decide (t ∈ done)) as [Hin|Hnin]. { split; [by split|]. by intros done' [= <-]. }
  destruct (decide (t ∈ path)) as [Hinp|Hninp].
  { split; [|done]. exists t. split; [done|]. split; [done|]. by apply Hpath. }
  assert (Hrec : forall done d c, okDone done -> d ∈ rev (depsOf mk t) -> mk_find mk d = Some c ->
    okRes done (eq c) (checkForCycles fuel mk (t :: path) done c)
    /\ (forall done', checkForCycles fuel mk (t :: path) done c = NoCycle done' -> c ∈ done')).
  { intros dn d c Hdn Hin Hf.
    assert (He : E t c). { eapply depsOf_edge; [|done]. apply elem_of_list_In. apply in_rev. by apply elem_of_list_In. }
    apply IH.
    - by constructor.
    - intros p Hpp. apply elem_of_cons in Hpp as [->|Hpp]; [done|by apply Hp].
    - by eapply mk_find_is.
    - cbn. lia.
    - done.
    - intros p Hpp. apply elem_of_cons in Hpp as [->|Hpp]; [by apply tc_once|].
      eapply tc_r; [by apply Hpath|done]. }
  destruct (checkDeps_ok _ (rev (depsOf mk t)) done Hrec Hd) as [H1 H2].
  destruct (checkDeps (checkForCycles fuel mk (t :: path)) mk (rev (depsOf mk t)) done) as [dn|c|] eqn:Ec.
  - split; [|intros done' [= <-]; left]. destruct H1 as [H1 H3]. split.
    + intros z Hz. right. by apply H1.
    + intros x Hx. apply elem_of_cons in Hx as [->|Hx]; [|by apply H3].
      split; [done|]. apply no_cycle_from_deps. intros c Hc.
      destruct (edge_depsOf _ _ _ Hc) as (d & Hdd & Hf).
      apply (H3 c). apply (H2 dn eq_refl d); [|done].
      apply elem_of_list_In. apply -> in_rev. by apply elem_of_list_In.
  - split; [|done]. destruct H1 as (x & (d & Hdd & Hf) & Hx & Hc). exists t. split; [done|]. split; [|done].
    eapply rtc_l; [|exact Hx]. eapply depsOf_edge; [|done].
    apply elem_of_list_In. apply in_rev. by apply elem_of_list_In.
  - done.
Qed.

Lemma check_root done t : is_Some (mk_targets mk !! t) -> okDone done ->
  okRes done (eq t) (checkForCycles (S (size (mk_targets mk))) mk [] done t)
  /\ (forall done', checkForCycles (S (size (mk_targets mk))) mk [] done t = NoCycle done' -> t ∈ done').
Proof.
  intros Ht Hd. apply check_ok; try done.
  - constructor.
  - intros p Hp. by apply elem_of_nil in Hp.
  - cbn. lia.
  - intros p Hp. by apply elem_of_nil in Hp.
Qed.

(** ** resetCycleChecker *)
Lemma reset_ok fuel path done t :
  NoDup path -> (forall p, p ∈ path -> is_Some (mk_targets mk !! p)) -> is_Some (mk_targets mk !! t) ->
  size (mk_targets mk) < length path + fuel -> okDone done -> (forall p, p ∈ path -> tc E p t) ->
  exists done', resetCycleChecker fuel mk done t = Some done' /\ done' ⊆ done /\ t ∉ done'.
Proof.
  revert path done t. induction fuel as [|fuel IH]; intros path done t Hn Hp Ht Hsz Hd Hpath.
  { pose proof (path_size _ _ Hn Hp). lia. }
  cbn [resetCycleChecker]. destruct (decide (t ∈ done)) as [Hin|Hnin]; [|by exists done].
  assert (Hninp : t ∉ path).
  { intros H. apply (Hd t Hin). exists t. split; [done|]. by apply Hpath. }
  assert (Hrec : forall deps done, (forall d c, d ∈ deps -> mk_find mk d = Some c -> E t c) -> okDone done ->
    exists done', resetDeps (resetCycleChecker fuel mk) mk deps done = Some done' /\ done' ⊆ done).
  { intros deps. induction deps as [|d deps IHd]; intros dn He Hdn; [by exists dn|].
    cbn [resetDeps].
    assert (He' : forall d0 c, d0 ∈ deps -> mk_find mk d0 = Some c -> E t c) by (intros d0 c H; apply He; by right).
    destruct (mk_find mk d) as [c|] eqn:Ef; [|by apply IHd].
    assert (Hc : E t c) by (apply (He d); [left|done]).
    destruct (IH (t :: path) dn c) as (dn1 & -> & Hs & _).
    - by constructor.
    - intros p Hpp. apply elem_of_cons in Hpp as [->|Hpp]; [done|by apply Hp].
    - by eapply mk_find_is.
    - cbn. lia.
    - done.
    - intros p Hpp. apply elem_of_cons in Hpp as [->|Hpp]; [by apply tc_once|].
      eapply tc_r; [by apply Hpath|done].
    - destruct (IHd dn1 He') as (dn2 & -> & Hs2).
      { intros x Hx. by apply Hdn, Hs. }
      exists dn2. split; [done|]. by transitivity dn1. }
  destruct (Hrec (rev (depsOf mk t)) done) as (dn & -> & Hs); [|done|].
  { intros d c Hdd Hf. eapply depsOf_edge; [|done].
    apply elem_of_list_In. apply in_rev. by apply elem_of_list_In. }
  eexists. split; [done|].
  assert (Hfl : forall x, x ∈ List.filter (fun x => bool_decide (x <> t)) dn <-> x <> t /\ x ∈ dn).
  { intros x. rewrite elem_of_list_In, filter_In, <- elem_of_list_In, bool_decide_eq_true. tauto. }
  split.
  - intros x Hx. apply Hfl in Hx as [_ Hx]. by apply Hs.
  - intros H. apply Hfl in H. by destruct H.
Qed.
End Check.

(** ** Growing the makefile *)

(** [mk'] has all targets of [mk]; those that have dependents had the same ones in [mk]. *)
Record grown (mk mk' : mkfile) : Prop := {
  gr_dom : forall k, is_Some (mk_targets mk !! k) -> is_Some (mk_targets mk' !! k);
  gr_deps : forall k b', mk_targets mk' !! k = Some b' ->
    b_deps b' = [] \/ exists b, mk_targets mk !! k = Some b /\ b_deps b = b_deps b';
}.
Lemma grown_refl mk : grown mk mk.
Proof. split; [done|]. intros k x H. right. by exists x. Qed.
Lemma grown_trans m1 m2 m3 : grown m1 m2 -> grown m2 m3 -> grown m1 m3.
Proof.
  intros [H1 H2] [H3 H4]. split; [eauto|]. intros k bl H.
  destruct (H4 k bl H) as [|(b1 & Hb1 & E)]; [by left|].
  destruct (H2 k b1 Hb1) as [E1|(b0 & Hb0 & E0)]; [left; congruence|]. right. exists b0. split; [done|congruence].
Qed.

Lemma grown_find mk mk' n k : grown mk mk' -> mk_find mk' n = Some k -> is_Some (mk_targets mk !! k) ->
  mk_find mk n = Some k.
Proof.
  intros [H1 _]. unfold mk_find. cbn zeta.
  destruct (mk_targets mk' !! toLower n) eqn:E1.
  - intros [= <-] [bb Hb]. destruct (mk_targets mk !! toLower n) eqn:E2; [done|]. exfalso. clear -Hb E2. unfold tid, qstr, qchar in *. congruence.
  - destruct (mk_targets mk !! toLower n) eqn:E2.
    { destruct (H1 (toLower n)) as [x Hx]; [eauto|]. clear -Hx E1. unfold tid, qstr, qchar in *. congruence. }
    destruct (mk_targets mk' !! replaceChar 47%N 92%N (toLower n)); [|done].
    intros [= <-] [bb Hb]. destruct (mk_targets mk !! replaceChar 47%N 92%N (toLower n)) eqn:E3; [done|].
    exfalso. clear -Hb E3. unfold tid, qstr, qchar in *. congruence.
Qed.
Lemma grown_find_some mk mk' n : grown mk mk' -> is_Some (mk_find mk n) -> is_Some (mk_find mk' n).
Proof.
  intros [H1 _] [k Hk]. unfold mk_find in *. cbn zeta in *.
  destruct (mk_targets mk' !! toLower n) eqn:E1; [eauto|].
  destruct (mk_targets mk !! toLower n) eqn:E2.
  { exfalso. destruct (H1 (toLower n)) as [x Hx]; [eauto|]. clear -Hx E1. unfold tid, qstr, qchar in *. congruence. }
  destruct (mk_targets mk !! replaceChar 47%N 92%N (toLower n)) eqn:E3; [|done].
  destruct (H1 (replaceChar 47%N 92%N (toLower n))) as [x Hx]; [eauto|].
  destruct (mk_targets mk' !! replaceChar 47%N 92%N (toLower n)) eqn:E4; [eauto|].
  exfalso. clear -Hx E4. unfold tid, qstr, qchar in *. congruence.
Qed.
Lemma grown_edge mk mk' x y : grown mk mk' -> edge mk' x y -> is_Some (mk_targets mk !! y) -> edge mk x y.
Proof.
  intros G (b' & d & Hb & Hd & Hf) Hy. destruct (gr_deps _ _ G x b' Hb) as [E|(b & Hb0 & E)].
  - rewrite E in Hd. by apply elem_of_nil in Hd.
  - exists b, d. rewrite E. split; [done|]. split; [done|]. by eapply grown_find.
Qed.
Lemma grown_old mk mk' x y : grown mk mk' -> edge mk' x y -> is_Some (mk_targets mk !! x).
Proof.
  intros G (b' & d & Hb & Hd & Hf). destruct (gr_deps _ _ G x b' Hb) as [E|(b & Hb0 & E)].
  - rewrite E in Hd. by apply elem_of_nil in Hd.
  - eauto.
Qed.
Lemma grown_tc mk mk' x y : grown mk mk' -> tc (edge mk') x y -> is_Some (mk_targets mk !! y) -> tc (edge mk) x y.
Proof.
  intros G H. induction H as [x y H|x y z H H2 IH]; intros Hy.
  - apply tc_once. by eapply grown_edge.
  - eapply tc_l; [|by apply IH]. eapply grown_edge; [done|done|].
    inversion H2; subst; by eapply grown_old.
Qed.
Lemma grown_cycle mk mk' t : grown mk mk' -> cycleReachable mk' t -> cycleReachable mk t.
Proof.
  intros G (x & H1 & H2).
  assert (Hx : is_Some (mk_targets mk !! x)) by (inversion H2; subst; by eapply grown_old).
  exists x. split; [|by eapply grown_tc].
  apply rtc_tc in H1 as [->|H1]; [done|]. apply tc_rtc. by eapply grown_tc.
Qed.

Lemma selectOwn_grown exts rules mk t : grown mk (selectOwn exts rules mk t).
Proof.
  unfold selectOwn. destruct (mk_targets mk !! t) as [b|] eqn:E; [|apply grown_refl].
  destruct (isNil (b_cmds b)); [|apply grown_refl].
  destruct (isNil (findRules exts rules (b_name b))); [apply grown_refl|].
  split.
  - intros k Hk. cbn. destruct (decide (k = t)) as [->|]; [rewrite lookup_insert; eauto|by rewrite lookup_insert_ne].
  - intros k b'. cbn. destruct (decide (k = t)) as [->|].
    + rewrite lookup_insert. intros [= <-]. right. by exists b.
    + rewrite lookup_insert_ne by done. intros H. right. by exists b'.
Qed.
Lemma createTarget_grown mk n rs : grown mk (createTarget mk n rs).
Proof.
  split.
  - intros k Hk. cbn. destruct (decide (k = keyOf n)) as [->|]; [rewrite lookup_insert; eauto|by rewrite lookup_insert_ne].
  - intros k b'. cbn. destruct (decide (k = keyOf n)) as [->|].
    + rewrite lookup_insert. intros [= <-]. by left.
    + rewrite lookup_insert_ne by done. intros H. right. by exists b'.
Qed.

(** Preselection terminates on everything that passed the cycle check. *)
Section Presel.
Context (exts : list qstr) (rules : list rule) (mk0 : mkfile).

Lemma preselect_ok fuel path st t :
  grown mk0 (fst st) ->
  NoDup path -> (forall p, p ∈ path -> is_Some (mk_targets mk0 !! p)) -> is_Some (mk_targets (fst st) !! t) ->
  S (size (mk_targets mk0)) < length path + fuel -> ~ cycleReachable mk0 t ->
  (forall p, p ∈ path -> tc (edge mk0) p t \/ is_Some (mk_targets mk0 !! t) -> tc (edge mk0) p t) ->
  exists st', preselect fuel exts rules st t = Some st' /\ grown (fst st) (fst st').
Proof.
  revert path st t. induction fuel as [|fuel IH]; intros path st t G Hn Hp Ht Hsz Hc Hpath.
  { pose proof (path_size _ _ Hn Hp). lia. }
  cbn [preselect]. destruct (decide (t ∈ snd st)) as [|Hnin]; [exists st; split; [done|apply grown_refl]|].
  set (mk1 := selectOwn exts rules (fst st) t).
  assert (G1 : grown (fst st) mk1) by apply selectOwn_grown.
  assert (G01 : grown mk0 mk1) by (by eapply grown_trans).
  assert (Hrec : forall deps st1, (forall d, d ∈ deps -> d ∈ depsOf mk1 t) -> grown mk1 (fst st1) ->
    exists st', preselectDeps (preselect fuel exts rules) exts rules deps st1 = Some st' /\ grown mk1 (fst st')).
  { intros deps. induction deps as [|d deps IHd]; intros st1 Hdeps G2; [by exists st1|].
    assert (Hdeps' : forall d, d ∈ deps -> d ∈ depsOf mk1 t) by (intros x Hx; apply Hdeps; by right).
    cbn [preselectDeps]. destruct (mk_find (fst st1) d) as [c|] eqn:Ef.
    - assert (G02 : grown mk0 (fst st1)) by (by eapply grown_trans).
      (* t has dependents, so it is old *)
      assert (Hold : exists b, mk_targets mk0 !! t = Some b /\ d ∈ b_deps b).
      { pose proof (Hdeps d ltac:(left)) as Hd. unfold depsOf in Hd.
        destruct (mk_targets mk1 !! t) as [b1|] eqn:E1; [|by apply elem_of_nil in Hd].
        destruct (gr_deps _ _ G01 t b1 E1) as [E|(b & Hb & E)]; [rewrite E in Hd; by apply elem_of_nil in Hd|].
        exists b. split; [done|]. by rewrite E. }
      destruct Hold as (b & Hb & Hdb).
      assert (Htp : t ∉ path).
      { intros H. apply Hc. exists t. split; [done|]. apply Hpath; [done|]. right. eauto. }
      assert (Hec : is_Some (mk_targets mk0 !! c) -> edge mk0 t c).
      { intros Hcs. exists b, d. split; [done|]. split; [done|]. by eapply grown_find. }
      destruct (IH (t :: path) st1 c) as (st2 & -> & G3).
      + done.
      + by constructor.
      + intros p Hpp. apply elem_of_cons in Hpp as [->|Hpp]; [by rewrite Hb|by apply Hp].
      + by eapply mk_find_is.
      + cbn. lia.
      + intros Hcc.
        assert (is_Some (mk_targets mk0 !! c)) by (by apply cycle_is).
        apply Hc. eapply cycle_step; [by apply Hec|done].
      + intros p Hpp Hor.
        assert (Hcs : is_Some (mk_targets mk0 !! c)).
        { destruct Hor as [H|H]; [|done]. by eapply tc_tgt. }
        apply elem_of_cons in Hpp as [->|Hpp]; [apply tc_once; by apply Hec|].
        eapply tc_r; [apply Hpath; [done|right; by rewrite Hb]|by apply Hec].
      + apply IHd; [done|]. by eapply grown_trans.
    - apply IHd; [done|]. destruct (isNil _); [done|]. cbn [fst].
      eapply grown_trans; [done|apply createTarget_grown]. }
  destruct (Hrec (depsOf mk1 t) (mk1, snd st)) as ([mk2 pre2] & -> & G3); [done|apply grown_refl|].
  eexists. split; [done|]. cbn [fst] in *. by eapply grown_trans.
Qed.

End Presel.
Lemma preselect_root exts rules st t : is_Some (mk_targets (fst st) !! t) -> ~ cycleReachable (fst st) t ->
  exists st', preselect (S (S (size (mk_targets (fst st))))) exts rules st t = Some st' /\ grown (fst st) (fst st').
Proof.
  intros Ht Hc. apply (preselect_ok exts rules (fst st) _ []); try done.
  - apply grown_refl.
  - constructor.
  - intros p Hp. by apply elem_of_nil in Hp.
  - cbn. lia.
  - intros p Hp. by apply elem_of_nil in Hp.
Qed.

(** ** The loop over the active targets *)
Lemma okDone_grown mk mk' done : grown mk mk' -> okDone mk done -> okDone mk' done.
Proof.
  intros G H x Hx. destruct (H x Hx) as [H1 H2]. split; [by apply (gr_dom _ _ G)|].
  intros Hc. apply H2. by eapply grown_cycle.
Qed.

Lemma checkRoots_ok exts rules mk done pre names :
  okDone mk done -> (forall n, n ∈ names -> is_Some (mk_find mk n)) ->
  match checkRoots exts rules mk done pre names with
  | Ok (mk', done') => grown mk mk' /\ okDone mk' done' /\
      forall n t, n ∈ names -> mk_find mk' n = Some t -> ~ cycleReachable mk' t
  | Throws => exists n t, n ∈ names /\ mk_find mk n = Some t /\ cycleReachable mk t
  | _ => False
  end.
Proof.
  revert mk done pre. induction names as [|n names IH]; intros mk done pre Hd Hn.
  { cbn. split; [apply grown_refl|]. split; [done|]. intros n t H. by apply elem_of_nil in H. }
  cbn [checkRoots]. destruct (Hn n ltac:(left)) as [t Ht]. rewrite Ht.
  pose proof (mk_find_is _ _ _ Ht) as Hts.
  destruct (check_root mk done t Hts Hd) as [H1 H2].
  destruct (checkForCycles (S (size (mk_targets mk))) mk [] done t) as [dn|c|].
  - destruct H1 as [H1 H3]. assert (Htd : t ∈ dn) by (by apply H2).
    destruct (H3 t Htd) as [_ Hnc].
    destruct (preselect_root exts rules (mk, pre) t Hts Hnc) as ([mk' pre'] & E & G).
    cbn [fst] in E, G. rewrite E.
    specialize (IH mk' dn pre' (okDone_grown _ _ _ G H3)).
    destruct (checkRoots exts rules mk' dn pre' names) as [[mk2 dn2]| | | |]; cycle 1.
    + destruct IH as (n' & t' & Hn' & Hf & Hc).
      { intros n' Hn'. eapply grown_find_some; [done|]. apply Hn. by right. }
      exists n', t'. split; [by right|]. split; [|by eapply grown_cycle].
      eapply grown_find; [done|done|].
      destruct Hc as (x & Hx1 & Hx2). inversion Hx1; subst.
      * inversion Hx2; subst; by eapply grown_old.
      * by eapply grown_old.
    + apply IH. intros n' Hn'. eapply grown_find_some; [done|]. apply Hn. by right.
    + apply IH. intros n' Hn'. eapply grown_find_some; [done|]. apply Hn. by right.
    + apply IH. intros n' Hn'. eapply grown_find_some; [done|]. apply Hn. by right.
    + destruct IH as (G2 & Hdn2 & Hall).
      { intros n' Hn'. eapply grown_find_some; [done|]. apply Hn. by right. }
      assert (G02 : grown mk mk2) by (by eapply grown_trans).
      split; [done|]. split; [done|]. intros n' t' Hn' Hf Hc.
      apply elem_of_cons in Hn' as [->|Hn']; [|by eapply Hall].
      assert (Hold : is_Some (mk_targets mk !! t')).
      { destruct Hc as (x & Hx1 & Hx2). inversion Hx1; subst.
        - inversion Hx2; subst; by eapply grown_old.
        - by eapply grown_old. }
      pose proof (grown_find _ _ _ _ G02 Hf Hold) as Hf'. rewrite Ht in Hf'. injection Hf' as <-.
      apply Hnc. by eapply grown_cycle.
  - exists n, t. split; [left|]. split; [done|].
    destruct H1 as (x & <- & Hx). by exists c.
  - done.
Qed.

Lemma resetRoots_ok mk done names : okDone mk done -> is_Some (resetRoots mk done names).
Proof.
  revert done. induction names as [|n names IH]; intros done Hd; [cbn; eauto|].
  cbn [resetRoots]. destruct (mk_find mk n) as [t|] eqn:Ef; [|by apply IH].
  destruct (reset_ok mk (S (size (mk_targets mk))) [] done t) as (dn & -> & Hs & _); try done.
  - constructor.
  - intros p Hp. by apply elem_of_nil in Hp.
  - by eapply mk_find_is.
  - cbn. lia.
  - intros p Hp. by apply elem_of_nil in Hp.
  - apply IH. intros x Hx. by apply Hd, Hs.
Qed.

(** ** Sync points *)
Lemma applySync_dom sync mk k : is_Some (mk_targets (applySync sync mk) !! k) <-> is_Some (mk_targets mk !! k).
Proof.
  revert mk. induction sync as [|[n ds] sync IH]; intros mk; [done|]. cbn [applySync].
  destruct (mk_find mk n) as [t|]; [|done]. destruct (mk_targets mk !! t) as [b|] eqn:E; [|done].
  rewrite IH. cbn. destruct (decide (k = t)) as [->|].
  - rewrite lookup_insert, E. split; eauto.
  - by rewrite lookup_insert_ne.
Qed.
Lemma mk_find_dom mk mk' n : (forall k, is_Some (mk_targets mk' !! k) <-> is_Some (mk_targets mk !! k)) ->
  mk_find mk' n = mk_find mk n.
Proof.
  intros H. unfold mk_find. cbn zeta.
  assert (Hc : forall k (A : Type) (x y : A),
    match mk_targets mk' !! k with Some _ => x | None => y end
    = match mk_targets mk !! k with Some _ => x | None => y end).
  { intros k A x y. pose proof (H k) as Hk.
    destruct (mk_targets mk' !! k), (mk_targets mk !! k); try done.
    - destruct Hk as [Hk _]. destruct Hk; eauto. done.
    - destruct Hk as [_ Hk]. destruct Hk; eauto. done. }
  by rewrite !Hc.
Qed.
Lemma applySync_find sync mk n : mk_find (applySync sync mk) n = mk_find mk n.
Proof. apply mk_find_dom. intros k. apply applySync_dom. Qed.
Lemma applySync_first sync mk : mk_first (applySync sync mk) = mk_first mk /\ mk_dir (applySync sync mk) = mk_dir mk.
Proof.
  revert mk. induction sync as [|[n ds] sync IH]; intros mk; [done|]. cbn [applySync].
  destruct (mk_find mk n) as [t|]; [|done]. destruct (mk_targets mk !! t) as [b|] eqn:E; [|done].
  destruct (IH (setBlock mk t (setDeps (removeDups (b_deps b ++ ds)) b))) as [-> ->]. done.
Qed.

(** ** Without quoted dependents nothing is hidden by created targets *)
Record kept (mk mk' : mkfile) : Prop := {
  kp_find : forall n k, mk_find mk n = Some k -> mk_find mk' n = Some k;
  kp_deps : forall k b, mk_targets mk !! k = Some b -> exists b', mk_targets mk' !! k = Some b' /\ b_deps b' = b_deps b;
}.
Lemma kept_refl mk : kept mk mk.
Proof. split; [done|]. intros k x H. by exists x. Qed.
Lemma kept_trans m1 m2 m3 : kept m1 m2 -> kept m2 m3 -> kept m1 m3.
Proof.
  intros [H1 H2] [H3 H4]. split; [eauto|]. intros k x Hx.
  destruct (H2 k x Hx) as (y & Hy & Ey). destruct (H4 k y Hy) as (z & Hz & Ez). exists z. split; [done|congruence].
Qed.
Lemma kept_edge mk mk' x y : kept mk mk' -> edge mk x y -> edge mk' x y.
Proof.
  intros [H1 H2] (b & d & Hb & Hd & Hf). destruct (H2 x b Hb) as (b' & Hb' & E).
  exists b', d. rewrite E. auto.
Qed.
Lemma kept_cycle mk mk' t : kept mk mk' -> cycleReachable mk t -> cycleReachable mk' t.
Proof.
  intros K (x & H1 & H2).
  assert (Hsub : forall a b, edge mk a b -> edge mk' a b) by (intros a b; by apply kept_edge).
  exists x. split.
  - by apply (rtc_subrel (edge mk)).
  - clear H1. revert H2. generalize x at 1 3. intros y H2. induction H2 as [a b Hab|a b c Hab _ IH].
    + apply tc_once. by apply Hsub.
    + eapply tc_l; [by apply Hsub|done].
Qed.
Lemma grown_plain mk mk' : grown mk mk' -> plainDeps mk -> plainDeps mk'.
Proof.
  intros G P t b d Hb Hd. destruct (gr_deps _ _ G t b Hb) as [E|(b0 & Hb0 & E)].
  - rewrite E in Hd. by apply elem_of_nil in Hd.
  - rewrite <- E in Hd. by eapply P.
Qed.
Lemma selectOwn_kept exts rules mk t : kept mk (selectOwn exts rules mk t).
Proof.
  unfold selectOwn. destruct (mk_targets mk !! t) as [b|] eqn:E; [|apply kept_refl].
  destruct (isNil (b_cmds b)); [|apply kept_refl].
  destruct (isNil (findRules exts rules (b_name b))); [apply kept_refl|].
  split.
  - intros n k. by rewrite mk_find_setBlock by (by rewrite E).
  - intros k b'. cbn. destruct (decide (k = t)) as [->|].
    + rewrite lookup_insert. intros H. eexists. split; [done|]. cbn. congruence.
    + rewrite lookup_insert_ne by done. intros H. by exists b'.
Qed.
Lemma createTarget_kept mk d rs : mk_find mk d = None -> kept mk (createTarget mk d rs).
Proof.
  intros Hd. unfold mk_find in Hd. cbn zeta in Hd.
  destruct (mk_targets mk !! toLower d) eqn:E1; [done|].
  destruct (mk_targets mk !! replaceChar 47%N 92%N (toLower d)) eqn:E2; [done|]. clear Hd.
  assert (E1' : mk_targets mk !! keyOf d = None) by exact E1.
  split.
  - intros n k. unfold mk_find. cbn zeta. cbn [createTarget mk_targets].
    destruct (decide (toLower n = toLower d)) as [E|NE].
    + intros H. exfalso. revert H. rewrite E.
      destruct (mk_targets mk !! toLower d) eqn:E3; [done|].
      destruct (mk_targets mk !! replaceChar 47%N 92%N (toLower d)) eqn:E4; done.
    + pose proof (lookup_insert_ne (mk_targets mk) (keyOf d) (toLower n) (newBlock d rs) ltac:(unfold keyOf; congruence)) as L1.
      destruct (mk_targets mk !! toLower n) as [x|] eqn:E3.
      * intros [= <-]. destruct (<[keyOf d:=newBlock d rs]> (mk_targets mk) !! toLower n) eqn:E4; [done|].
        exfalso. unfold tid, qstr, qchar in *. congruence.
      * destruct (mk_targets mk !! replaceChar 47%N 92%N (toLower n)) as [x|] eqn:E4; [|done]. intros [= <-].
        destruct (<[keyOf d:=newBlock d rs]> (mk_targets mk) !! toLower n) eqn:E5.
        { exfalso. unfold tid, qstr, qchar in *. congruence. }
        assert (NE2 : keyOf d <> replaceChar 47%N 92%N (toLower n)).
        { unfold keyOf. intros E. rewrite E in E1. clear -E1 E4. unfold tid, qstr, qchar in *. congruence. }
        pose proof (lookup_insert_ne (mk_targets mk) _ _ (newBlock d rs) NE2) as L2.
        destruct (<[keyOf d:=newBlock d rs]> (mk_targets mk) !! replaceChar 47%N 92%N (toLower n)) eqn:E6; [done|].
        exfalso. clear -L2 E4 E6. unfold tid, qstr, qchar in *. congruence.
  - intros k b Hb. exists b. split; [|done]. cbn. rewrite lookup_insert_ne; [done|]. congruence.
Qed.

Lemma preselect_kept exts rules fuel st t st' : plainDeps (fst st) ->
  preselect fuel exts rules st t = Some st' -> kept (fst st) (fst st') /\ grown (fst st) (fst st').
Proof.
  revert st t st'. induction fuel as [|fuel IH]; intros st t st' P; [done|]. cbn [preselect].
  destruct (decide (t ∈ snd st)) as [|Hnin].
  { intros [= <-]. split; [apply kept_refl|apply grown_refl]. }
  set (mk1 := selectOwn exts rules (fst st) t).
  assert (G1 : grown (fst st) mk1) by apply selectOwn_grown.
  assert (K1 : kept (fst st) mk1) by apply selectOwn_kept.
  assert (P1 : plainDeps mk1) by (by eapply grown_plain).
  assert (Hrec : forall deps st1 st2, (forall d, d ∈ deps -> removeDoubleQuotes d = d) -> plainDeps (fst st1) ->
    preselectDeps (preselect fuel exts rules) exts rules deps st1 = Some st2 ->
    kept (fst st1) (fst st2) /\ grown (fst st1) (fst st2)).
  { intros deps. induction deps as [|d deps IHd]; intros st1 st2 Hq P2; cbn [preselectDeps].
    { intros [= <-]. split; [apply kept_refl|apply grown_refl]. }
    assert (Hq' : forall d, d ∈ deps -> removeDoubleQuotes d = d) by (intros x Hx; apply Hq; by right).
    destruct (mk_find (fst st1) d) as [c|] eqn:Ef.
    - destruct (preselect fuel exts rules st1 c) as [st3|] eqn:E3; [|done].
      destruct (IH _ _ _ P2 E3) as [K3 G3]. intros H.
      destruct (IHd st3 st2 Hq' ltac:(by eapply grown_plain) H) as [K4 G4].
      split; [by eapply kept_trans|by eapply grown_trans].
    - rewrite (Hq d) by left. destruct (isNil (findRules exts rules d)); [by apply IHd|].
      intros H.
      assert (G3 : grown (fst st1) (createTarget (fst st1) d (findRules exts rules d))) by apply createTarget_grown.
      eapply IHd in H; [|done|by eapply grown_plain]. destruct H as [K4 G4]. cbn [fst] in *.
      split; [eapply kept_trans; [by apply createTarget_kept|done]|by eapply grown_trans]. }
  destruct (preselectDeps (preselect fuel exts rules) exts rules (depsOf mk1 t) (mk1, snd st)) as [[mk2 pre2]|] eqn:E; [|done].
  intros [= <-]. apply Hrec in E; [|..|done].
  - cbn [fst] in *. destruct E. split; [by eapply kept_trans|by eapply grown_trans].
  - intros d Hd. unfold depsOf in Hd. destruct (mk_targets mk1 !! t) as [b|] eqn:Eb; [|by apply elem_of_nil in Hd].
    by eapply P1.
Qed.

Lemma checkRoots_throws exts rules mk done pre names n t :
  okDone mk done -> (forall n, n ∈ names -> is_Some (mk_find mk n)) -> plainDeps mk ->
  n ∈ names -> mk_find mk n = Some t -> cycleReachable mk t ->
  checkRoots exts rules mk done pre names = Throws.
Proof.
  revert mk done pre. induction names as [|n' names IH]; intros mk done pre Hd Hn P Hin Hf Hc.
  { by apply elem_of_nil in Hin. }
  cbn [checkRoots]. destruct (Hn n' ltac:(left)) as [t' Ht']. rewrite Ht'.
  pose proof (mk_find_is _ _ _ Ht') as Hts.
  destruct (check_root mk done t' Hts Hd) as [H1 H2].
  destruct (checkForCycles (S (size (mk_targets mk))) mk [] done t') as [dn|c|]; [|done..].
  destruct H1 as [H1 H3]. assert (Htd : t' ∈ dn) by (by apply H2).
  destruct (H3 t' Htd) as [_ Hnc].
  destruct (preselect_root exts rules (mk, pre) t' Hts Hnc) as ([mk' pre'] & E & G).
  cbn [fst] in E, G. rewrite E. apply preselect_kept in E as [K _]; [|done]. cbn [fst] in K.
  apply elem_of_cons in Hin as [->|Hin].
  - exfalso. rewrite Hf in Ht'. injection Ht' as <-. done.
  - apply IH; [by eapply okDone_grown| |by eapply grown_plain|done|by apply (kp_find _ _ K)|by eapply kept_cycle].
    intros x Hx. eapply grown_find_some; [done|]. apply Hn. by right.
Qed.
