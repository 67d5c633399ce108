(** The scheduler: what relates the dependency graph, the running jobs and the history of one pass. *)
From Coq Require Import Relations.
From stdpp Require Import prelude gmap.
From Verif Require Import Base Data Infer UpToDate Graph Exec ExecSpec GraphProofs BuildProofs PruneProofs.

(** *** Histories *)
Lemma fold_addLast evs : forall ps, ps <> [] -> fold_left (fun ps e => addToLast e ps) evs ps <> [].
Proof.
  induction evs as [|e evs IH]; intros ps H; [done|]. cbn. apply IH. destruct ps as [|p [|q ps]]; done.
Qed.
Definition noRoot (evs : list logev) : Prop := forall r mk, LRoot r mk ∉ evs.
Lemma addToLast_snoc e ps p : addToLast e (ps ++ [p]) = ps ++ [Pass (p_root p) (p_mk p) (p_log p ++ [e])].
Proof.
  induction ps as [|q ps IH]; [done|]. cbn. rewrite IH. by destruct ps.
Qed.
Lemma passes_snoc l e : passes (l ++ [e]) = match e with LRoot r mk => passes l ++ [Pass r mk []] | _ => addToLast e (passes l) end.
Proof. unfold passes. by rewrite fold_left_app. Qed.
Lemma noRoot_app a b : noRoot (a ++ b) <-> noRoot a /\ noRoot b.
Proof.
  unfold noRoot. split.
  - intros H. split; intros r mk Hin; apply (H r mk), elem_of_app; auto.
  - intros [Ha Hb] r mk [Hin|Hin]%elem_of_app; [by eapply Ha|by eapply Hb].
Qed.
Lemma passes_split pre r mk evs : noRoot evs -> passes (pre ++ LRoot r mk :: evs) = passes pre ++ [Pass r mk evs].
Proof.
  induction evs as [|e evs IH] using rev_ind; intros Hn.
  - by rewrite passes_snoc.
  - apply noRoot_app in Hn as [Hn He]. rewrite app_comm_cons, app_assoc, passes_snoc, IH by done.
    rewrite addToLast_snoc. destruct e; try done. exfalso. by eapply He; left.
Qed.

Lemma dealtWith_app a b d : dealtWith (a ++ b) d <-> dealtWith a d \/ dealtWith b d.
Proof. unfold dealtWith. setoid_rewrite elem_of_app. naive_solver. Qed.
Lemma dealtWith_nil d : not (dealtWith [] d).
Proof. unfold dealtWith. setoid_rewrite elem_of_nil. naive_solver. Qed.
Lemma started_app a b d : started (a ++ b) d <-> started a d \/ started b d.
Proof. unfold started. setoid_rewrite elem_of_app. naive_solver. Qed.
Lemma started_nil d : not (started [] d).
Proof. unfold started. setoid_rewrite elem_of_nil. naive_solver. Qed.
Lemma failed_app a b d : failed (a ++ b) d <-> failed a d \/ failed b d.
Proof. unfold failed. by rewrite elem_of_app. Qed.
Lemma failed_nil d : not (failed [] d).
Proof. apply not_elem_of_nil. Qed.
Lemma dealtWith_one e d : dealtWith [e] d <-> removedBy e = Some d.
Proof.
  unfold dealtWith. setoid_rewrite elem_of_list_singleton. destruct e; cbn; naive_solver.
Qed.
Lemma started_one e t : started [e] t <-> exists cmds, e = LStart t cmds.
Proof. unfold started. setoid_rewrite elem_of_list_singleton. naive_solver. Qed.
Lemma failed_one e t : failed [e] t <-> e = LEnd t true.
Proof. unfold failed. setoid_rewrite elem_of_list_singleton. naive_solver. Qed.

(** Events about single commands. *)
Definition cmdEvent (e : logev) : Prop := match e with LCmd _ _ | LExit _ _ _ => True | _ => False end.
Lemma cmdEvents_neutral l : Forall cmdEvent l ->
  (forall d, not (dealtWith l d)) /\ (forall d, not (started l d)) /\ (forall d, not (failed l d)) /\ noRoot l.
Proof.
  intros H. rewrite Forall_forall in H. split_and!.
  - intros d [[? Hd]|[[? Hd]|[[? Hd]|Hd]]]; by apply H in Hd.
  - intros d [? Hd]. by apply H in Hd.
  - intros d Hd. by apply H in Hd.
  - intros r mk Hd. by apply H in Hd.
Qed.

(** *** Marking the parents *)
Definition ancestor (g : graph) : tid -> tid -> Prop := clos_trans_1n tid (fun c p => p ∈ parentsOf g c).

Record sameShape (g g' : graph) : Prop := {
  ss_in : forall x, inG g' x <-> inG g x;
  ss_ch : forall x, childrenOf g' x = childrenOf g x;
  ss_pa : forall x, parentsOf g' x = parentsOf g x;
  ss_lv : g_leaves g' = g_leaves g;
}.
Lemma sameShape_refl g : sameShape g g.
Proof. by split. Qed.
Lemma sameShape_trans a b c : sameShape a b -> sameShape b c -> sameShape a c.
Proof.
  intros [A1 A2 A3 A4] [B1 B2 B3 B4]. split; intros.
  - by rewrite B1.
  - by rewrite B2.
  - by rewrite B3.
  - by rewrite B4.
Qed.
Lemma sameShape_setState s t g : sameShape g (setState s t g).
Proof. split; intros; [apply setState_in|apply setState_children|apply setState_parents|done]. Qed.
Lemma ancestor_shape g g' x y : sameShape g g' -> ancestor g x y -> ancestor g' x y.
Proof.
  intros H. induction 1 as [x y Hxy|x y z Hxy Hyz IH].
  - constructor 1. by rewrite (ss_pa _ _ H).
  - econstructor 2; [|exact IH]. by rewrite (ss_pa _ _ H).
Qed.
Lemma sameShape_sym a b : sameShape a b -> sameShape b a.
Proof. intros [A1 A2 A3 A4]. split; intros; by rewrite ?A1, ?A2, ?A3, ?A4. Qed.

Lemma markParents_spec fuel : forall t g g', edgesOk g -> markParents fuel t g = Some g' ->
  sameShape g g'
  /\ (forall x, ancestor g t x -> stateOf g' x = Unbuildable)
  /\ (forall x, stateOf g' x = stateOf g x \/ (ancestor g t x /\ stateOf g' x = Unbuildable)).
Proof.
  induction fuel as [|fuel IH]; intros t g g' He; [done|]. cbn [markParents].
  assert (forall ps g0 g', sameShape g g0 -> (forall p, p ∈ ps -> p ∈ parentsOf g t) ->
    fold_left (fun og p => match og with
                           | Some g' => markParents fuel p (setState Unbuildable p g')
                           | None => None
                           end) ps (Some g0) = Some g' ->
    sameShape g g'
    /\ (forall x p, p ∈ ps -> x = p \/ ancestor g p x -> stateOf g' x = Unbuildable)
    /\ (forall x, stateOf g' x = stateOf g0 x \/ (ancestor g t x /\ stateOf g' x = Unbuildable))) as Hf.
  { intros ps. induction ps as [|p ps IHp]; intros g0 g1 Hs Hps; cbn.
    - intros [= <-]. split_and!; [done| |by left]. by intros ? ? ?%elem_of_nil.
    - destruct (markParents fuel p (setState Unbuildable p g0)) as [g2|] eqn:Em.
      2: { intros Hx. exfalso. clear -Hx. induction ps; cbn in Hx; [done|auto]. }
      assert (sameShape g (setState Unbuildable p g0)) as Hs0.
      { eapply sameShape_trans; [exact Hs|apply sameShape_setState]. }
      assert (edgesOk (setState Unbuildable p g0)) as He0.
      { destruct He as [E1 E2 E3]. split; intros; rewrite ?(ss_ch _ _ Hs0), ?(ss_pa _ _ Hs0); auto. }
      destruct (IH _ _ _ He0 Em) as (M1 & M2 & M3).
      assert (sameShape g g2) as Hs2 by by eapply sameShape_trans.
      intros Hfold. destruct (IHp g2 g1 Hs2 ltac:(intros; apply Hps; by right) Hfold) as (F1 & F2 & F3).
      assert (p ∈ parentsOf g t) as Hp by (apply Hps; by left).
      assert (inG g0 p) as Hpin.
      { apply (ss_in _ _ Hs). apply (eo_sym g He) in Hp. by eapply children_in. }
      assert (stateOf (setState Unbuildable p g0) p = Unbuildable) as Hsp.
      { rewrite setState_state by done. by destruct (decide (p = p)). }
      split_and!; [done| |].
      + intros x q Hq Hx. apply elem_of_cons in Hq as [->|Hq]; [|by eapply F2].
        assert (stateOf g2 x = Unbuildable) as H2.
        { destruct Hx as [->|Hx].
          - destruct (M3 p) as [->|[_ ->]]; done.
          - apply M2. by eapply ancestor_shape. }
        destruct (F3 x) as [->|[_ ->]]; done.
      + intros x. destruct (F3 x) as [->|H]; [|by right].
        destruct (M3 x) as [->|[Ha ->]].
        * rewrite setState_state by done. destruct (decide (x = p)) as [->|]; [|by left]. right. split; [|done].
          by constructor 1.
        * right. split; [|done]. econstructor 2; [exact Hp|].
          eapply ancestor_shape; [|exact Ha]. by apply sameShape_sym. }
  intros H. destruct (Hf (parentsOf g t) g g' (sameShape_refl g) ltac:(done) H) as (H1 & H2 & H3).
  split_and!; [done| |done]. intros x Hx. inversion Hx as [y Hy|y z Hy Hz]; subst; eapply H2; eauto.
Qed.

(** When the marking does not end there is a long chain of parents. *)
Inductive chain (R : tid -> tid -> Prop) : tid -> list tid -> Prop :=
| ch_nil t : chain R t []
| ch_cons t p l : R t p -> chain R p l -> chain R t (p :: l).
Lemma chain_mono (R S : tid -> tid -> Prop) t l : (forall x y, R x y -> S x y) -> chain R t l -> chain S t l.
Proof. intros H. induction 1; econstructor; eauto. Qed.

Lemma markParents_none fuel : forall t g, edgesOk g -> markParents fuel t g = None ->
  exists l, length l = fuel /\ chain (fun c p => p ∈ parentsOf g c) t l.
Proof.
  induction fuel as [|fuel IH]; intros t g He; [exists []; split; [done|constructor]|]. cbn [markParents].
  assert (forall ps g0, sameShape g g0 -> (forall p, p ∈ ps -> p ∈ parentsOf g t) ->
    fold_left (fun og p => match og with
                           | Some g' => markParents fuel p (setState Unbuildable p g')
                           | None => None
                           end) ps (Some g0) = None ->
    exists l, length l = S fuel /\ chain (fun c p => p ∈ parentsOf g c) t l) as Hf.
  { intros ps. induction ps as [|p ps IHp]; intros g0 Hs Hps; cbn; [done|].
    assert (sameShape g (setState Unbuildable p g0)) as Hs0.
    { eapply sameShape_trans; [exact Hs|apply sameShape_setState]. }
    assert (edgesOk (setState Unbuildable p g0)) as He0.
    { destruct He as [E1 E2 E3]. split; intros; rewrite ?(ss_ch _ _ Hs0), ?(ss_pa _ _ Hs0); auto. }
    destruct (markParents fuel p (setState Unbuildable p g0)) as [g2|] eqn:Em.
    - destruct (markParents_spec _ _ _ _ He0 Em) as (M1 & _ & _). apply IHp.
      + by eapply sameShape_trans.
      + intros; apply Hps; by right.
    - intros _. destruct (IH _ _ He0 Em) as (l & Hl & Hc). exists (p :: l). split; [cbn; by rewrite Hl|].
      constructor; [apply Hps; by left|]. eapply chain_mono; [|exact Hc]. intros x y. cbn beta. by rewrite <- (ss_pa _ _ Hs0). }
  apply Hf; [apply sameShape_refl|done].
Qed.

Lemma chain_trans R t l x : chain R t l -> x ∈ l -> clos_trans_1n tid R t x.
Proof.
  induction 1 as [t|t p l Htp Hc IH]; [by intros ?%elem_of_nil|].
  intros [->|Hx]%elem_of_cons; [by constructor 1|]. econstructor 2; eauto.
Qed.
Lemma chain_nodup R t l : chain R t l -> (forall x, x ∈ t :: l -> not (clos_trans_1n tid R x x)) -> NoDup (t :: l).
Proof.
  induction 1 as [t|t p l Htp Hc IH]; intros Hac.
  - constructor; [apply not_elem_of_nil|constructor].
  - constructor.
    + intros Hin. apply (Hac t); [by left|]. eapply chain_trans; [|exact Hin]. by constructor.
    + apply IH. intros x Hx. apply Hac. by right.
Qed.
Lemma chain_in g t l : edgesOk g -> chain (fun c p => p ∈ parentsOf g c) t l -> forall x, x ∈ l -> inG g x.
Proof.
  intros He. induction 1 as [t|t p l Htp Hc IH]; intros x; [by intros ?%elem_of_nil|].
  intros [->|Hx]%elem_of_cons; [|auto]. apply (eo_sym g He) in Htp. by eapply children_in.
Qed.
Lemma nodup_size (l : list tid) (g : graph) : NoDup l -> (forall x, x ∈ l -> inG g x) -> length l <= size (g_nodes g).
Proof.
  intros Hn Hl. rewrite <- (size_dom (D := gset tid)).
  rewrite <- (size_list_to_set (C := gset tid) l Hn). apply subseteq_size.
  intros x Hx%elem_of_list_to_set. by apply elem_of_dom, Hl.
Qed.
Lemma markParents_total t g : edgesOk g -> (forall x, not (ancestor g x x)) ->
  markParents (S (size (g_nodes g))) t g <> None.
Proof.
  intros He Hac H. destruct (markParents_none _ _ _ He H) as (l & Hl & Hc).
  assert (NoDup (t :: l)) as Hn%NoDup_cons.
  { eapply chain_nodup; [exact Hc|]. intros x _. apply Hac. }
  pose proof (nodup_size l g (proj2 Hn) (chain_in g t l He Hc)). lia.
Qed.

(** *** One pass *)
Section Pass.
Context (w : world) (o : bopts) (r : tid) (mk0 : mkfile).

(** What holds of the history of a pass, finished or not. *)
Record PP (evs : list logev) : Prop := {
  pp_noroot : noRoot evs;
  pp_need : forall pre t cmds post, evs = pre ++ LStart t cmds :: post -> neededFor mk0 r t;
  pp_deps : forall pre t cmds post, evs = pre ++ LStart t cmds :: post ->
    forall d, dependsTrans mk0 t d -> dealtWith pre d;
  pp_once : forall pre t cmds post, evs = pre ++ LStart t cmds :: post -> not (started pre t) /\ not (dealtWith pre t);
  pp_nofail : forall pre t cmds post, evs = pre ++ LStart t cmds :: post ->
    forall d, failed pre d -> o_keep o = true /\ not (dependsTrans mk0 t d);
  pp_end : forall pre t f post, evs = pre ++ LEnd t f :: post -> started pre t /\ not (dealtWith pre t);
  pp_upd : forall pre t mk post, evs = pre ++ LUpToDate t mk :: post ->
    fst (isTargetUpToDate w mk t) = true /\ not (started pre t) /\ not (dealtWith pre t) /\ neededFor mk0 r t;
  pp_nocmd : forall pre t mk post, evs = pre ++ LNoCmds t mk :: post ->
    (forall b, mk_targets mk !! t = Some b -> b_cmds b = []) /\ not (started pre t) /\ not (dealtWith pre t) /\ neededFor mk0 r t;
  pp_unb : forall pre t post, evs = pre ++ LUnbuildable t :: post ->
    o_keep o = true /\ (exists d, dependsTrans mk0 t d /\ failed pre d) /\ not (started pre t) /\ not (dealtWith pre t) /\ neededFor mk0 r t;
  pp_closed : forall pre e post t d, evs = pre ++ e :: post -> removedBy e = Some t -> dependsOn mk0 t d -> dealtWith pre d;
}.

(** Extending a history by one event. *)
Definition okEvent (evs : list logev) (e : logev) : Prop :=
  match e with
  | LRoot _ _ => False
  | LStart t _ => neededFor mk0 r t /\ (forall d, dependsTrans mk0 t d -> dealtWith evs d)
      /\ not (started evs t) /\ not (dealtWith evs t)
      /\ (forall d, failed evs d -> o_keep o = true /\ not (dependsTrans mk0 t d))
  | LEnd t _ => started evs t /\ not (dealtWith evs t) /\ (forall d, dependsOn mk0 t d -> dealtWith evs d)
  | LUpToDate t mk => (fst (isTargetUpToDate w mk t) = true /\ not (started evs t) /\ not (dealtWith evs t) /\ neededFor mk0 r t)
      /\ (forall d, dependsOn mk0 t d -> dealtWith evs d)
  | LNoCmds t mk => ((forall b, mk_targets mk !! t = Some b -> b_cmds b = []) /\ not (started evs t) /\ not (dealtWith evs t) /\ neededFor mk0 r t)
      /\ (forall d, dependsOn mk0 t d -> dealtWith evs d)
  | LUnbuildable t => (o_keep o = true /\ (exists d, dependsTrans mk0 t d /\ failed evs d)
        /\ not (started evs t) /\ not (dealtWith evs t) /\ neededFor mk0 r t)
      /\ (forall d, dependsOn mk0 t d -> dealtWith evs d)
  | LCmd _ _ | LExit _ _ _ => True
  end.

Lemma snoc_split {A} (l : list A) x pre y post : l ++ [x] = pre ++ y :: post ->
  (post = [] /\ pre = l /\ x = y) \/ (exists post', post = post' ++ [x] /\ l = pre ++ y :: post').
Proof.
  intros H. destruct post as [|z post] using rev_ind.
  - left. apply app_inj_tail in H as [-> ->]. done.
  - right. clear IHpost. exists post. rewrite app_comm_cons, app_assoc in H. apply app_inj_tail in H as [-> ->]. done.
Qed.

Lemma PP_snoc evs e : PP evs -> okEvent evs e -> PP (evs ++ [e]).
Proof.
  intros [P0 P1 P2 P3 P4 P5 P6 P7 P8 P9] He. split.
  - apply noRoot_app. split; [done|]. intros r' mk' H%elem_of_list_singleton. subst e. done.
  - intros pre t cmds post [(-> & -> & ->)|(post' & -> & H)]%snoc_split; [apply He|by eapply P1].
  - intros pre t cmds post [(-> & -> & ->)|(post' & -> & H)]%snoc_split; [apply He|by eapply P2].
  - intros pre t cmds post [(-> & -> & ->)|(post' & -> & H)]%snoc_split; [cbn in He; tauto|by eapply P3].
  - intros pre t cmds post [(-> & -> & ->)|(post' & -> & H)]%snoc_split; [apply He|by eapply P4].
  - intros pre t f post [(-> & -> & ->)|(post' & -> & H)]%snoc_split; [cbn in He; tauto|by eapply P5].
  - intros pre t mk post [(-> & -> & ->)|(post' & -> & H)]%snoc_split; [apply He|by eapply P6].
  - intros pre t mk post [(-> & -> & ->)|(post' & -> & H)]%snoc_split; [apply He|by eapply P7].
  - intros pre t post [(-> & -> & ->)|(post' & -> & H)]%snoc_split; [apply He|by eapply P8].
  - intros pre e' post t d [(-> & -> & <-)|(post' & -> & H)]%snoc_split; [|by eapply P9].
    intros Hr Hd. destruct e; cbn in Hr; try done; injection Hr as ->; cbn in He; destruct_and?; eauto.
Qed.
Lemma PP_cmds evs l : PP evs -> Forall cmdEvent l -> PP (evs ++ l).
Proof.
  intros H Hl. revert evs H. induction Hl as [|e l He Hl IH]; intros evs H; [by rewrite app_nil_r|].
  replace (evs ++ e :: l) with ((evs ++ [e]) ++ l) by by rewrite <- app_assoc.
  apply IH, PP_snoc; [done|]. by destruct e.
Qed.
Lemma PP_nil : PP [].
Proof.
  split; try (intros; exfalso; by eapply app_cons_not_nil). intros ? ? H. by apply elem_of_nil in H.
Qed.

(** The running jobs. *)
Record JI (jt : list tid) (evs : list logev) : Prop := {
  ji_pp : PP evs;
  ji_jobs : forall t, t ∈ jt <-> started evs t /\ not (dealtWith evs t);
  ji_nd : NoDup jt;
}.

(** The graph while the build has not been aborted. *)
Record GI (mk : mkfile) (g : graph) (next : option tid) (jt : list tid) (evs : list logev) : Prop := {
  gi_wf : gwf g;
  gi_in : forall x, inG g x -> neededFor mk0 r x /\ not (dealtWith evs x);
  gi_out : forall x, neededFor mk0 r x -> inG g x \/ dealtWith evs x;
  gi_child : forall x d, d ∈ childrenOf g x -> dependsOn mk0 x d;
  gi_dep : forall x d, inG g x -> inG g d -> dependsOn mk0 x d -> d ∈ childrenOf g x;
  gi_closed : forall x d, neededFor mk0 r x -> dealtWith evs x -> dependsOn mk0 x d -> dealtWith evs d;
  gi_exec : forall x, inG g x -> (stateOf g x = ExecutingState <-> next = Some x \/ x ∈ jt);
  gi_next : forall x, next = Some x -> inG g x /\ x ∉ jt;
  gi_jin : forall x, x ∈ jt -> inG g x;
  gi_unb : forall x, inG g x -> (stateOf g x = Unbuildable <-> exists d, dependsTrans mk0 x d /\ failed evs d);
  gi_keep : forall d, failed evs d -> o_keep o = true;
  gi_mk : forall x, inG g x -> is_Some (mk_targets mk !! x);
}.

Lemma GI_sim mk g g' next jt evs : gsim g g' -> GI mk g next jt evs -> GI mk g' next jt evs.
Proof.
  intros Hs [G1 G2 G3 G4 G5 G6 G7 G8 G9 G10 G11 G12]. split; intros.
  - by eapply gsim_gwf.
  - apply G2. by apply (gsim_in g g').
  - destruct (G3 x H) as [?|?]; [left; by apply (gsim_in g g')|by right].
  - apply G4. by rewrite <- (gsim_children g g').
  - rewrite (gsim_children g g') by done. apply G5; [by apply (gsim_in g g')|by apply (gsim_in g g')|done].
  - by eapply G6.
  - rewrite (gsim_state g g') by done. apply G7. by apply (gsim_in g g').
  - rewrite (gsim_in g g') by done. by apply G8.
  - rewrite (gsim_in g g') by done. by apply G9.
  - rewrite (gsim_state g g') by done. apply G10. by apply (gsim_in g g').
  - by eapply G11.
  - apply G12. by apply (gsim_in g g').
Qed.
Lemma GI_mk mk mk' g next jt evs : sameDom mk mk' -> GI mk g next jt evs -> GI mk' g next jt evs.
Proof.
  intros Hs [G1 G2 G3 G4 G5 G6 G7 G8 G9 G10 G11 G12]. split; try done. intros. apply Hs. auto.
Qed.
Lemma GI_jt mk g next jt jt' evs : Permutation jt jt' -> GI mk g next jt evs -> GI mk g next jt' evs.
Proof.
  intros Hp [G1 G2 G3 G4 G5 G6 G7 G8 G9 G10 G11 G12]. split; try done; intros x; rewrite <- ?Hp; auto.
Qed.
Lemma JI_jt jt jt' evs : Permutation jt jt' -> JI jt evs -> JI jt' evs.
Proof. intros Hp [J1 J2 J3]. split; [done| |by rewrite <- Hp]. intros t. rewrite <- Hp. auto. Qed.

Lemma GI_cmds mk g next jt evs l : Forall cmdEvent l -> GI mk g next jt evs -> GI mk g next jt (evs ++ l).
Proof.
  intros Hl [G1 G2 G3 G4 G5 G6 G7 G8 G9 G10 G11 G12]. destruct (cmdEvents_neutral l Hl) as (N1 & N2 & N3 & _).
  split; try done.
  - intros x Hx. rewrite dealtWith_app. destruct (G2 x Hx). split; [done|]. intros [?|?]; [done|by eapply N1].
  - intros x Hx. rewrite dealtWith_app. destruct (G3 x Hx); auto.
  - intros x d Hx. rewrite !dealtWith_app. intros [?|?] Hd; [left; by eapply G6|exfalso; by eapply N1].
  - intros x Hx. rewrite (G10 x Hx). split.
    + intros (d & Hd & Hf). exists d. rewrite failed_app. auto.
    + intros (d & Hd & [Hf|Hf]%failed_app); [by exists d|exfalso; by eapply N3].
  - intros d [Hf|Hf]%failed_app; [by eapply G11|exfalso; by eapply N3].
Qed.
Lemma JI_cmds jt evs l : Forall cmdEvent l -> JI jt evs -> JI jt (evs ++ l).
Proof.
  intros Hl [J1 J2 J3]. destruct (cmdEvents_neutral l Hl) as (N1 & N2 & N3 & _). split; [by apply PP_cmds| |done].
  intros t. rewrite J2, started_app, dealtWith_app. specialize (N1 t). specialize (N2 t). tauto.
Qed.

Lemma GI_leaf_deps mk g next jt evs t : GI mk g next jt evs -> inG g t -> childrenOf g t = [] ->
  forall d, dependsTrans mk0 t d -> dealtWith evs d.
Proof.
  intros G Ht Hc. assert (forall d, dependsOn mk0 t d -> neededFor mk0 r d /\ dealtWith evs d) as H1.
  { intros d Hd. destruct (gi_in _ _ _ _ _ G t Ht) as [Hn _].
    assert (neededFor mk0 r d) as Hnd by by eapply needed_step. split; [done|].
    destruct (gi_out _ _ _ _ _ G d Hnd) as [Hin|]; [|done].
    pose proof (gi_dep _ _ _ _ _ G t d Ht Hin Hd) as Hx. rewrite Hc in Hx. by apply elem_of_nil in Hx. }
  assert (forall x d, dependsTrans mk0 x d -> neededFor mk0 r x -> dealtWith evs x -> dealtWith evs d) as H2.
  { intros x d Hxd. induction Hxd as [x d Hxd|x y d Hxy Hyd IH]; intros Hx Hdx.
    - by eapply (gi_closed _ _ _ _ _ G).
    - apply IH; [by eapply needed_step|]. by eapply (gi_closed _ _ _ _ _ G). }
  intros d Hd. inversion Hd as [y Hy|y z Hy Hz]; subst; [by apply H1|].
  destruct (H1 _ Hy). eapply H2; eauto.
Qed.
Lemma dependsOn_trans mk x d : dependsOn mk x d -> dependsTrans mk x d.
Proof. by constructor 1. Qed.

(** Removing a leaf that is not being executed. *)
Lemma GI_prune1 mk g next jt evs t e :
  GI mk g next jt evs -> JI jt evs -> removedBy e = Some t -> inG g t -> childrenOf g t = [] -> justified w o g e ->
  next <> Some t ->
  GI mk (removeLeaf t g) next jt (evs ++ [e]) /\ JI jt (evs ++ [e]).
Proof.
  intros G J He Ht Hc Hj Hnx. pose proof (GI_leaf_deps _ _ _ _ _ _ G Ht Hc) as Hdeps.
  destruct G as [G1 G2 G3 G4 G5 G6 G7 G8 G9 G10 G11 G12]. destruct J as [J1 J2 J3].
  pose proof (gw_edges g G1) as Hed. destruct (G2 t Ht) as [Hnt Hdt].
  assert (t ∉ jt /\ (forall x, not (failed [e] x)) /\ (forall x, not (started [e] x))) as (Hjt & Hnf & Hns).
  { split_and!.
    - intros Hin. assert (stateOf g t = ExecutingState) as Hs by (apply G7; auto).
      destruct e; cbn in Hj, He; try done; injection He as ->; destruct Hj as [? Hj]; congruence.
    - intros x ->%failed_one. done.
    - intros x [c ->]%started_one. done. }
  assert (forall x, dealtWith (evs ++ [e]) x <-> dealtWith evs x \/ x = t) as Hdw.
  { intros x. rewrite dealtWith_app, dealtWith_one, He. naive_solver. }
  split; split.
  - by apply removeLeaf_gwf.
  - intros x [Hx Hne]%removeLeaf_in; [|done..]. destruct (G2 x Hx). rewrite Hdw. split; [done|]. tauto.
  - intros x Hx. rewrite removeLeaf_in, Hdw by done. destruct (G3 x Hx); [|auto]. destruct (decide (x = t)); auto.
  - intros x d. rewrite removeLeaf_children, removeOne_in by (done || apply (eo_ndc g Hed)). naive_solver.
  - intros x d. rewrite !removeLeaf_in, removeLeaf_children, removeOne_in by (done || apply (eo_ndc g Hed)). naive_solver.
  - intros x d Hx. rewrite !Hdw. intros [Hdx| ->] Hd; left.
    + by eapply G6.
    + apply Hdeps. by constructor 1.
  - intros x [Hx Hne]%removeLeaf_in; [|done..]. rewrite removeLeaf_state by done. auto.
  - intros x Hx. destruct (G8 x Hx). rewrite removeLeaf_in by done. split; [|done]. split; [done|congruence].
  - intros x Hx. rewrite removeLeaf_in by done. split; [by apply G9|]. intros ->; done.
  - intros x [Hx Hne]%removeLeaf_in; [|done..]. rewrite removeLeaf_state, (G10 x Hx) by done.
    split; intros (d & Hd & Hf); exists d; (split; [done|]).
    + apply failed_app; by left.
    + apply failed_app in Hf as [?|?]; [done|]. exfalso. by eapply Hnf.
  - intros d [Hf|Hf]%failed_app; [by eapply G11|exfalso; by eapply Hnf].
  - intros x [Hx Hne]%removeLeaf_in; [|done..]. auto.
  - apply PP_snoc; [done|].
    assert (not (started evs t)) as Hst. { intros Hst. apply Hjt, J2. done. }
    assert (forall d, dependsOn mk0 t d -> dealtWith evs d) as Hd1 by (intros; apply Hdeps; by constructor 1).
    destruct e; cbn in Hj, He; try done; injection He as ->; cbn; destruct Hj as [Hj1 Hj2]; split_and!; try done.
    by apply G10.
  - intros x. rewrite J2, started_app, Hdw. specialize (Hns x).
    split; [|tauto]. intros [Hs Hd]. split; [by left|]. intros [?|Heq]; [done|]. subst x. apply Hjt, J2. done.
  - done.
Qed.

Lemma GI_prunes mk jt next g es g' : prunes w o g es g' -> forall evs, GI mk g next jt evs -> JI jt evs ->
  next = None -> GI mk g' next jt (evs ++ es) /\ JI jt (evs ++ es).
Proof.
  induction 1 as [g g' Hs|g t e es g' He Hin Hc Hj Hp IH]; intros evs G J Hnx.
  - rewrite app_nil_r. split; [by eapply GI_sim|done].
  - destruct (GI_prune1 _ _ _ _ _ _ _ G J He Hin Hc Hj) as [G' J']; [by rewrite Hnx|].
    replace (evs ++ e :: es) with ((evs ++ [e]) ++ es) by by rewrite <- app_assoc. apply IH; done.
Qed.

(** Choosing the next target. *)
Lemma GI_choose mk g jt evs t : GI mk g None jt evs -> t ∈ g_leaves g -> stateOf g t <> ExecutingState ->
  (o_keep o = true -> stateOf g t <> Unbuildable) ->
  GI mk (if decide (stateOf g t = Unbuildable) then g else setState ExecutingState t g) (Some t) jt evs.
Proof.
  intros [G1 G2 G3 G4 G5 G6 G7 G8 G9 G10 G11 G12] Hl Hs Hu. apply (gw_leaves g G1) in Hl as [Ht Hc].
  destruct (decide (stateOf g t = Unbuildable)) as [Hub|Hub].
  { exfalso. pose proof Hub as (d & Hd & Hf)%G10; [|done]. apply Hu; [by eapply G11|done]. }
  assert (t ∉ jt) as Hjt. { intros Hin. apply Hs, G7; auto. }
  split.
  - apply setState_gwf; auto.
  - intros x. rewrite setState_in. auto.
  - intros x. rewrite setState_in. auto.
  - intros x d. rewrite setState_children. auto.
  - intros x d. rewrite !setState_in, setState_children. auto.
  - done.
  - intros x. rewrite setState_in, setState_state by done. intros Hx. destruct (decide (x = t)) as [->|Hne].
    + split; [by left|done].
    + rewrite (G7 x Hx). split; [intros [?|?]; [done|by right]|]. intros [[= ?]|?]; [done|by right].
  - intros x [= ->]. rewrite setState_in. done.
  - intros x. rewrite setState_in. auto.
  - intros x. rewrite setState_in, setState_state by done. intros Hx. destruct (decide (x = t)) as [->|Hne]; [|auto].
    split; [done|]. intros Hf. apply G10 in Hf; done.
  - done.
  - intros x. rewrite setState_in. auto.
Qed.

(** Starting it. *)
Lemma GI_start mk g jt evs t cmds : GI mk g (Some t) jt evs -> JI jt evs ->
  GI mk g None (t :: jt) (evs ++ [LStart t cmds]) /\ JI (t :: jt) (evs ++ [LStart t cmds]).
Proof.
  intros G J. destruct (gi_next _ _ _ _ _ G t eq_refl) as [Ht Hjt].
  assert (stateOf g t = ExecutingState) as Hst by (apply (gi_exec _ _ _ _ _ G); auto).
  pose proof (gw_exec g (gi_wf _ _ _ _ _ G) t Hst Ht) as Hc.
  pose proof (GI_leaf_deps _ _ _ _ _ _ G Ht Hc) as Hdeps.
  destruct G as [G1 G2 G3 G4 G5 G6 G7 G8 G9 G10 G11 G12]. destruct J as [J1 J2 J3].
  destruct (G2 t Ht) as [Hnt Hdt].
  assert (forall x, dealtWith (evs ++ [LStart t cmds]) x <-> dealtWith evs x) as Hdw.
  { intros x. rewrite dealtWith_app, dealtWith_one. cbn. naive_solver. }
  assert (forall x, failed (evs ++ [LStart t cmds]) x <-> failed evs x) as Hfl.
  { intros x. rewrite failed_app, failed_one. naive_solver. }
  assert (forall x, started (evs ++ [LStart t cmds]) x <-> started evs x \/ x = t) as Hsw.
  { intros x. rewrite started_app, started_one. naive_solver. }
  assert (not (started evs t)) as Hnst. { intros Hs. apply Hjt, J2. done. }
  split; split.
  - done.
  - intros x Hx. rewrite Hdw. auto.
  - intros x Hx. rewrite Hdw. auto.
  - done.
  - done.
  - intros x d. rewrite !Hdw. apply G6.
  - intros x Hx. rewrite (G7 x Hx), elem_of_cons. naive_solver.
  - done.
  - intros x [->|Hx]%elem_of_cons; [done|auto].
  - intros x Hx. setoid_rewrite Hfl. auto.
  - intros d. rewrite Hfl. apply G11.
  - done.
  - apply PP_snoc; [done|]. cbn. split_and!; try done. intros d Hf. split; [by eapply G11|]. intros Hd.
    assert (stateOf g t = Unbuildable) by (apply G10; eauto). congruence.
  - intros x. rewrite elem_of_cons, J2, Hsw, Hdw. split.
    + intros [->|[? ?]]; auto.
    + intros [[?| ->] ?]; auto.
  - constructor; done.
Qed.

(** A job has ended: the history ... *)
Lemma JI_finish jt evs t f : JI (t :: jt) evs -> JI jt (evs ++ [LEnd t f]).
Proof.
  intros [J1 J2 J3]. apply NoDup_cons in J3 as [Hn J3].
  assert (started evs t /\ not (dealtWith evs t)) as [Hs Hd] by (apply J2; by left).
  assert (forall d, dependsOn mk0 t d -> dealtWith evs d) as Hdeps.
  { destruct Hs as [cmds Hs]. apply elem_of_list_split in Hs as (l1 & l2 & Heq). intros d Hd'. rewrite Heq, dealtWith_app.
    left. eapply (pp_deps _ J1); [exact Heq|by constructor 1]. }
  split; [by apply PP_snoc| |done].
  intros x. rewrite started_app, started_one, dealtWith_app, dealtWith_one. cbn.
  specialize (J2 x). rewrite elem_of_cons in J2. split.
  - intros Hx. assert (started evs x /\ not (dealtWith evs x)) as [H1 H2] by (apply J2; by right).
    split; [by left|]. intros [?|[= ->]]; [done|]. done.
  - intros [[H1|(c & ?)] H2]; [|done]. assert (x = t \/ x ∈ jt) as [->|?] by (apply J2; tauto); [|done].
    exfalso. apply H2. by right.
Qed.

Lemma dependsTrans_r mk x y z : dependsTrans mk x y -> dependsOn mk y z -> dependsTrans mk x z.
Proof.
  intros H Hz. induction H as [x y H|x y v H Hv IH].
  - econstructor 2; [exact H|]. by constructor 1.
  - econstructor 2; [exact H|]. exact (IH Hz).
Qed.
Lemma dependsTrans_trans mk x y z : dependsTrans mk x y -> dependsTrans mk y z -> dependsTrans mk x z.
Proof.
  intros H Hz. induction H as [x y H|x y v H Hv IH]; (econstructor 2; [exact H|]); [exact Hz|exact (IH Hz)].
Qed.
Lemma needed_trans mk x y : neededFor mk r x -> dependsTrans mk x y -> neededFor mk r y.
Proof. intros H Hxy. induction Hxy as [x y Hxy|x y v Hxy Hv IH]; [by eapply needed_step|]. apply IH. by eapply needed_step. Qed.

Lemma ancestor_dep mk g next jt evs t x : GI mk g next jt evs -> ancestor g t x -> dependsTrans mk0 x t /\ inG g x.
Proof.
  intros G. pose proof (gw_edges g (gi_wf _ _ _ _ _ G)) as He.
  induction 1 as [t x Hx|t y x Hy Hyx IH].
  - apply (eo_sym g He) in Hx. split; [|by eapply children_in]. constructor 1. by eapply gi_child.
  - destruct IH as [IH Hin]. split; [|done]. eapply dependsTrans_r; [exact IH|].
    eapply gi_child; [exact G|]. by apply (eo_sym g He).
Qed.
Lemma GI_path mk g next jt evs x d : GI mk g next jt evs -> neededFor mk0 r x -> dependsTrans mk0 x d -> dealtWith evs x -> dealtWith evs d.
Proof.
  intros G Hn Hxd. induction Hxd as [x d Hxd|x y d Hxy Hyd IH]; intros Hdx.
  - by eapply (gi_closed _ _ _ _ _ G).
  - apply IH; [by eapply needed_step|]. by eapply (gi_closed _ _ _ _ _ G).
Qed.
Lemma dep_ancestor mk g next jt evs t x : GI mk g next jt evs -> inG g t -> inG g x -> dependsTrans mk0 x t -> ancestor g t x.
Proof.
  intros G Ht Hx Hxt. pose proof (gw_edges g (gi_wf _ _ _ _ _ G)) as He. revert Hx Ht.
  induction Hxt as [x t Hxt|x y t Hxy Hyt IH]; intros Hx Ht.
  - constructor 1. apply (eo_sym g He). by eapply gi_dep.
  - destruct (gi_in _ _ _ _ _ G x Hx) as [Hnx _]. assert (neededFor mk0 r y) as Hny by by eapply needed_step.
    assert (inG g y) as Hy.
    { destruct (gi_out _ _ _ _ _ G y Hny) as [|Hdy]; [done|]. exfalso.
      destruct (gi_in _ _ _ _ _ G t Ht) as [_ Hdt]. apply Hdt. by eapply GI_path. }
    specialize (IH Hy Ht).
    assert (x ∈ parentsOf g y) as Hp by (apply (eo_sym g He); by eapply gi_dep). clear -IH Hp.
    induction IH as [t y Hty|t z y Htz Hzy IH].
    + econstructor 2; [exact Hty|]. by constructor 1.
    + econstructor 2; [exact Htz|]. exact (IH Hp).
Qed.

(** ... and the graph. *)
Lemma GI_finish mk g g2 next jt evs t f : GI mk g next (t :: jt) evs -> JI (t :: jt) evs ->
  (f = true -> o_keep o = true) ->
  (if f then exists fuel, markParents fuel t g = Some g2 else g2 = g) ->
  GI mk (removeLeaf t g2) next jt (evs ++ [LEnd t f]).
Proof.
  intros G J Hk Hm. assert (inG g t) as Ht by (eapply gi_jin; [exact G|by left]).
  assert (stateOf g t = ExecutingState) as Hst by (apply (gi_exec _ _ _ _ _ G); [done|right; by left]).
  pose proof (gw_exec g (gi_wf _ _ _ _ _ G) t Hst Ht) as Hc.
  pose proof (GI_leaf_deps _ _ _ _ _ _ G Ht Hc) as Hdeps.
  pose proof (gw_edges g (gi_wf _ _ _ _ _ G)) as He.
  assert (sameShape g g2 /\ (forall x, inG g x -> x <> t -> (stateOf g2 x = ExecutingState <-> stateOf g x = ExecutingState))
    /\ (forall x, inG g x -> x <> t -> (stateOf g2 x = Unbuildable <-> stateOf g x = Unbuildable \/ (f = true /\ dependsTrans mk0 x t))))
    as (Hsh & Hex & Hun).
  { destruct f.
    - destruct Hm as [fuel Hm]. destruct (markParents_spec _ _ _ _ He Hm) as (M1 & M2 & M3). split_and!; [done| |].
      + intros x Hx Hne. split.
        * intros H. destruct (M3 x) as [<-|[_ ?]]; [done|congruence].
        * intros H. destruct (M3 x) as [->|[Ha _]]; [done|]. exfalso.
          pose proof (gw_exec g (gi_wf _ _ _ _ _ G) x H Hx) as Hcx.
          clear -Ha Hcx He. induction Ha as [t x Hx|t y x Hy Hyx IH]; [|auto].
          apply (eo_sym g He) in Hx. rewrite Hcx in Hx. by apply elem_of_nil in Hx.
      + intros x Hx Hne. split.
        * intros H. destruct (M3 x) as [<-|[Ha _]]; [by left|right]. split; [done|]. by eapply ancestor_dep.
        * intros [H|[_ H]].
          -- destruct (M3 x) as [->|[_ ?]]; done.
          -- apply M2. by eapply dep_ancestor.
    - subst g2. split_and!; [apply sameShape_refl|done|]. naive_solver. }
  assert (edgesOk g2) as He2. { destruct He as [E1 E2 E3]. split; intros; rewrite ?(ss_ch _ _ Hsh), ?(ss_pa _ _ Hsh); auto. }
  assert (inG g2 t) as Ht2 by by apply (ss_in _ _ Hsh).
  assert (childrenOf g2 t = []) as Hc2 by by rewrite (ss_ch _ _ Hsh).
  destruct J as [J1 J2 J3]. apply NoDup_cons in J3 as [Hn J3].
  destruct G as [G1 G2 G3 G4 G5 G6 G7 G8 G9 G10 G11 G12].
  assert (forall x, dealtWith (evs ++ [LEnd t f]) x <-> dealtWith evs x \/ x = t) as Hdw.
  { intros x. rewrite dealtWith_app, dealtWith_one. cbn. naive_solver. }
  assert (forall x, failed (evs ++ [LEnd t f]) x <-> failed evs x \/ (f = true /\ x = t)) as Hfl.
  { intros x. rewrite failed_app, failed_one. naive_solver. }
  assert (gwf g2) as Hw2.
  { split.
    - done.
    - rewrite (ss_lv _ _ Hsh). apply G1.
    - intros x. rewrite (ss_lv _ _ Hsh), (ss_in _ _ Hsh), (ss_ch _ _ Hsh). apply G1.
    - intros x Hs Hx. apply (ss_in _ _ Hsh) in Hx. rewrite (ss_ch _ _ Hsh).
      destruct (decide (x = t)) as [->|]; [done|]. apply Hex in Hs; [|done|done]. by apply (gw_exec g G1). }
  split.
  - by apply removeLeaf_gwf.
  - intros x [Hx Hne]%removeLeaf_in; [|done..]. apply (ss_in _ _ Hsh) in Hx. destruct (G2 x Hx). rewrite Hdw. tauto.
  - intros x Hx. rewrite removeLeaf_in, Hdw, (ss_in _ _ Hsh) by done. destruct (G3 x Hx); [|auto]. destruct (decide (x = t)); auto.
  - intros x d. rewrite removeLeaf_children, removeOne_in by (done || apply (eo_ndc g2 He2)). rewrite (ss_ch _ _ Hsh). naive_solver.
  - intros x d. rewrite !removeLeaf_in, removeLeaf_children, removeOne_in by (done || apply (eo_ndc g2 He2)).
    rewrite (ss_ch _ _ Hsh), !(ss_in _ _ Hsh). naive_solver.
  - intros x d Hx. rewrite !Hdw. intros [Hdx| ->] Hd; left.
    + by eapply G6.
    + apply Hdeps. by constructor 1.
  - intros x [Hx Hne]%removeLeaf_in; [|done..]. apply (ss_in _ _ Hsh) in Hx. rewrite removeLeaf_state by done.
    rewrite (Hex x Hx Hne), (G7 x Hx), elem_of_cons. naive_solver.
  - intros x Hx. destruct (G8 x Hx) as [Hx1 Hx2]. apply not_elem_of_cons in Hx2 as [Hx2 Hx3].
    rewrite removeLeaf_in, (ss_in _ _ Hsh) by done. done.
  - intros x Hx. rewrite removeLeaf_in, (ss_in _ _ Hsh) by done. split; [apply G9; by right|]. intros ->; done.
  - intros x [Hx Hne]%removeLeaf_in; [|done..]. apply (ss_in _ _ Hsh) in Hx. rewrite removeLeaf_state by done.
    rewrite (Hun x Hx Hne), (G10 x Hx). setoid_rewrite Hfl. naive_solver.
  - intros d [Hf|[-> _]]%Hfl; [by eapply G11|auto].
  - intros x [Hx Hne]%removeLeaf_in; [|done..]. apply (ss_in _ _ Hsh) in Hx. auto.
Qed.

(** A new pass. *)
Lemma GI_new sn mk g : built sn mk0 r g -> sameDom mk0 mk -> GI mk g None [] [] /\ JI [] [].
Proof.
  intros [B1 B2 B3 B4 B5 B6] Hd. split; split.
  - done.
  - intros x Hx. split; [by apply B2|apply dealtWith_nil].
  - intros x Hx. left. by apply B2.
  - intros x d H. apply B3; [by eapply children_in|done].
  - intros x d Hx Hdx. by apply B3.
  - intros x d _ H. by apply dealtWith_nil in H.
  - intros x Hx. rewrite B4. split; [done|]. intros [?|?%elem_of_nil]; done.
  - done.
  - by intros x ?%elem_of_nil.
  - intros x Hx. rewrite B4. split; [done|]. intros (d & _ & Hf). by apply failed_nil in Hf.
  - intros d Hf. by apply failed_nil in Hf.
  - intros x Hx. apply Hd. auto.
  - apply PP_nil.
  - intros t. rewrite elem_of_nil. split; [done|]. intros [Hs _]. by apply started_nil in Hs.
  - constructor.
Qed.

(** When nothing runs and nothing can be started, an acyclic graph is empty. *)
Lemma GI_done mk g evs : GI mk g None [] evs -> allExecuting g -> acyclicFrom mk0 r ->
  forall x, neededFor mk0 r x -> dealtWith evs x.
Proof.
  intros G Ha Hac.
  assert (g_leaves g = []) as Hl.
  { destruct (g_leaves g) as [|t l] eqn:E; [done|]. exfalso. assert (t ∈ g_leaves g) as Ht by (rewrite E; by left).
    pose proof (Ha t Ht) as Hs. apply (gw_leaves g (gi_wf _ _ _ _ _ G)) in Ht as [Ht _].
    apply (gi_exec _ _ _ _ _ G t Ht) in Hs as [?|?%elem_of_nil]; done. }
  pose proof (gw_edges g (gi_wf _ _ _ _ _ G)) as He.
  assert (forall n x, inG g x -> exists l, length l = n /\ chain (fun p c => c ∈ childrenOf g p) x l) as Hch.
  { induction n as [|n IH]; intros x Hx; [exists []; split; [done|constructor]|].
    destruct (childrenOf g x) as [|c cs] eqn:Ec.
    - exfalso. assert (x ∈ g_leaves g) as Hxl by by apply (gw_leaves g (gi_wf _ _ _ _ _ G)). rewrite Hl in Hxl.
      by apply elem_of_nil in Hxl.
    - assert (c ∈ childrenOf g x) as Hc by (rewrite Ec; by left).
      destruct (IH c) as (l & H1 & H2); [by eapply child_in|]. exists (c :: l). split; [cbn; by rewrite H1|].
      by constructor. }
  intros x Hx. destruct (gi_out _ _ _ _ _ G x Hx) as [Hin|]; [|done]. exfalso.
  destruct (Hch (S (size (g_nodes g))) x Hin) as (l & Hlen & Hc).
  assert (forall y, y ∈ l -> inG g y) as Hlin.
  { clear -Hc He. induction Hc as [|x c l Hxc Hc IH]; intros y; [by intros ?%elem_of_nil|].
    intros [->|?]%elem_of_cons; [by eapply child_in|auto]. }
  assert (NoDup (x :: l)) as [_ Hnd]%NoDup_cons.
  { eapply chain_nodup; [exact Hc|]. intros y Hy Hyy.
    assert (inG g y) as Hyin by (apply elem_of_cons in Hy as [->|]; auto).
    destruct (gi_in _ _ _ _ _ G y Hyin) as [Hny _]. apply (Hac y Hny).
    clear -Hyy G. revert Hyy. generalize y at 1 3. intros z Hzy.
    induction Hzy as [y z H|y z v H Hv IH].
    - constructor 1. eapply gi_child; [exact G|exact H].
    - econstructor 2; [eapply gi_child; [exact G|exact H]|exact IH]. }
  pose proof (nodup_size l g Hnd Hlin). lia.
Qed.

Lemma GI_acyclic mk g next jt evs : GI mk g next jt evs -> acyclicFrom mk0 r -> forall x, not (ancestor g x x).
Proof.
  intros G Hac x Hx. destruct (ancestor_dep _ _ _ _ _ _ _ G Hx) as [H1 H2]. destruct (gi_in _ _ _ _ _ G x H2) as [Hn _].
  by eapply Hac.
Qed.
End Pass.
