(** Construction of the dependency graph: DependencyGraph::build yields exactly the needed targets and
    their dependencies. *)
From Coq Require Import Relations.
From stdpp Require Import prelude gmap.
From Verif Require Import Base Data Infer UpToDate Graph Exec ExecSpec GraphProofs.

Section Build.
Context (sn : snap) (mk : mkfile) (root : tid).

Local Notation missingDep := (missingDep sn mk root).

Record binv (g : graph) (seen gray : list tid) (extra : option tid) : Prop := {
  bi_edges : edgesOk g;
  bi_dom : forall x, inG g x <-> x ∈ seen \/ extra = Some x;
  bi_gray : forall x, x ∈ gray -> x ∈ seen;
  bi_extra : forall x, extra = Some x -> x ∉ seen /\ childrenOf g x = [];
  bi_dep : forall p c, c ∈ childrenOf g p -> dependsOn mk p c;
  bi_fin : forall x d, x ∈ seen -> x ∉ gray -> dependsOn mk x d -> d ∈ childrenOf g x;
  bi_ndl : NoDup (g_leaves g);
  bi_leaves : forall x, x ∈ g_leaves g <-> x ∈ seen /\ x ∉ gray /\ childrenOf g x = [];
  bi_state : forall x, stateOf g x = UnknownState;
  bi_need : forall x, inG g x -> neededFor mk root x;
  bi_mk : forall x, inG g x -> is_Some (mk_targets mk !! x);
  bi_files : forall x b name, x ∈ seen -> x ∉ gray -> mk_targets mk !! x = Some b -> name ∈ b_deps b ->
     resolveDep mk name = None -> is_Some (sn_stat sn name);
}.

Definition todo (seen : list tid) : nat := size (dom (mk_targets mk) ∖ (list_to_set seen : gset tid)).

Lemma todo_mono seen seen' : seen ⊆ seen' -> todo seen' <= todo seen.
Proof.
  intros H. unfold todo. apply subseteq_size. intros x. rewrite !elem_of_difference, !elem_of_list_to_set.
  intros [? ?]; split; [done|]. intros ?. set_solver.
Qed.
Lemma todo_step t seen : is_Some (mk_targets mk !! t) -> t ∉ seen -> todo (t :: seen) < todo seen.
Proof.
  intros Ht Hn. unfold todo. apply subset_size. split.
  - intros x. rewrite !elem_of_difference, !elem_of_list_to_set. set_solver.
  - intros H. apply elem_of_dom in Ht. assert (t ∈ dom (mk_targets mk) ∖ (list_to_set seen : gset tid)) as Hx.
    { rewrite elem_of_difference, elem_of_list_to_set. done. }
    apply H in Hx. rewrite elem_of_difference, elem_of_list_to_set in Hx. set_solver.
Qed.

Lemma mk_find_in name k : mk_find mk name = Some k -> is_Some (mk_targets mk !! k).
Proof.
  unfold mk_find. destruct (mk_targets mk !! toLower name) eqn:E; [by intros [= <-]; eauto|].
  destruct (mk_targets mk !! replaceChar 47%N 92%N (toLower name)) eqn:E'; [by intros [= <-]; eauto|done].
Qed.
Lemma resolveDep_in name k : resolveDep mk name = Some k -> is_Some (mk_targets mk !! k).
Proof.
  unfold resolveDep. destruct (mk_find mk name) eqn:E; [intros [= <-]; by eapply mk_find_in|].
  by apply mk_find_in.
Qed.

Lemma needed_step x d : neededFor mk root x -> dependsOn mk x d -> neededFor mk root d.
Proof.
  intros [->|H] Hd; right; [by apply t1n_step|].
  apply clos_t1n_trans in H. apply clos_trans_t1n. eapply t_trans; [exact H|]. by apply t_step.
Qed.

Definition recPost (fuel : nat) (g : graph) (seen gray : list tid) (t : tid)
    (r : outcome (graph * list tid)) : Prop :=
  match r with
  | Ok (g', seen') => binv g' seen' gray None /\ t ∈ seen' /\ seen ⊆ seen'
                      /\ (forall x, x ∈ gray -> childrenOf g' x = childrenOf g x)
                      /\ g_dirty g' = g_dirty g
  | Exits c => c = 2%N /\ missingDep
  | Diverges => fuel <= todo seen
  | _ => False
  end.

Lemma add_child g seen t gray c b name :
  binv g seen (t :: gray) None -> t ∈ seen ->
  mk_targets mk !! t = Some b -> name ∈ b_deps b -> resolveDep mk name = Some c ->
  let g' := match g_nodes g !! c with Some _ => addEdge t c g | None => createNode c (Some t) g end in
  exists extra, binv g' seen (t :: gray) extra /\ (extra = Some c \/ extra = None /\ c ∈ seen)
   /\ c ∈ childrenOf g' t /\ (forall x, x ∈ gray -> x <> t -> childrenOf g' x = childrenOf g x)
   /\ (forall x, x ∈ childrenOf g t -> x ∈ childrenOf g' t)
   /\ g_dirty g' = g_dirty g.
Proof.
  intros H Hts Hb Hname Hres. cbv zeta.
  assert (dependsOn mk t c) as Hdep by (exists b, name; done).
  assert (inG g t) as HtG by (apply (bi_dom _ _ _ _ H); by left).
  pose proof (bi_need _ _ _ _ H t HtG) as Hnt.
  destruct (g_nodes g !! c) as [cn|] eqn:Ec.
  - assert (inG g c) as Hc by (unfold inG; eauto).
    assert (c ∈ seen) as Hcs. { apply (bi_dom _ _ _ _ H) in Hc as [?|?]; done. }
    exists None. split; [|split_and!].
    + destruct H as [B1 B2 B3 B4 B5 B6 B7 B8 B9 B10 B11 B12]. split.
      * by apply addEdge_edgesOk.
      * intros x. by rewrite inG_addEdge.
      * done.
      * done.
      * intros p d. rewrite addEdge_children by done. intros [?|[-> ->]]; auto.
      * intros x d ? ? ?. rewrite addEdge_children by done. left. auto.
      * done.
      * intros x. rewrite addEdge_leaves, B8. split; intros (? & Hg & Hch); split_and!; try done.
        -- rewrite addEdge_children_ne; [done|]. intros ->; set_solver.
        -- rewrite addEdge_children_ne in Hch; [done|]. intros ->; set_solver.
      * intros x. by rewrite addEdge_state.
      * intros x. rewrite inG_addEdge. auto.
      * intros x. rewrite inG_addEdge. auto.
      * done.
    + right. done.
    + rewrite addEdge_children by done. naive_solver.
    + intros x Hx Hne. by rewrite addEdge_children_ne.
    + intros x Hx. rewrite addEdge_children by done. by left.
    + done.
  - assert (c ∉ seen) as Hcs. { intros Hc. assert (inG g c) as [? ?] by (apply (bi_dom _ _ _ _ H); by left). congruence. }
    assert (c <> t) as Hct by (intros ->; done).
    rewrite createNode_some. set (g1 := freshNode c g).
    assert (inG g1 t) as Ht1 by (apply fresh_in; by right).
    assert (inG g1 c) as Hc1 by (apply fresh_in; by left).
    assert (forall x, x <> t -> childrenOf (addEdge t c g1) x = childrenOf g x) as Hchn.
    { intros x Hx. rewrite addEdge_children_ne by done. by apply fresh_children. }
    assert (childrenOf g c = []) as Hcc by (unfold childrenOf; by rewrite Ec).
    exists (Some c). split; [|split_and!].
    + destruct H as [B1 B2 B3 B4 B5 B6 B7 B8 B9 B10 B11 B12]. split.
      * apply addEdge_edgesOk; [by apply fresh_edgesOk|done|done].
      * intros x. rewrite inG_addEdge. unfold g1. rewrite fresh_in, B2. naive_solver.
      * done.
      * intros x [= <-]. split; [done|]. by rewrite Hchn.
      * intros p d. rewrite addEdge_children by done. unfold g1. rewrite fresh_children by done. intros [?|[-> ->]]; auto.
      * intros x d ? ? ?. rewrite addEdge_children by done. left. unfold g1. rewrite fresh_children by done. auto.
      * done.
      * intros x. rewrite addEdge_leaves. unfold g1. cbn [freshNode g_leaves]. rewrite B8.
        split; intros (? & Hg & Hch); split_and!; try done.
        -- rewrite Hchn; [done|]. intros ->; set_solver.
        -- rewrite Hchn in Hch; [done|]. intros ->; set_solver.
      * intros x. rewrite addEdge_state. unfold g1. by rewrite fresh_state.
      * intros x. rewrite inG_addEdge. unfold g1. rewrite fresh_in. intros [->|?]; [by eapply needed_step|auto].
      * intros x. rewrite inG_addEdge. unfold g1. rewrite fresh_in. intros [->|?]; [by eapply resolveDep_in|auto].
      * done.
    + by left.
    + rewrite addEdge_children by done. naive_solver.
    + intros x _ Hx. by apply Hchn.
    + intros x Hx. rewrite addEdge_children by done. left. unfold g1. by rewrite fresh_children.
    + done.
Qed.

(** A listed name has been handled: an edge to its target, or an existing file. *)
Definition handled (g : graph) (t : tid) (name : qstr) : Prop :=
  match resolveDep mk name with
  | Some c => c ∈ childrenOf g t
  | None => is_Some (sn_stat sn name)
  end.

Lemma buildDeps_spec fuel rec t b gray :
  (forall g seen gray extra t, binv g seen gray extra -> extra = Some t \/ (extra = None /\ t ∈ seen) ->
     recPost fuel g seen gray t (rec g seen t)) ->
  mk_targets mk !! t = Some b -> t ∉ gray ->
  forall deps g seen, binv g seen (t :: gray) None ->
  (forall name, name ∈ deps -> name ∈ b_deps b) ->
  (forall name, name ∈ b_deps b -> name ∈ deps \/ handled g t name) ->
  recPost fuel g seen gray t (buildDeps rec sn mk t deps g seen).
Proof.
  intros Hrec Hb Htg. induction deps as [|d deps IH]; intros g seen H Hsub Hdone.
  - cbn. assert (t ∈ seen) as Hts by (apply (bi_gray _ _ _ _ H); by left).
    assert (forall x, childrenOf (if isNil (childrenOf g t) then Graph (g_nodes g) (g_leaves g ++ [t]) (g_dirty g) else g) x = childrenOf g x) as Hch.
    { intros. by destruct (isNil _). }
    split_and!; [|done|done|done|by destruct (isNil _)].
    destruct H as [B1 B2 B3 B4 B5 B6 B7 B8 B9 B10 B11 B12].
    assert (forall x d, x ∈ seen -> x ∉ gray -> dependsOn mk x d -> d ∈ childrenOf g x) as HB6.
    { intros x d Hx Hxg Hd. destruct (decide (x = t)) as [->|Hne]; [|apply B6; [done|by apply not_elem_of_cons|done]].
      destruct Hd as (b' & name & Hb' & Hn & Hr). simplify_eq.
      destruct (Hdone name Hn) as [Hnil|Hh]; [by apply elem_of_nil in Hnil|].
      unfold handled in Hh. by rewrite Hr in Hh. }
    assert (forall x b name, x ∈ seen -> x ∉ gray -> mk_targets mk !! x = Some b -> name ∈ b_deps b ->
       resolveDep mk name = None -> is_Some (sn_stat sn name)) as HB12.
    { intros x b' name Hx Hxg Hb' Hn Hr. destruct (decide (x = t)) as [->|Hne]; [|eapply B12; try done; by apply not_elem_of_cons].
      simplify_eq. destruct (Hdone name Hn) as [Hnil|Hh]; [by apply elem_of_nil in Hnil|].
      unfold handled in Hh. by rewrite Hr in Hh. }
    destruct (isNil (childrenOf g t)) eqn:En.
    + apply isNil_true in En. split; try done.
      * destruct B1. split; done.
      * intros x Hx. apply B3. by right.
      * cbn. apply NoDup_app. split_and!; [done| |apply NoDup_singleton]. intros x Hx ->%elem_of_list_singleton.
        apply B8 in Hx as (_ & Hx & _). by apply Hx; left.
      * intros x. cbn. rewrite elem_of_app, elem_of_list_singleton, B8, not_elem_of_cons. split.
        -- intros [(? & [? ?] & ?)| ->]; split_and!; done.
        -- intros (? & ? & ?). destruct (decide (x = t)); [by right|by left].
    + apply isNil_false in En. split; try done.
      * intros x Hx. apply B3. by right.
      * intros x. rewrite B8, not_elem_of_cons. split.
        -- intros (? & [? ?] & ?); split_and!; done.
        -- intros (? & ? & Hx). split_and!; try done. by intros ->.
  - cbn [buildDeps]. assert (t ∈ seen) as Hts by (apply (bi_gray _ _ _ _ H); by left).
    destruct (resolveDep mk d) as [c|] eqn:Er.
    + destruct (add_child g seen t gray c b d H Hts Hb (Hsub d ltac:(by left)) Er)
        as (extra & H1 & Hex & Hct & Hgr & Hmono & Hdirty).
      set (g' := match g_nodes g !! c with Some _ => addEdge t c g | None => createNode c (Some t) g end) in *.
      specialize (Hrec g' seen (t :: gray) extra c H1 Hex).
      destruct (rec g' seen c) as [[g2 seen2]| |code| |] eqn:Erec; cbn in Hrec |- *; try done.
      destruct Hrec as (H2 & Hc2 & Hs2 & Hg2 & Hd2).
      assert (recPost fuel g2 seen2 gray t (buildDeps rec sn mk t deps g2 seen2)) as Hpost.
      { apply IH; [done|intros; apply Hsub; by right|]. intros name Hn. destruct (Hdone name Hn) as [Hin|Hh].
        - apply elem_of_cons in Hin as [->|Hin]; [|by left]. right. unfold handled. rewrite Er.
          rewrite (Hg2 t) by by left. done.
        - right. unfold handled in *. destruct (resolveDep mk name); [|done].
          rewrite (Hg2 t) by by left. by apply Hmono. }
      destruct (buildDeps rec sn mk t deps g2 seen2) as [[g3 seen3]| |code| |]; cbn in *; try done.
      * destruct Hpost as (P1 & P2 & P3 & P4 & P5). split; [exact P1|]. split; [exact P2|]. split; [|split].
        -- by etransitivity.
        -- intros x Hx. rewrite P4, Hg2 by (done || by right). apply Hgr; [done|]. intros ->; done.
        -- congruence.
      * etransitivity; [exact Hpost|]. by apply todo_mono.
    + destruct (sn_stat sn d) as [tm|] eqn:Est.
      * apply IH; [done|intros; apply Hsub; by right|]. intros name Hn. destruct (Hdone name Hn) as [Hin|Hh]; [|by right].
        apply elem_of_cons in Hin as [->|Hin]; [|by left]. right. unfold handled. rewrite Er, Est. eauto.
      * cbn. split; [done|]. exists t, b, d. split_and!; try done; [|apply Hsub; by left].
        apply (bi_need _ _ _ _ H). apply (bi_dom _ _ _ _ H). by left.
Qed.

Lemma internalBuild_spec fuel : forall g seen gray extra t,
  binv g seen gray extra -> extra = Some t \/ (extra = None /\ t ∈ seen) ->
  recPost fuel g seen gray t (internalBuild fuel sn mk g seen t).
Proof.
  induction fuel as [|fuel IH]; intros g seen gray extra t H Hex; cbn -[decide].
  { lia. }
  destruct (decide (t ∈ seen)) as [Hin|Hni].
  - destruct Hex as [->|[-> _]].
    + destruct (bi_extra _ _ _ _ H t eq_refl) as [? _]. done.
    + cbn. done.
  - destruct Hex as [->|[_ ?]]; [|done].
    assert (inG g t) as HtG by (apply (bi_dom _ _ _ _ H); by right).
    destruct (bi_mk _ _ _ _ H t HtG) as [b Hb]. rewrite Hb.
    assert (t ∉ gray) as Htg by (intros ?; by apply Hni, (bi_gray _ _ _ _ H)).
    assert (binv g (t :: seen) (t :: gray) None) as H1.
    { destruct H as [B1 B2 B3 B4 B5 B6 B7 B8 B9 B10 B11 B12]. split; try done.
      - intros x. rewrite B2. rewrite elem_of_cons. split; intros [?|?]; naive_solver.
      - intros x. rewrite !elem_of_cons. naive_solver.
      - intros x d. rewrite not_elem_of_cons, elem_of_cons. naive_solver.
      - intros x. rewrite B8, not_elem_of_cons, elem_of_cons. split.
        + intros (Hx & ? & ?). split_and!; try done; [by right|]. by intros ->.
        + naive_solver.
      - intros x b' name. rewrite not_elem_of_cons, elem_of_cons. naive_solver. }
    pose proof (buildDeps_spec fuel (internalBuild fuel sn mk) t b gray IH Hb Htg (b_deps b) g (t :: seen) H1
      ltac:(done) ltac:(by left)) as Hpost.
    destruct (buildDeps _ _ _ _ _ _ _) as [[g3 seen3]| |code| |]; cbn in *; try done.
    + destruct Hpost as (P1 & P2 & P3 & P4 & P5). split_and!; try done. set_solver.
    + pose proof (todo_step t seen ltac:(eauto) Hni). lia.
Qed.
End Build.

(** The finished graph: exactly the needed targets, with exactly their dependencies. *)
Record built (sn : snap) (mk : mkfile) (root : tid) (g : graph) : Prop := {
  bl_wf : gwf g;
  bl_in : forall x, inG g x <-> neededFor mk root x;
  bl_edge : forall x d, inG g x -> (d ∈ childrenOf g x <-> dependsOn mk x d);
  bl_state : forall x, stateOf g x = UnknownState;
  bl_mk : forall x, inG g x -> is_Some (mk_targets mk !! x);
  bl_files : not (missingDep sn mk root);
}.

Lemma buildGraph_spec sn mk g root :
  g_nodes g = ∅ -> g_leaves g = [] -> is_Some (mk_targets mk !! root) ->
  match buildGraph sn mk g root with
  | Ok g' => built sn mk root g' /\ g_dirty g' = true
  | Exits c => c = 2%N /\ missingDep sn mk root
  | _ => False
  end.
Proof.
  intros Hg Hl Hroot. unfold buildGraph. rewrite createNode_none. set (g0 := freshNode root _).
  assert (forall x, childrenOf g0 x = []) as Hc0.
  { intros x. unfold g0. rewrite fresh_children by (cbn; by rewrite Hg). unfold childrenOf. cbn. by rewrite Hg. }
  assert (forall x, parentsOf g0 x = []) as Hp0.
  { intros x. unfold g0. rewrite fresh_parents by (cbn; by rewrite Hg). unfold parentsOf. cbn. by rewrite Hg. }
  assert (forall x, inG g0 x <-> x = root) as Hin.
  { intros x. unfold g0. rewrite fresh_in. unfold inG. cbn. rewrite Hg, lookup_empty. split; [|by left].
    intros [?|[? ?]]; done. }
  assert (binv sn mk root g0 [] [] (Some root)) as H0.
  { split.
    - split; intros; rewrite ?Hc0, ?Hp0; try constructor; by intros ?%elem_of_nil.
    - intros x. rewrite Hin. split; [intros ->; by right|]. intros [?%elem_of_nil|?]; [done|naive_solver].
    - done.
    - intros x [= <-]. split; [apply not_elem_of_nil|apply Hc0].
    - intros p c. rewrite Hc0. by intros ?%elem_of_nil.
    - by intros ? ? ?%elem_of_nil.
    - cbn. rewrite Hl. constructor.
    - cbn. rewrite Hl. intros x. split; [by intros ?%elem_of_nil|]. by intros [?%elem_of_nil ?].
    - intros x. unfold g0. rewrite fresh_state by (cbn; by rewrite Hg). unfold stateOf. cbn. by rewrite Hg.
    - intros x ->%Hin. by left.
    - intros x ->%Hin. done.
    - by intros ? ? ? ?%elem_of_nil. }
  pose proof (internalBuild_spec sn mk root (S (S (size (mk_targets mk)))) g0 [] [] (Some root) root H0 ltac:(by left)) as H.
  destruct (internalBuild _ sn mk g0 [] root) as [[g' seen]| |code| |]; cbn [recPost] in H; try done.
  - destruct H as (B & Hr & _ & _ & Hd). split; [|exact Hd].
    assert (forall x, inG g' x <-> x ∈ seen) as Hseen.
    { intros x. rewrite (bi_dom _ _ _ _ _ _ _ B). split; [intros [?|?]; done|by left]. }
    assert (forall x d, inG g' x -> (d ∈ childrenOf g' x <-> dependsOn mk x d)) as Hedge.
    { intros x d Hx. split; [apply (bi_dep _ _ _ _ _ _ _ B)|].
      apply (bi_fin _ _ _ _ _ _ _ B); [by apply Hseen|apply not_elem_of_nil]. }
    assert (forall x, inG g' x <-> neededFor mk root x) as Hneed.
    { intros x. split; [apply (bi_need _ _ _ _ _ _ _ B)|].
      assert (forall y z, inG g' y -> dependsTrans mk y z -> inG g' z) as Hcl.
      { intros y z Hy Hyz. induction Hyz as [y z Hyz|y z v Hyz Hzv IH].
        - eapply child_in; [apply (bi_edges _ _ _ _ _ _ _ B)|]. by apply Hedge.
        - apply IH. eapply child_in; [apply (bi_edges _ _ _ _ _ _ _ B)|]. by apply Hedge. }
      intros [->|Hx]; [by apply Hseen|]. eapply Hcl; [|exact Hx]. by apply Hseen. }
    split; try done.
    + split.
      * apply (bi_edges _ _ _ _ _ _ _ B).
      * apply (bi_ndl _ _ _ _ _ _ _ B).
      * intros x. rewrite (bi_leaves _ _ _ _ _ _ _ B), Hseen. split; [by intros (? & _ & ?)|].
        intros [? ?]. split_and!; [done|apply not_elem_of_nil|done].
      * intros x Hx. by rewrite (bi_state _ _ _ _ _ _ _ B) in Hx.
    + apply (bi_state _ _ _ _ _ _ _ B).
    + apply (bi_mk _ _ _ _ _ _ _ B).
    + intros (x & b & name & Hx & Hb & Hn & Hres & Hst).
      destruct (bi_files _ _ _ _ _ _ _ B x b name) as [? ?]; try done; [|apply not_elem_of_nil|congruence].
      apply Hseen, Hneed. done.
  - exfalso. unfold todo in H. 
    assert (size (dom (mk_targets mk) ∖ (list_to_set [] : gset tid)) <= size (dom (mk_targets mk)))%nat as Hle.
    { apply subseteq_size. set_solver. }
    rewrite size_dom in Hle. lia.
Qed.
