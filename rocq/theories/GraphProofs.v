(** The dependency graph: well-formedness, construction, removal of leaves. *)
From Coq Require Import Relations.
From stdpp Require Import prelude gmap.
From Verif Require Import Base Data Infer UpToDate Graph Exec ExecSpec.

Definition inG (g : graph) (t : tid) : Prop := is_Some (g_nodes g !! t).

(** Edges are recorded at both ends, and only between nodes. *)
Record edgesOk (g : graph) : Prop := {
  eo_sym : forall p c, c ∈ childrenOf g p <-> p ∈ parentsOf g c;
  eo_ndc : forall t, NoDup (childrenOf g t);
  eo_ndp : forall t, NoDup (parentsOf g t);
}.

Lemma children_in g p c : c ∈ childrenOf g p -> inG g p.
Proof. unfold childrenOf, inG. destruct (g_nodes g !! p); [eauto|]. by intros ?%elem_of_nil. Qed.
Lemma parents_in g p c : p ∈ parentsOf g c -> inG g c.
Proof. unfold parentsOf, inG. destruct (g_nodes g !! c); [eauto|]. by intros ?%elem_of_nil. Qed.
Lemma child_in g p c : edgesOk g -> c ∈ childrenOf g p -> inG g c.
Proof. intros H Hc. eapply parents_in. by apply (eo_sym g H). Qed.

(** The whole graph invariant (once it is built). *)
Record gwf (g : graph) : Prop := {
  gw_edges : edgesOk g;
  gw_ndl : NoDup (g_leaves g);
  gw_leaves : forall t, t ∈ g_leaves g <-> inG g t /\ childrenOf g t = [];
  gw_exec : forall t, stateOf g t = ExecutingState -> inG g t -> childrenOf g t = [];
}.

Lemma removeOne_notin x l : x ∉ l -> removeOne x l = l.
Proof.
  induction l as [|y l IH]; intros H; cbn; [done|]. apply not_elem_of_cons in H as [H1 H2].
  destruct (decide (x = y)); [done|]. by rewrite IH.
Qed.
Lemma removeOne_in x l : NoDup l -> forall y, y ∈ removeOne x l <-> y ∈ l /\ y <> x.
Proof.
  induction 1 as [|z l Hz Hn IH]; intros y; cbn; [set_solver|].
  destruct (decide (x = z)) as [->|Hne]; [set_solver|]. rewrite !elem_of_cons, IH. set_solver.
Qed.
Lemma removeOne_perm x l : x ∈ l -> l ≡ₚ x :: removeOne x l.
Proof.
  induction l as [|y l IH]; intros H; [by apply elem_of_nil in H|]. cbn. destruct (decide (x = y)) as [->|Hne]; [done|].
  apply elem_of_cons in H as [?|H]; [done|]. rewrite Permutation_swap. f_equiv. auto.
Qed.
Lemma removeOne_nodup x l : NoDup l -> NoDup (removeOne x l).
Proof.
  induction 1 as [|z l Hz Hn IH]; cbn; [constructor|].
  destruct (decide (x = z)); [done|]. constructor; [|done]. rewrite removeOne_in by done. tauto.
Qed.
Lemma addOnce_in x l y : y ∈ addOnce x l <-> y ∈ l \/ y = x.
Proof. unfold addOnce. destruct (decide _); set_solver. Qed.
Lemma addOnce_nodup x l : NoDup l -> NoDup (addOnce x l).
Proof.
  intros H. unfold addOnce. destruct (decide _); [done|]. apply NoDup_app. split_and!; [done| |apply NoDup_singleton].
  set_solver.
Qed.

(** *** Accessors of modified graphs. *)
Lemma updNode_lookup t f g x :
  g_nodes (updNode t f g) !! x = if decide (x = t) then f <$> g_nodes g !! t else g_nodes g !! x.
Proof.
  unfold updNode; cbn. destruct (decide (x = t)) as [->|]; [by rewrite lookup_alter|].
  by rewrite lookup_alter_ne.
Qed.
Lemma inG_updNode t f g x : inG (updNode t f g) x <-> inG g x.
Proof.
  unfold inG. rewrite updNode_lookup. destruct (decide _) as [->|]; [|done].
  by rewrite fmap_is_Some.
Qed.
Lemma inG_addEdge p c g x : inG (addEdge p c g) x <-> inG g x.
Proof. unfold addEdge. by rewrite !inG_updNode. Qed.

Lemma addEdge_lookup p c g x :
  g_nodes (addEdge p c g) !! x =
  (fun n => Node (nd_state n)
      (if decide (x = p) then addOnce c (nd_children n) else nd_children n)
      (if decide (x = c) then addOnce p (nd_parents n) else nd_parents n)) <$> g_nodes g !! x.
Proof.
  unfold addEdge. rewrite !updNode_lookup.
  destruct (g_nodes g !! x) as [[]|] eqn:E; repeat destruct (decide _); subst; rewrite ?E; cbn; try done;
    destruct (g_nodes g !! p) as [[]|]; simplify_eq; done.
Qed.
Lemma addEdge_children p c g x : inG g p ->
  forall y, y ∈ childrenOf (addEdge p c g) x <-> y ∈ childrenOf g x \/ (x = p /\ y = c).
Proof.
  intros Hp y. unfold childrenOf. rewrite addEdge_lookup.
  destruct (g_nodes g !! x) as [n|] eqn:E; cbn.
  - destruct (decide (x = p)) as [->|]; [rewrite addOnce_in|]; naive_solver.
  - split; [by left|]. intros [?|[-> ->]]; [done|]. destruct Hp as [? Hp]. congruence.
Qed.
Lemma addEdge_parents p c g x : inG g c ->
  forall y, y ∈ parentsOf (addEdge p c g) x <-> y ∈ parentsOf g x \/ (x = c /\ y = p).
Proof.
  intros Hp y. unfold parentsOf. rewrite addEdge_lookup.
  destruct (g_nodes g !! x) as [n|] eqn:E; cbn.
  - destruct (decide (x = c)) as [->|]; [rewrite addOnce_in|]; naive_solver.
  - split; [by left|]. intros [?|[-> ->]]; [done|]. destruct Hp as [? Hp]. congruence.
Qed.
Lemma addEdge_children_ne p c g x : x <> p -> childrenOf (addEdge p c g) x = childrenOf g x.
Proof. intros. unfold childrenOf. rewrite addEdge_lookup. destruct (g_nodes g !! x); cbn; [|done]. by destruct (decide _). Qed.
Lemma addEdge_state p c g x : stateOf (addEdge p c g) x = stateOf g x.
Proof. unfold stateOf. rewrite addEdge_lookup. by destruct (g_nodes g !! x). Qed.
Lemma addEdge_leaves p c g : g_leaves (addEdge p c g) = g_leaves g.
Proof. done. Qed.
Lemma addEdge_dirty p c g : g_dirty (addEdge p c g) = g_dirty g.
Proof. done. Qed.
Lemma addEdge_edgesOk p c g : edgesOk g -> inG g p -> inG g c -> edgesOk (addEdge p c g).
Proof.
  intros [S1 S2 S3] Hp Hc. split.
  - intros x y. rewrite addEdge_children, addEdge_parents, S1 by done. naive_solver.
  - intros t. unfold childrenOf. rewrite addEdge_lookup. specialize (S2 t). unfold childrenOf in S2.
    destruct (g_nodes g !! t); cbn; [|constructor]. destruct (decide _); [by apply addOnce_nodup|done].
  - intros t. unfold parentsOf. rewrite addEdge_lookup. specialize (S3 t). unfold parentsOf in S3.
    destruct (g_nodes g !! t); cbn; [|constructor]. destruct (decide _); [by apply addOnce_nodup|done].
Qed.

(** A fresh node. *)
Definition freshNode (t : tid) (g : graph) : graph :=
  Graph (<[t := Node UnknownState [] []]> (g_nodes g)) (g_leaves g) (g_dirty g).
Lemma createNode_some c p g : createNode c (Some p) g = addEdge p c (freshNode c g).
Proof. done. Qed.
Lemma createNode_none c g : createNode c None g = freshNode c g.
Proof. done. Qed.
Lemma fresh_children c g x : g_nodes g !! c = None -> childrenOf (freshNode c g) x = childrenOf g x.
Proof. intros H. unfold childrenOf, freshNode. cbn. destruct (decide (x = c)) as [->|]; [by rewrite lookup_insert, H|by rewrite lookup_insert_ne]. Qed.
Lemma fresh_parents c g x : g_nodes g !! c = None -> parentsOf (freshNode c g) x = parentsOf g x.
Proof. intros H. unfold parentsOf, freshNode. cbn. destruct (decide (x = c)) as [->|]; [by rewrite lookup_insert, H|by rewrite lookup_insert_ne]. Qed.
Lemma fresh_state c g x : g_nodes g !! c = None -> stateOf (freshNode c g) x = stateOf g x.
Proof. intros H. unfold stateOf, freshNode. cbn. destruct (decide (x = c)) as [->|]; [by rewrite lookup_insert, H|by rewrite lookup_insert_ne]. Qed.
Lemma fresh_in c g x : inG (freshNode c g) x <-> x = c \/ inG g x.
Proof. unfold inG, freshNode. cbn. rewrite lookup_insert_is_Some. destruct (decide (c = x)); naive_solver. Qed.
Lemma fresh_edgesOk c g : g_nodes g !! c = None -> edgesOk g -> edgesOk (freshNode c g).
Proof.
  intros H [S1 S2 S3]. split; intros.
  - by rewrite fresh_children, fresh_parents.
  - by rewrite fresh_children.
  - by rewrite fresh_parents.
Qed.

(** *** removeLeaf *)
Lemma fold_detach t ps : NoDup ps -> forall g, (forall p, p ∈ ps -> inG g p) ->
  let g' := fold_left (fun g p => detachFrom t p g) ps g in
  (forall x, g_nodes g' !! x =
     (fun n => if decide (x ∈ ps) then Node (nd_state n) (removeOne t (nd_children n)) (nd_parents n) else n)
       <$> g_nodes g !! x)
  /\ g_leaves g' = g_leaves g ++ List.filter (fun p => isNil (removeOne t (childrenOf g p))) ps
  /\ (g_dirty g' = true <-> g_dirty g = true \/ exists p, p ∈ ps /\ removeOne t (childrenOf g p) = []).
Proof.
  induction 1 as [|p ps Hp Hn IH]; intros g Hin; cbn -[decide].
  - split_and!.
    + intros x. destruct (g_nodes g !! x) as [n|]; [|done]. cbn -[decide].
      destruct (decide _) as [H|]; [by apply elem_of_nil in H|done].
    + by rewrite app_nil_r.
    + split; [by left|]. intros [?|(? & H & _)]; [done|]. by apply elem_of_nil in H.
  - destruct (Hin p ltac:(set_solver)) as [n Hpn].
    set (g1 := detachFrom t p g).
    assert (forall x, g_nodes g1 !! x = if decide (x = p) then Some (Node (nd_state n) (removeOne t (nd_children n)) (nd_parents n)) else g_nodes g !! x) as Hg1.
    { intros x. unfold g1, detachFrom. rewrite Hpn. cbv zeta.
      destruct (isNil _); cbn; destruct (decide (x = p)) as [->|]; by rewrite ?lookup_insert, ?lookup_insert_ne. }
    assert (forall q, q ∈ ps -> childrenOf g1 q = childrenOf g q) as Hch.
    { intros q Hq. unfold childrenOf. rewrite Hg1. destruct (decide (q = p)) as [->|]; [done|done]. }
    destruct (IH g1) as (I1 & I2 & I3).
    { intros q Hq. unfold inG. rewrite Hg1. destruct (decide _); [done|]. apply Hin. set_solver. }
    fold g1. split_and!.
    + intros x. rewrite I1, Hg1. destruct (decide (x = p)) as [->|Hne].
      * rewrite Hpn. cbn -[decide]. destruct (decide (p ∈ ps)); [done|]. destruct (decide (p ∈ p :: ps)) as [|H]; [done|]. exfalso; apply H; set_solver.
      * destruct (g_nodes g !! x); [|done]. cbn -[decide]. repeat destruct (decide _); try done; exfalso; set_solver.
    + rewrite I2.
      assert (List.filter (fun p => isNil (removeOne t (childrenOf g1 p))) ps = List.filter (fun p => isNil (removeOne t (childrenOf g p))) ps) as ->.
      { clear -Hch. induction ps as [|q ps IH]; [done|]. cbn. rewrite Hch by set_solver.
        rewrite IH; [done|]. intros; apply Hch; set_solver. }
      unfold g1, detachFrom, childrenOf at 2. rewrite Hpn. cbv zeta. destruct (isNil _); cbn; by rewrite <- ?app_assoc.
    + rewrite I3. unfold g1 at 1, detachFrom. rewrite Hpn. cbv zeta.
      assert (childrenOf g p = nd_children n) as Hcp by (unfold childrenOf; by rewrite Hpn).
      destruct (isNil (removeOne t (nd_children n))) eqn:E; cbn.
      * split; [|by left]. intros _. right. exists p. split; [set_solver|]. rewrite Hcp. by destruct (removeOne _ _).
      * split.
        -- intros [?|(q & Hq & Hr)]; [by left|]. right. exists q. rewrite Hch in Hr by done. split; [set_solver|done].
        -- intros [?|(q & Hq & Hr)]; [by left|]. right. apply elem_of_cons in Hq as [->|Hq].
           ++ rewrite Hcp in Hr. by rewrite Hr in E.
           ++ exists q. by rewrite Hch.
Qed.

Section Remove.
Context (g : graph) (t : tid) (Hwf : edgesOk g) (Ht : inG g t) (Hleaf : childrenOf g t = []).

Lemma parents_ne p : p ∈ parentsOf g t -> p <> t.
Proof using Hwf Hleaf. intros Hp ->. apply (eo_sym g Hwf) in Hp. rewrite Hleaf in Hp. by apply elem_of_nil in Hp. Qed.

Lemma removeLeaf_lookup x :
  g_nodes (removeLeaf t g) !! x =
  if decide (x = t) then None
  else (fun n => Node (nd_state n) (removeOne t (nd_children n)) (nd_parents n)) <$> g_nodes g !! x.
Proof using Hwf Ht Hleaf.
  destruct Ht as [n Hn]. unfold removeLeaf. rewrite Hn.
  set (g1 := Graph _ (List.filter _ _) _).
  assert (parentsOf g t = nd_parents n) as Hp by (unfold parentsOf; by rewrite Hn).
  destruct (fold_detach t (nd_parents n) ltac:(rewrite <- Hp; apply (eo_ndp g Hwf)) g1) as (F1 & F2 & F3).
  { rewrite <- Hp. intros p Hpp. apply (eo_sym g Hwf) in Hpp. change (inG g p). eapply children_in; eauto. }
  cbn. destruct (decide (x = t)) as [->|Hne]; [by rewrite lookup_delete|].
  rewrite lookup_delete_ne by done. rewrite F1. change (g_nodes g1) with (g_nodes g).
  destruct (g_nodes g !! x) as [m|] eqn:Hm; [|done]. cbn -[decide]. f_equal. destruct (decide _) as [|Hni]; [done|].
  rewrite removeOne_notin; [by destruct m|]. intros Hc. apply Hni. rewrite <- Hp. apply (eo_sym g Hwf).
  unfold childrenOf. by rewrite Hm.
Qed.

Lemma removeLeaf_in x : inG (removeLeaf t g) x <-> inG g x /\ x <> t.
Proof using Hwf Ht Hleaf.
  unfold inG. rewrite removeLeaf_lookup. destruct (decide _); [|rewrite fmap_is_Some]; split; try tauto.
  by intros [? ?].
Qed.
Lemma removeLeaf_children x : childrenOf (removeLeaf t g) x = removeOne t (childrenOf g x).
Proof using Hwf Ht Hleaf.
  unfold childrenOf. rewrite removeLeaf_lookup. destruct (decide _) as [->|].
  - unfold childrenOf in Hleaf. destruct (g_nodes g !! t); [by rewrite Hleaf|done].
  - by destruct (g_nodes g !! x).
Qed.
Lemma removeLeaf_parents x : x <> t -> parentsOf (removeLeaf t g) x = parentsOf g x.
Proof using Hwf Ht Hleaf. intros. unfold parentsOf. rewrite removeLeaf_lookup. destruct (decide _); [done|]. by destruct (g_nodes g !! x). Qed.
Lemma removeLeaf_parents_self : parentsOf (removeLeaf t g) t = [].
Proof using Hwf Ht Hleaf. unfold parentsOf. rewrite removeLeaf_lookup. by destruct (decide _). Qed.
Lemma removeLeaf_state x : x <> t -> stateOf (removeLeaf t g) x = stateOf g x.
Proof using Hwf Ht Hleaf. intros. unfold stateOf. rewrite removeLeaf_lookup. destruct (decide _); [done|]. by destruct (g_nodes g !! x). Qed.

Lemma removeLeaf_leaves :
  g_leaves (removeLeaf t g) = List.filter (fun x => bool_decide (x ≠ t)) (g_leaves g)
    ++ List.filter (fun p => isNil (removeOne t (childrenOf g p))) (parentsOf g t)
  /\ (g_dirty (removeLeaf t g) = true <-> g_dirty g = true \/ exists p, p ∈ parentsOf g t /\ removeOne t (childrenOf g p) = []).
Proof using Hwf Ht Hleaf.
  destruct Ht as [n Hn]. assert (parentsOf g t = nd_parents n) as Hp by (unfold parentsOf; by rewrite Hn).
  unfold removeLeaf. rewrite Hn.
  set (g1 := Graph _ (List.filter _ _) _).
  destruct (fold_detach t (nd_parents n) ltac:(rewrite <- Hp; apply (eo_ndp g Hwf)) g1) as (F1 & F2 & F3).
  { rewrite <- Hp. intros p Hpp. apply (eo_sym g Hwf) in Hpp. change (inG g p). eapply children_in; eauto. }
  rewrite Hp. split; [exact F2|exact F3].
Qed.

Lemma removeLeaf_edgesOk : edgesOk (removeLeaf t g).
Proof using Hwf Ht Hleaf.
  split.
  - intros p c. rewrite removeLeaf_children, removeOne_in by apply (eo_ndc g Hwf).
    destruct (decide (c = t)) as [->|Hne].
    + rewrite removeLeaf_parents_self. split; [tauto|]. by intros ?%elem_of_nil.
    + rewrite removeLeaf_parents by done. rewrite (eo_sym g Hwf). tauto.
  - intros x. rewrite removeLeaf_children. apply removeOne_nodup, (eo_ndc g Hwf).
  - intros x. destruct (decide (x = t)) as [->|Hne]; [rewrite removeLeaf_parents_self; constructor|].
    rewrite removeLeaf_parents by done. apply (eo_ndp g Hwf).
Qed.
End Remove.

Lemma in_filter {A} (f : A -> bool) l x : x ∈ List.filter f l <-> x ∈ l /\ f x = true.
Proof. rewrite !elem_of_list_In. apply filter_In. Qed.
Lemma nodup_filter {A} (f : A -> bool) l : NoDup l -> NoDup (List.filter f l).
Proof. rewrite !NoDup_ListNoDup. apply List.NoDup_filter. Qed.
Lemma isNil_true {A} (l : list A) : isNil l = true <-> l = [].
Proof. by destruct l. Qed.
Lemma isNil_false {A} (l : list A) : isNil l = false <-> l <> [].
Proof. by destruct l. Qed.

Lemma removeLeaf_gwf g t : gwf g -> inG g t -> childrenOf g t = [] -> gwf (removeLeaf t g).
Proof.
  intros Hw Ht Hc. pose proof (gw_edges g Hw) as He. destruct (removeLeaf_leaves g t He Ht Hc) as [Hl _]. split.
  - by apply removeLeaf_edgesOk.
  - rewrite Hl. apply NoDup_app. split_and!; [apply nodup_filter, gw_ndl, Hw| |apply nodup_filter, (eo_ndp g He)].
    intros x [Hx _]%in_filter [Hp _]%in_filter. apply (gw_leaves g Hw) in Hx as [_ Hx].
    apply (eo_sym g He) in Hp. rewrite Hx in Hp. by apply elem_of_nil in Hp.
  - intros x. rewrite Hl, elem_of_app, !in_filter, (gw_leaves g Hw), (removeLeaf_in g t He Ht Hc),
      (removeLeaf_children g t He Ht Hc), bool_decide_eq_true, isNil_true. split.
    + intros [[[Hx Hx'] Hne]|[Hx Hx']].
      * rewrite Hx'. done.
      * split; [|done]. split; [|by eapply parents_ne]. apply (eo_sym g He) in Hx. by eapply children_in.
    + intros [[Hx Hne] Hx']. destruct (decide (t ∈ childrenOf g x)) as [Hin|Hni].
      * right. split; [by apply (eo_sym g He)|done].
      * left. rewrite removeOne_notin in Hx' by done. done.
  - intros x Hs Hx. rewrite (removeLeaf_in g t He Ht Hc) in Hx. destruct Hx as [Hx Hne].
    rewrite (removeLeaf_state g t He Ht Hc) in Hs by done. rewrite (removeLeaf_children g t He Ht Hc).
    rewrite (gw_exec g Hw x Hs Hx). done.
Qed.

Lemma removeLeaf_absent g t : g_nodes g !! t = None -> removeLeaf t g = g.
Proof. intros H. unfold removeLeaf. by rewrite H. Qed.

Lemma removeLeaf_size g t : inG g t -> edgesOk g -> childrenOf g t = [] ->
  S (size (g_nodes (removeLeaf t g))) = size (g_nodes g).
Proof.
  intros Ht He Hc.
  assert (dom (g_nodes (removeLeaf t g)) = dom (g_nodes g) ∖ {[t]}) as Hd.
  { apply set_eq. intros x. rewrite elem_of_difference, !elem_of_dom, elem_of_singleton.
    apply (removeLeaf_in g t He Ht Hc x). }
  rewrite <- !size_dom, Hd. rewrite size_difference by (apply singleton_subseteq_l, elem_of_dom, Ht).
  rewrite size_singleton. assert (size (dom (g_nodes g)) <> 0%nat).
  { intros Hs%size_empty_inv. apply elem_of_dom in Ht. set_solver. }
  lia.
Qed.
