(** Lemmas on the printed dependency graph. *)
From Coq Require Import Relations Ascii String.
From stdpp Require Import prelude gmap.
From RecordUpdate Require Import RecordSet.
Import RecordSetNotations.
From Verif Require Import Base Data Infer UpToDate Graph Exec ExecSpec GraphProofs BuildProofs Dump DumpSpec.

(** *** The order of the edges *)
Lemma firsts_in l x : x ∈ firsts l <-> x ∈ l.
Proof.
  induction l as [|y l IH]; cbn [firsts]; [done|]. rewrite !elem_of_cons, elem_of_list_filter, IH. destruct (decide (x = y)); naive_solver.
Qed.
Lemma firsts_nodup l : NoDup (firsts l).
Proof. induction l as [|y l IH]; cbn [firsts]; [constructor|]. constructor; [rewrite elem_of_list_filter; naive_solver|by apply NoDup_filter]. Qed.
Lemma firsts_snoc l c : firsts (l ++ [c]) = addOnce c (firsts l).
Proof.
  unfold addOnce. induction l as [|y l IH]; cbn [app firsts].
  - destruct (decide _) as [H|_]; [by apply elem_of_nil in H|]. done.
  - rewrite IH. destruct (decide (c ∈ firsts l)) as [H|H].
    + destruct (decide _) as [_|Hn]; [done|]. exfalso. apply Hn. destruct (decide (c = y)) as [->|Hne]; [by left|]. right. by apply elem_of_list_filter.
    + rewrite filter_app. destruct (decide (c = y)) as [->|Hne].
      * rewrite filter_cons_False by naive_solver. rewrite filter_nil, app_nil_r. destruct (decide _) as [_|Hn]; [done|]. exfalso. apply Hn. by left.
      * rewrite filter_cons_True, filter_nil by done. destruct (decide _) as [Hn|_]; [|done]. exfalso. apply elem_of_cons in Hn as [->|Hn]; [done|]. apply elem_of_list_filter in Hn. naive_solver.
Qed.
Section Order.
Context (sn : snap) (mk : mkfile).
Definition kept (g : graph) (seen : list tid) (g' : graph) (seen' : list tid) (p : tid -> Prop) : Prop :=
  seen ⊆ seen' /\ (forall x, inG g x -> inG g' x) /\ (forall x, x ∈ seen -> p x -> childrenOf g' x = childrenOf g x) /\
  (forall x, x ∈ seen' -> x ∉ seen -> childrenOf g' x = kids mk x) /\ (forall x, x ∉ seen' -> childrenOf g' x = []).
Definition next (t c : tid) (g : graph) : graph := match g_nodes g !! c with Some _ => addEdge t c g | None => createNode c (Some t) g end.
Lemma next_spec t c g : inG g t -> (forall x, inG g x -> inG (next t c g) x) /\ inG (next t c g) c /\
  childrenOf (next t c g) t = addOnce c (childrenOf g t) /\ forall x, x <> t -> childrenOf (next t c g) x = childrenOf g x.
Proof.
  intros [n Hn].
  assert (E : forall h nt, g_nodes h !! t = Some nt -> childrenOf (addEdge t c h) t = addOnce c (childrenOf h t)).
  { intros h nt Ht. unfold addEdge, childrenOf, updNode. cbn. destruct (decide (c = t)) as [->|Hne].
    - by rewrite !lookup_alter, Ht.
    - by rewrite lookup_alter_ne, lookup_alter, Ht by done. }
  unfold next. destruct (g_nodes g !! c) as [cn|] eqn:Ec.
  - split_and!.
    + intros x. by rewrite inG_addEdge.
    + rewrite inG_addEdge. by exists cn.
    + by eapply E.
    + intros x Hx. by apply addEdge_children_ne.
  - assert (Hct : c <> t) by (intros ->; congruence). rewrite createNode_some. split_and!.
    + intros x Hx. rewrite inG_addEdge, fresh_in. by right.
    + rewrite inG_addEdge, fresh_in. by left.
    + rewrite (E _ n); [|unfold freshNode; cbn; by rewrite lookup_insert_ne]. by rewrite fresh_children.
    + intros x Hx. rewrite addEdge_children_ne by done. by apply fresh_children.
Qed.
Lemma buildDeps_order (rec : graph -> list tid -> tid -> outcome (graph * list tid)) t :
  (forall g seen c g' seen', inG g c -> (forall x, x ∉ seen -> childrenOf g x = []) -> rec g seen c = Ok (g', seen') -> kept g seen g' seen' (fun _ => True)) ->
  forall deps ps g seen g' seen', t ∈ seen -> inG g t -> (forall x, x ∉ seen -> childrenOf g x = []) -> childrenOf g t = firsts (omap (resolveDep mk) ps) ->
  buildDeps rec sn mk t deps g seen = Ok (g', seen') -> kept g seen g' seen' (fun x => x <> t) /\ childrenOf g' t = firsts (omap (resolveDep mk) (ps ++ deps)).
Proof.
  intros Hrec. induction deps as [|d deps IH]; intros ps g seen g' seen' Hts Htg Hout Hch; cbn [buildDeps].
  - intros [= <- <-]. rewrite app_nil_r.
    assert (Hc : forall x, childrenOf (if isNil (childrenOf g t) then Graph (g_nodes g) (g_leaves g ++ [t]) (g_dirty g) else g) x = childrenOf g x) by (intros; by destruct (isNil _)).
    rewrite Hc. split; [|done]. split_and!; [done|intros x; by destruct (isNil _)|intros; by rewrite Hc|done|intros; by rewrite Hc, Hout].
  - assert (Eps : omap (resolveDep mk) (ps ++ [d]) = omap (resolveDep mk) ps ++ match resolveDep mk d with Some c => [c] | None => [] end).
    { rewrite omap_app. cbn. by destruct (resolveDep mk d). }
    destruct (resolveDep mk d) as [c|] eqn:Er.
    + fold (next t c g). destruct (next_spec t c g Htg) as (N1 & N2 & N3 & N4). destruct (rec _ seen c) as [[g2 seen2]| | | |] eqn:E; try done.
      assert (Hout' : forall x, x ∉ seen -> childrenOf (next t c g) x = []). { intros x Hx. rewrite N4; [by apply Hout|]. by intros ->. }
      destruct (Hrec _ _ _ _ _ N2 Hout' E) as (K1 & K2 & K3 & K4 & K5). intros Hb.
      destruct (IH (ps ++ [d]) g2 seen2 g' seen' (K1 _ Hts) (K2 _ (N1 _ Htg)) K5) as ((L1 & L2 & L3 & L4 & L5) & L6); [|exact Hb|].
      { rewrite K3, N3, Hch, Eps by done. by rewrite firsts_snoc. }
      rewrite <- app_assoc in L6. split; [|exact L6]. split_and!; [by etransitivity|auto| | |done].
      * intros x Hx Hne. rewrite L3, K3, N4; auto.
      * intros x Hx Hnx. destruct (decide (x ∈ seen2)) as [Hx2|Hx2]; [|by apply L4]. rewrite L3; [by apply K4|done|]. by intros ->.
    + destruct (sn_stat sn d); [|done]. intros Hb. destruct (IH (ps ++ [d]) g seen g' seen' Hts Htg Hout) as (L & L6); [by rewrite Eps, app_nil_r|done|].
      rewrite <- app_assoc in L6. by split.
Qed.
Lemma internalBuild_order fuel : forall g seen t g' seen', inG g t -> (forall x, x ∉ seen -> childrenOf g x = []) ->
  internalBuild fuel sn mk g seen t = Ok (g', seen') -> kept g seen g' seen' (fun _ => True).
Proof.
  induction fuel as [|fuel IH]; intros g seen t g' seen' Ht Hout; [done|]. cbn [internalBuild]. destruct (decide (t ∈ seen)) as [Hin|Hni].
  - intros [= <- <-]. by split_and!.
  - intros H. destruct (buildDeps_order _ t IH _ [] g (t :: seen) g' seen' ltac:(by left) Ht ltac:(set_solver) ltac:(by rewrite Hout) H) as ((L1 & L2 & L3 & L4 & L5) & L6).
    cbn [app] in L6. split_and!; [set_solver|done| | |done].
      * intros x Hx _. apply L3; [by right|]. by intros ->.
      * intros x Hx Hnx. destruct (decide (x = t)) as [->|Hne].
        -- rewrite L6. unfold kids. by destruct (mk_targets mk !! t).
        -- apply L4; [done|]. by intros [?|?]%elem_of_cons.
Qed.
Lemma kids_in x d : d ∈ kids mk x <-> dependsOn mk x d.
Proof.
  unfold kids, dependsOn. destruct (mk_targets mk !! x) as [b|]; [|split; [by intros ?%elem_of_nil|by intros (? & ? & ? & _)]].
  rewrite firsts_in, elem_of_list_omap. naive_solver.
Qed.
Lemma buildGraph_order g root : is_Some (mk_targets mk !! root) -> buildGraph sn mk emptyGraph root = Ok g -> built sn mk root g /\ forall x, inG g x -> childrenOf g x = kids mk x.
Proof.
  intros Hr E. pose proof (buildGraph_spec sn mk emptyGraph root eq_refl eq_refl Hr) as HB. rewrite E in HB. destruct HB as [HB _]. split; [done|]. intros x Hx.
  unfold buildGraph in E. rewrite createNode_none in E. destruct (internalBuild _ _ _ _ _ _) as [[g' seen']| | | |] eqn:E'; try done. injection E as ->.
  apply internalBuild_order in E' as (K1 & K2 & K3 & K4 & K5).
  - destruct (decide (x ∈ seen')) as [Hs|Hs]; [apply K4; [done|apply not_elem_of_nil]|]. rewrite K5 by done. destruct (kids mk x) as [|d l] eqn:Ek; [done|].
    exfalso. assert (Hd : dependsOn mk x d) by (apply kids_in; rewrite Ek; by left). apply (bl_edge _ _ _ _ HB x d Hx) in Hd. rewrite K5 in Hd by done. by apply elem_of_nil in Hd.
  - rewrite fresh_in. by left.
  - intros y _. by rewrite fresh_children.
Qed.
End Order.

(** *** The walks *)
Lemma fold_some {A B} (f : A -> option (list B)) cs : forall l r,
  fold_left (fun acc c => match acc, f c with Some l, Some l' => Some (l ++ l') | _, _ => None end) cs (Some l) = Some r ->
  exists lss, Forall2 (fun c l => f c = Some l) cs lss /\ r = l ++ concat lss.
Proof.
  assert (N : forall cs, fold_left (fun acc c => match acc, f c with Some l, Some l' => Some (l ++ l') | _, _ => None end) cs None = None).
  { intros l. induction l as [|c l IH]; [done|exact IH]. }
  induction cs as [|c cs IH]; intros l r; cbn [fold_left].
  - intros [= <-]. exists []. split; [constructor|by rewrite app_nil_r].
  - destruct (f c) as [l'|] eqn:E; [|by rewrite N]. intros (lss & H1 & ->)%IH. exists (l' :: lss). split; [by constructor|]. cbn. by rewrite app_assoc.
Qed.
Lemma fold_none {A B} (f : A -> option (list B)) cs : forall l,
  fold_left (fun acc c => match acc, f c with Some l, Some l' => Some (l ++ l') | _, _ => None end) cs (Some l) = None -> exists c, c ∈ cs /\ f c = None.
Proof.
  induction cs as [|c cs IH]; intros l; cbn [fold_left]; [done|]. destruct (f c) as [l'|] eqn:E.
  - intros (d & H1 & H2)%IH. exists d. split; [by right|done].
  - intros _. exists c. split; [left|done].
Qed.
Section Walk.
Context (sn : snap) (mk : mkfile) (root : tid) (g : graph).
Context (HB : built sn mk root g) (HO : forall x, inG g x -> childrenOf g x = kids mk x).
Lemma kid_in x c : inG g x -> c ∈ kids mk x -> inG g c.
Proof. intros Hx Hc. rewrite <- HO in Hc by done. eapply child_in; [apply (bl_wf _ _ _ _ HB)|exact Hc]. Qed.
Lemma dumpNode_walk fuel : forall d t ls, inG g t -> dumpNode fuel g d t = Some ls -> walk mk d t ls.
Proof.
  induction fuel as [|fuel IH]; intros d t ls Ht; [done|]. cbn [dumpNode]. rewrite HO by done.
  destruct (fold_left _ _ _) as [l|] eqn:E; [|done]. intros [= <-]. apply fold_some in E as (lss & H & ->). constructor. cbn [app].
  assert (Hk : forall c, c ∈ kids mk t -> inG g c) by (intros c; by apply kid_in). revert Hk. induction H as [|c l cs lss Hc _ IHl]; intros Hk; cbn [concat]; constructor.
  - apply IH; [apply Hk; left|done].
  - apply IHl. intros x Hx. apply Hk. by right.
Qed.
Lemma dotNode_edges fuel : forall p t ls, inG g t -> dotNode fuel g p t = Some ls ->
  exists es, edgesBelow mk t (kids mk t) es /\ ls = match p with Some q => (q, t) :: es | None => es end.
Proof.
  induction fuel as [|fuel IH]; intros p t ls Ht; [done|]. cbn [dotNode]. rewrite HO by done.
  destruct (fold_left _ _ _) as [l|] eqn:E; [|done]. intros [= <-]. apply fold_some in E as (lss & H & ->). cbn [app]. exists (concat lss). split; [|done].
  assert (Hk : forall c, c ∈ kids mk t -> inG g c) by (intros c; by apply kid_in). revert Hk. induction H as [|c l cs lss Hc _ IHl]; intros Hk; cbn [concat]; [constructor|].
  apply IH in Hc as (es & H1 & ->); [|apply Hk; left]. cbn [app]. constructor; [done|]. apply IHl. intros x Hx. apply Hk. by right.
Qed.
(** Both recursions are as deep. *)
Lemma dot_dump fuel : forall p d t, dotNode fuel g p t = None <-> dumpNode fuel g d t = None.
Proof.
  induction fuel as [|fuel IH]; intros p d t; [done|]. cbn [dotNode dumpNode].
  assert (G : forall cs (a : list (tid * tid)) (b : list (nat * tid)),
    fold_left (fun acc c => match acc, dotNode fuel g (Some t) c with Some l, Some l' => Some (l ++ l') | _, _ => None end) cs (Some a) = None <->
    fold_left (fun acc c => match acc, dumpNode fuel g (S d) c with Some l, Some l' => Some (l ++ l') | _, _ => None end) cs (Some b) = None).
  { induction cs as [|c cs IHc]; intros a b; cbn [fold_left]; [done|]. specialize (IH (Some t) (S d) c).
    destruct (dotNode fuel g (Some t) c), (dumpNode fuel g (S d) c); [apply IHc|naive_solver|naive_solver|].
    clear. split; intros _; by induction cs. }
  specialize (G (childrenOf g t) [] []). destruct (fold_left _ _ (Some [])), (fold_left _ _ (Some [])); naive_solver.
Qed.
(** A recursion that is too deep follows a chain. *)
Lemma dump_deep fuel : forall d t, inG g t -> dumpNode fuel g d t = None -> exists l, length l = fuel /\ (forall x, x ∈ l -> inG g x) /\
  (forall x, head l = Some x -> x = t) /\ forall i x y, l !! i = Some x -> l !! S i = Some y -> dependsOn mk x y.
Proof.
  induction fuel as [|fuel IH]; intros d t Ht; [intros _; exists []; split_and!; [done|by intros x ?%elem_of_nil|done|done]|]. cbn [dumpNode]. rewrite HO by done.
  destruct (fold_left _ _ _) as [l|] eqn:E; [done|]. intros _. apply fold_none in E as (c & Hc & Hn).
  destruct (IH (S d) c (kid_in _ _ Ht Hc) Hn) as (l & L1 & L2 & L3 & L4). exists (t :: l). split_and!.
  - cbn. by rewrite L1.
  - intros x [->|Hx]%elem_of_cons; auto.
  - by intros x [= <-].
  - intros [|i] x y Hx Hy; [|by eapply L4]. injection Hx as <-. destruct l as [|z l]; [done|]. injection Hy as <-. rewrite (L3 z eq_refl). by apply kids_in.
Qed.
Lemma chain_trans (l : list tid) : (forall i x y, l !! i = Some x -> l !! S i = Some y -> dependsOn mk x y) ->
  forall i k x y, l !! i = Some x -> l !! (S i + k)%nat = Some y -> dependsTrans mk x y.
Proof.
  intros H i k. revert i. induction k as [|k IH]; intros i x y Hx Hy.
  - rewrite Nat.add_0_r in Hy. apply t1n_step. by eapply H.
  - destruct (l !! S i) as [z|] eqn:Ez.
    + eapply Relation_Operators.t1n_trans; [by eapply H|]. apply (IH (S i)); [done|]. by rewrite <- Hy; f_equal; lia.
    + exfalso. apply lookup_ge_None in Ez. apply lookup_lt_Some in Hy. lia.
Qed.
Lemma dump_ends d : acyclicFrom mk root -> inG g root -> dumpNode (S (size (g_nodes g))) g d root <> None.
Proof.
  intros Ha Hr Hn. destruct (dump_deep _ _ _ Hr Hn) as (l & L1 & L2 & _ & L4).
  assert (Hnd : NoDup l).
  { apply NoDup_alt. intros i j x Hi Hj. destruct (lt_eq_lt_dec i j) as [[H| ->]|H]; [|done|].
    - exfalso. apply (Ha x); [apply (bl_in _ _ _ _ HB), L2; by eapply elem_of_list_lookup_2|]. eapply (chain_trans l L4 i (j - S i)); [done|]. by rewrite <- Hj; f_equal; lia.
    - exfalso. apply (Ha x); [apply (bl_in _ _ _ _ HB), L2; by eapply elem_of_list_lookup_2|]. eapply (chain_trans l L4 j (i - S j)); [done|]. by rewrite <- Hi; f_equal; lia. }
  assert (Hs : size (list_to_set l : gset tid) <= size (dom (g_nodes g))).
  { apply subseteq_size. intros x. rewrite elem_of_list_to_set, elem_of_dom. apply L2. }
  rewrite size_list_to_set, size_dom in Hs by done. lia.
Qed.
End Walk.

Scheme walk_mind := Minimality for walk Sort Prop with walks_mind := Minimality for walks Sort Prop.
Lemma walk_chains mk d t ls : walk mk d t ls -> forall n x, (n, x) ∈ ls <-> exists k, n = d + k /\ chain mk t k x.
Proof.
  apply (walk_mind mk (fun d t ls => forall n x, (n, x) ∈ ls <-> exists k, n = d + k /\ chain mk t k x)
    (fun d cs ls => forall n x, (n, x) ∈ ls <-> exists c k, c ∈ cs /\ n = d + k /\ chain mk c k x)).
  - clear. intros d t ls _ IH n x. rewrite elem_of_cons, IH. split.
    + intros [[= -> ->]|(c & k & Hc & -> & H)]; [exists 0; split; [lia|constructor]|]. exists (S k). split; [lia|]. econstructor; [by apply kids_in|done].
    + intros (k & -> & H). inversion H as [|? c k' ? Hc Hk]; subst; [left; f_equal; lia|]. right. exists c, k'. split_and!; [by apply kids_in|lia|done].
  - clear. intros d n x. split; [by intros ?%elem_of_nil|]. by intros (? & ? & ?%elem_of_nil & _).
  - clear. intros d c cs l ls _ IH1 _ IH2 n x. rewrite elem_of_app, IH1, IH2. split.
    + intros [(k & -> & H)|(e & k & He & -> & H)]; [exists c, k; split_and!; [left|done|done]|exists e, k; split_and!; [by right|done|done]].
    + intros (e & k & [->|He]%elem_of_cons & -> & H); [left; by exists k|right; by exists e, k].
Qed.
(** A walk is finite, so nothing below its start is in a cycle. *)
Lemma walk_acc mk d t ls : walk mk d t ls -> Acc (fun y x => dependsOn mk x y) t.
Proof.
  apply (walk_mind mk (fun _ t _ => Acc (fun y x => dependsOn mk x y) t) (fun _ cs _ => forall c, c ∈ cs -> Acc (fun y x => dependsOn mk x y) c)).
  - clear. intros d t ls _ IH. constructor. intros y Hy. apply IH. by apply kids_in.
  - by intros ? ? ?%elem_of_nil.
  - clear. intros d c cs l ls _ IH1 _ IH2 x [->|Hx]%elem_of_cons; auto.
Qed.
Lemma acc_trans mk t x : Acc (fun y x => dependsOn mk x y) t -> dependsTrans mk t x -> Acc (fun y x => dependsOn mk x y) x.
Proof. intros Ha Ht. induction Ht as [t x H|t y x H _ IH]; [by apply Ha|]. apply IH. by apply Ha. Qed.
Lemma acc_acyclic mk t : Acc (fun y x => dependsOn mk x y) t -> ~ dependsTrans mk t t.
Proof.
  induction 1 as [t _ IH]. intros Ht. assert (G : forall a b, dependsTrans mk a b -> forall y, dependsOn mk b y -> dependsTrans mk a y).
  { clear. intros a b H. induction H as [a b H|a c b H _ IH]; intros y Hy; [eapply Relation_Operators.t1n_trans; [exact H|by apply t1n_step]|].
    eapply Relation_Operators.t1n_trans; [exact H|by apply IH]. }
  inversion Ht as [y Hy|y z Hy Hz]; subst; [apply (IH t Hy); by apply t1n_step|]. apply (IH y Hy). by eapply G.
Qed.
Lemma edges_in mk t es : forall cs, edgesBelow mk t cs es -> forall a b, (a, b) ∈ es <-> (a = t /\ b ∈ cs) \/ exists c, c ∈ cs /\ (a = c \/ dependsTrans mk c a) /\ dependsOn mk a b.
Proof.
  intros cs. induction 1 as [t|t c cs l ls _ IH1 _ IH2]; intros a b.
  - split; [by intros ?%elem_of_nil|]. intros [[_ ?%elem_of_nil]|(c & ?%elem_of_nil & _)]; done.
  - rewrite elem_of_cons, elem_of_app, IH1, IH2. split.
    + intros [[= -> ->]|[[[-> H]|(d & Hd & Hr & H)]|[[-> H]|(d & Hd & Hr & H)]]].
      * left. split; [done|left].
      * right. exists c. split_and!; [left|by left|by apply kids_in].
      * right. exists c. split_and!; [left| |done]. right. apply kids_in in Hd. destruct Hr as [->|Hr]; [by apply t1n_step|by eapply Relation_Operators.t1n_trans].
      * left. split; [done|by right].
      * right. exists d. split_and!; [by right|done|done].
    + intros [[-> [->|H]%elem_of_cons]|(d & [->|Hd]%elem_of_cons & Hr & H)].
      * by left.
      * right. right. left. done.
      * right. left. destruct Hr as [->|Hr]; [left; split; [done|by apply kids_in]|]. right.
        inversion Hr as [y Hy|y z Hy Hz]; subst; [exists a; split_and!; [by apply kids_in|by left|done]|]. exists y. split_and!; [by apply kids_in|by right|done].
      * right. right. right. by exists d.
Qed.
