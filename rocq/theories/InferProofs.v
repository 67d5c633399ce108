(** Lemmas about the choice of inference rules and about batches. *)
From stdpp Require Import prelude gmap.
From Verif Require Import Base BaseProofs Data Cmd Infer UpToDate Graph Exec Front InferSpec.
Local Open Scope Z_scope.

(** ** Sorting *)

Lemma sortRules_snoc l r : sortRules (l ++ [r]) = insertRule r (sortRules l).
Proof. unfold sortRules. by rewrite fold_left_app. Qed.

Lemma insertRule_elem r l x : x ∈ insertRule r l <-> x = r \/ x ∈ l.
Proof.
  induction l as [|y l IH]; cbn [insertRule].
  - rewrite elem_of_list_singleton. set_solver.
  - destruct (r_prio y <? r_prio r); rewrite !elem_of_cons; [done|]. rewrite IH. set_solver.
Qed.
Lemma sortRules_elem l x : x ∈ sortRules l <-> x ∈ l.
Proof.
  induction l as [|r l IH] using rev_ind; [done|].
  rewrite sortRules_snoc, insertRule_elem, elem_of_app, elem_of_list_singleton, IH. tauto.
Qed.

(** The last of the list sorted so far decides. *)
Definition bestOf (l : list rule) (r : rule) : Prop :=
  exists l1 l2, l = l1 ++ r :: l2 /\ (forall x, x ∈ l1 -> r_prio r <= r_prio x)
    /\ (forall x, x ∈ l2 -> r_prio r < r_prio x).

Lemma insertRule_last_lt r l x : last l = Some x -> r_prio x < r_prio r -> last (insertRule r l) = Some x.
Proof.
  induction l as [|y l IH]; [done|]. intros H1 H2. cbn [insertRule].
  destruct (r_prio y <? r_prio r) eqn:E; [by destruct l|].
  destruct l as [|z l]; [injection H1 as ->; lia|].
  specialize (IH H1 H2). destruct (insertRule r (z :: l)) eqn:E2; [done|]. done.
Qed.
Lemma insertRule_last_ge r l : (forall x, x ∈ l -> r_prio r <= r_prio x) -> insertRule r l = l ++ [r].
Proof.
  induction l as [|y l IH]; [done|]. intros H. cbn [insertRule].
  assert (r_prio r <= r_prio y) by (apply H; left). replace (r_prio y <? r_prio r) with false by lia.
  rewrite IH; [done|]. intros x Hx. apply H. by right.
Qed.

Lemma last_elem {A} (l : list A) x : last l = Some x -> x ∈ l.
Proof.
  intros H. apply last_Some in H as [l' ->]. set_solver.
Qed.

Lemma sort_last l : match last (sortRules l) with
                    | Some r => bestOf l r
                    | None => l = []
                    end.
Proof.
  induction l as [|r l IH] using rev_ind; [done|]. rewrite sortRules_snoc.
  destruct (last (sortRules l)) as [x|] eqn:E.
  - destruct IH as (l1 & l2 & -> & H1 & H2).
    destruct (Z.lt_ge_cases (r_prio x) (r_prio r)) as [Hlt|Hge].
    + rewrite (insertRule_last_lt _ _ _ E Hlt). exists l1, (l2 ++ [r]). rewrite <- app_assoc. split; [done|].
      split; [done|]. intros y [Hy|Hy%elem_of_list_singleton]%elem_of_app; [by apply H2|by subst].
    + rewrite insertRule_last_ge.
      * rewrite last_snoc. exists (l1 ++ x :: l2), []. split; [done|]. split; [|intros y Hy; set_solver].
        intros y [Hy|[->|Hy]%elem_of_cons]%elem_of_app; [specialize (H1 y Hy); lia|lia|specialize (H2 y Hy); lia].
      * intros y Hy. rewrite sortRules_elem in Hy.
        apply elem_of_app in Hy as [Hy|[->|Hy]%elem_of_cons]; [specialize (H1 y Hy); lia|lia|specialize (H2 y Hy); lia].
  - subst. cbn. exists [], []. split_and!; [done| |]; intros ? ?; set_solver.
Qed.

(** ** Priorities *)

Lemma qeqb_ci_spec a b : qeqb_ci a b = true <-> foldCase a = foldCase b.
Proof. unfold qeqb_ci. apply qeqb_spec. Qed.

Lemma suffixIndex_firstAt ext sfx i k : suffixIndex ext sfx k = Some (k + Z.of_nat i) <-> firstAt sfx ext i.
Proof.
  revert i k. induction sfx as [|x sfx IH]; intros i k; cbn [suffixIndex].
  - split; [done|]. intros [(x & ? & ?) _]. done.
  - destruct (qeqb_ci ext x) eqn:E.
    + apply qeqb_ci_spec in E. split.
      * intros [= H]. assert (i = 0%nat) as -> by lia. split; [exists x; by rewrite E|]. intros j y Hj. lia.
      * intros [_ H2]. destruct i as [|i]; [f_equal; lia|]. by destruct (H2 0%nat x ltac:(lia) eq_refl).
    + assert (foldCase x <> foldCase ext) as Hne.
      { intros H. enough (qeqb_ci ext x = true) by congruence. by apply qeqb_ci_spec. }
      split.
      * intros H. destruct i as [|i].
        { exfalso. clear -H. assert (forall s k m, suffixIndex ext s k = Some m -> k <= m) as A.
          { induction s as [|y s IHs]; cbn; [done|]. intros k' m. destruct (qeqb_ci ext y); [intros [= ->]; lia|].
            intros Hs. specialize (IHs _ _ Hs). lia. }
          specialize (A _ _ _ H). lia. }
        replace (k + Z.of_nat (S i)) with (k + 1 + Z.of_nat i) in H by lia.
        apply IH in H as [(y & Hy1 & Hy2) H2]. split; [by exists y|].
        intros [|j] z Hj Hz; [by injection Hz as ->|]. apply (H2 j z); [lia|done].
      * intros [(y & Hy1 & Hy2) H2]. destruct i as [|i]; [by injection Hy1 as ->|].
        replace (k + Z.of_nat (S i)) with (k + 1 + Z.of_nat i) by lia. apply IH. split; [by exists y|].
        intros j z Hj Hz. apply (H2 (S j) z); [lia|done].
Qed.
Lemma suffixIndex_nat ext sfx m : suffixIndex ext sfx 0 = Some m -> exists i, m = Z.of_nat i /\ firstAt sfx ext i.
Proof.
  intros H. assert (0 <= m) as Hm.
  { assert (forall s k m, suffixIndex ext s k = Some m -> k <= m) as A.
    { induction s as [|y s IHs]; cbn; [done|]. intros k' m'. destruct (qeqb_ci ext y); [intros [= ->]; lia|].
      intros Hs. specialize (IHs _ _ Hs). lia. }
    exact (A _ _ _ H). }
  exists (Z.to_nat m). split; [lia|]. apply (suffixIndex_firstAt _ _ _ 0). rewrite H. f_equal. lia.
Qed.
Lemma withPriority_spec sfx r i : r_prio r = -1 ->
  r_prio (withPriority sfx r) = Z.of_nat i <-> firstAt sfx (r_fromExt r) i.
Proof.
  intros Hr. unfold withPriority. rewrite <- (suffixIndex_firstAt _ _ _ 0). cbn.
  destruct (suffixIndex (r_fromExt r) sfx 0) as [m|] eqn:E; cbn; [split; [by intros ->|by intros [= ->]]|].
  split; [lia|done].
Qed.
Lemma withPriority_neg sfx r : r_prio r = -1 ->
  r_prio (withPriority sfx r) < 0 \/ exists i, r_prio (withPriority sfx r) = Z.of_nat i.
Proof.
  intros Hr. unfold withPriority. destruct (suffixIndex (r_fromExt r) sfx 0) as [m|] eqn:E; cbn; [|lia].
  right. destruct (suffixIndex_nat _ _ _ E) as (i & -> & _). eauto.
Qed.
Lemma withPriority_same sfx r : sameRule r (withPriority sfx r).
Proof. unfold withPriority. destruct (suffixIndex _ _ _); by repeat split. Qed.

(** ** Filters *)

Lemma endsWith_app (e n : qstr) : endsWith e n = true <-> exists p, n = p ++ e.
Proof.
  unfold endsWith. assert (forall a b, startsWith a b = true <-> exists p, b = a ++ p) as A.
  { induction a as [|x a IH]; intros b; cbn; [split; [eauto|done]|]. destruct b as [|y b]; [split; [done|by intros [? ?]]|].
    rewrite andb_true_iff, N.eqb_eq, IH. split; [intros [-> [p ->]]; eauto|intros [p [= -> ->]]; eauto]. }
  rewrite A. split.
  - intros [p H]. exists (rev p). apply (f_equal (@rev N)) in H. by rewrite rev_involutive, rev_app_distr, rev_involutive in H.
  - intros [p ->]. exists (rev p). by rewrite rev_app_distr.
Qed.
Lemma endsWith_ci_spec e n : endsWith_ci e n = true <-> hasSuffix e n.
Proof. apply endsWith_app. Qed.

Lemma foldCase_length s : length (foldCase s) = length s.
Proof. apply map_length. Qed.

Lemma fileName_length s : (length (fileNameFromFilePath s) <= length s)%nat.
Proof.
  induction s as [|c s IH]; cbn [fileNameFromFilePath]; [done|]. destruct (_ || _); cbn; lia.
Qed.

Lemma filterName_source r name f : sourceOf r name f <-> f = filterName r name.
Proof.
  unfold sourceOf, filterName, qchop. split.
  - intros (base & ext & H1 & H2 & ->). rewrite H1, app_length in *.
    replace (length base + length ext - length (r_toExt r))%nat with (length base) by lia. by rewrite take_app.
  - intros ->. exists (take (length (qfiFileName name) - length (r_toExt r)) (qfiFileName name)),
      (drop (length (qfiFileName name) - length (r_toExt r)) (qfiFileName name)).
    rewrite take_drop, drop_length. split_and!; [done|lia|done].
Qed.

Lemma isThere_spec sn mk f : (match mk_targets mk !! (f : tid) with Some b => b_exists b | None => false end)
   || sn_exists sn f = true <-> isThere sn mk f.
Proof.
  unfold isThere. rewrite orb_true_iff. destruct (mk_targets mk !! (f : tid)) as [b|] eqn:E.
  - split; [intros [H|H]; eauto|intros [(b' & Hb & H)|H]; [left|by right]].
    clear -E Hb H. unfold tid, qstr, qchar in *. congruence.
  - split; [intros [H|H]; [done|eauto]|intros [(b' & Hb & H)|H]; [exfalso|by right]].
    clear -E Hb. unfold tid, qstr, qchar in *. congruence.
Qed.

Lemma filter_split {A} (P : A -> bool) (l : list A) a r b : List.filter P l = a ++ r :: b ->
  exists l1 l2, l = l1 ++ r :: l2 /\ List.filter P l2 = b.
Proof.
  revert a. induction l as [|x l IH]; intros a H; cbn in H; [by destruct a|].
  destruct (P x) eqn:E.
  - destruct a as [|y a]; injection H as -> H; [by exists [], l|].
    destruct (IH _ H) as (l1 & l2 & -> & ?). exists (y :: l1), l2. done.
  - destruct (IH _ H) as (l1 & l2 & -> & ?). exists (x :: l1), l2. done.
Qed.
Lemma flat_map_split {A B} (f : A -> list B) (l : list A) a r b : flat_map f l = a ++ r :: b ->
  exists l1 x l2 c d, l = l1 ++ x :: l2 /\ f x = c ++ r :: d /\ b = d ++ flat_map f l2 /\ a = flat_map f l1 ++ c.
Proof.
  revert a. induction l as [|x l IH]; intros a H; cbn in H; [by destruct a|].
  apply app_eq_app in H as (k & [[H1 H2]|[H1 H2]]).
  - destruct k as [|y k].
    + cbn in H2. symmetry in H2. rewrite app_nil_r in H1. destruct (IH [] H2) as (l1 & y & l2 & c & d & E1 & E2 & E3 & E4).
      exists (x :: l1), y, l2, c, d. subst l. split_and!; try done. cbn. by rewrite <- app_assoc, <- E4, app_nil_r.
    + injection H2 as E1 E2. subst. exists [], x, l, a, k. done.
  - destruct (IH _ H2) as (l1 & y & l2 & c & d & E1 & E2 & E3 & E4).
    exists (x :: l1), y, l2, c, d. subst l. split_and!; try done. cbn. by rewrite <- app_assoc, <- E4.
Qed.

(** ** The choice *)

Lemma filter_flat_map {A B} (P : B -> bool) (f : A -> list B) l :
  List.filter P (flat_map f l) = flat_map (fun x => List.filter P (f x)) l.
Proof.
  induction l as [|x l IH]; [done|]. cbn. rewrite <- IH. clear IH. induction (f x) as [|y k IHk]; [done|].
  cbn. destruct (P y); cbn; by rewrite IHk.
Qed.
Lemma filter_filter {A} (P Q : A -> bool) l : List.filter P (List.filter Q l) = List.filter (fun x => Q x && P x) l.
Proof. induction l as [|x l IH]; [done|]. cbn. destruct (Q x); cbn; [destruct (P x)|]; by rewrite IH. Qed.
Lemma map_split {A B} (f : A -> B) l a y b : map f l = a ++ y :: b ->
  exists l1 x l2, l = l1 ++ x :: l2 /\ a = map f l1 /\ y = f x /\ b = map f l2.
Proof.
  revert a. induction l as [|x l IH]; intros a H; [by destruct a|].
  destruct a as [|z a]; injection H as H1 H2; [by exists [], x, l|].
  destruct (IH _ H2) as (l1 & x' & l2 & -> & -> & -> & ->). exists (x :: l1), x', l2. cbn. by rewrite H1.
Qed.
Lemma flat_map_nil {A B} (f : A -> list B) l : flat_map f l = [] -> forall x, x ∈ l -> f x = [].
Proof.
  induction l as [|y l IH]; intros H x Hx; [set_solver|]. cbn in H. apply app_eq_nil in H as [H1 H2].
  apply elem_of_cons in Hx as [->|Hx]; [done|]. by apply IH.
Qed.

(** One of the tests that a rule goes through on its way. *)
Definition fits (sn : snap) (mk : mkfile) (name : qstr) (r : rule) : bool :=
  negb (r_prio r <? 0) && qeqb (dirOfTarget name) (r_toPath r)
  && ((match mk_targets mk !! (filterName r name : tid) with Some b => b_exists b | None => false end)
      || sn_exists sn (filterName r name)).
Lemma candidates_eq sn mk exts rules name :
  filterRules sn mk (findRules exts rules name) name
  = flat_map (fun ext => if endsWith_ci ext name
                         then List.filter (fun r => qeqb (r_toExt r) ext && fits sn mk name r) rules else []) exts.
Proof.
  unfold filterRules, findRules. rewrite filter_flat_map. induction exts as [|e exts IH]; [done|]. cbn [flat_map].
  f_equal; [|exact IH]. destruct (endsWith_ci e name); [|done]. rewrite filter_filter.
  apply List.filter_ext. intros r. unfold fits. by rewrite <- !andb_assoc.
Qed.

Lemma fits_spec sfx sn mk name r : r_prio r = -1 ->
  endsWith_ci (r_toExt r) name && fits sn mk name (withPriority sfx r) = true <-> applicable sfx sn mk name r.
Proof.
  intros Hr. unfold applicable, fits. rewrite !andb_true_iff, endsWith_ci_spec, negb_true_iff, Z.ltb_ge, qeqb_spec.
  rewrite isThere_spec. destruct (withPriority_same sfx r) as (_ & _ & E1 & E2 & E3 & E4 & _).
  assert (filterName (withPriority sfx r) name = filterName r name) as -> by (unfold filterName; by rewrite <- E1, <- E2, <- E4).
  rewrite <- E3. split.
  - intros (H1 & (H2 & H3) & H4). split_and!; [done|done| |].
    + destruct (withPriority_neg sfx r Hr) as [?|[i Hi]]; [lia|]. exists i. by apply withPriority_spec.
    + exists (filterName r name). by rewrite filterName_source.
  - intros (H1 & H2 & (i & H3) & (f & ->%filterName_source & H4)). split_and!; [done| |done|done].
    apply withPriority_spec in H3; [lia|done].
Qed.

Section Choice.
Context (sfx exts : list qstr) (rules : list rule) (sn : snap) (mk : mkfile) (b : block).
Hypothesis Hfresh : forall r, r ∈ rules -> r_prio r = -1.
Hypothesis Hexts : forall r, r ∈ rules -> r_toExt r ∈ exts.
Hypothesis Hrules : b_rules b = findRules exts (calculatePriorities sfx rules) (b_name b).

Lemma choose_none : chooseRule sn mk b = None -> forall r, r ∈ rules -> ~ applicable sfx sn mk (b_name b) r.
Proof.
  unfold chooseRule. rewrite Hrules, candidates_eq. intros H r Hr Ha.
  match type of H with last (sortRules ?l) = _ => pose proof (sort_last l) as Hs end. rewrite H in Hs.
  pose proof (flat_map_nil _ _ Hs _ (Hexts r Hr)) as He. cbn beta in He.
  apply (fits_spec sfx sn mk (b_name b) r (Hfresh r Hr)) in Ha. apply andb_true_iff in Ha as [H1 H2].
  rewrite H1 in He.
  assert (withPriority sfx r ∈ List.filter (fun x => qeqb (r_toExt x) (r_toExt r) && fits sn mk (b_name b) x) (calculatePriorities sfx rules)) as Hin.
  { apply elem_of_list_In, List.filter_In. split.
    - apply elem_of_list_In, elem_of_list_fmap. eauto.
    - rewrite H2. destruct (withPriority_same sfx r) as (_ & _ & _ & _ & _ & E4 & _). rewrite <- E4. by rewrite qeqb_refl. }
  rewrite He in Hin. set_solver.
Qed.

Lemma choose_some r' : chooseRule sn mk b = Some r' ->
  exists l1 r l2 i, rules = l1 ++ r :: l2 /\ r' = withPriority sfx r /\ applicable sfx sn mk (b_name b) r
    /\ firstAt sfx (r_fromExt r) i
    /\ (forall x j, x ∈ rules -> applicable sfx sn mk (b_name b) x -> firstAt sfx (r_fromExt x) j -> (i <= j)%nat)
    /\ (forall x j, x ∈ l2 -> r_toExt x = r_toExt r -> applicable sfx sn mk (b_name b) x -> firstAt sfx (r_fromExt x) j -> (i < j)%nat).
Proof.
  unfold chooseRule. rewrite Hrules, candidates_eq. intros H.
  match type of H with last (sortRules ?l) = _ => pose proof (sort_last l) as Hs; set (L := l) in * end.
  rewrite H in Hs. destruct Hs as (L1 & L2 & HL & H1 & H2). pose proof HL as HL'.
  unfold L in HL. apply flat_map_split in HL as (e1 & e & e2 & c & d & He & Hc & -> & ->).
  destruct (endsWith_ci e (b_name b)) eqn:Ee; [|by destruct c].
  pose proof Hc as Hc'. apply filter_split in Hc' as (m1 & m2 & Hm & Hd).
  assert (r' ∈ List.filter (fun r => qeqb (r_toExt r) e && fits sn mk (b_name b) r) (calculatePriorities sfx rules)) as Hr'.
  { rewrite Hc. set_solver. }
  apply elem_of_list_In, List.filter_In in Hr' as [_ Hr']. apply andb_true_iff in Hr' as [Ht Hf].
  apply qeqb_spec in Ht.
  unfold calculatePriorities in Hm. apply map_split in Hm as (l1 & r & l2 & -> & -> & -> & ->).
  assert (r_prio r = -1) as Hp by (apply Hfresh; set_solver).
  destruct (withPriority_same sfx r) as (_ & _ & E1 & E2 & E3 & E4 & _).
  assert (applicable sfx sn mk (b_name b) r) as Ha.
  { apply fits_spec; [done|]. rewrite Hf, E4, Ht, Ee. done. }
  destruct Ha as (A1 & A2 & (i & Ai) & A4). assert (applicable sfx sn mk (b_name b) r) as Ha by (unfold applicable; eauto).
  assert (forall x, x ∈ l1 ++ r :: l2 -> applicable sfx sn mk (b_name b) x -> withPriority sfx x ∈ L) as Hin.
  { intros x Hx Hax. unfold L. apply elem_of_list_In, in_flat_map. exists (r_toExt x). split; [by apply elem_of_list_In, Hexts|].
    apply (fits_spec sfx sn mk (b_name b) x (Hfresh x Hx)) in Hax. apply andb_true_iff in Hax as [X1 X2]. rewrite X1.
    apply List.filter_In. split; [by apply in_map, elem_of_list_In|]. rewrite X2.
    destruct (withPriority_same sfx x) as (_ & _ & _ & _ & _ & F4 & _). rewrite <- F4. by rewrite qeqb_refl. }
  exists l1, r, l2, i. split_and!; [done|done|done|done| |].
  - intros x j Hx Hax Hj. specialize (Hin x Hx Hax). rewrite HL' in Hin.
    apply withPriority_spec in Ai; [|done]. apply withPriority_spec in Hj; [|by apply Hfresh].
    apply elem_of_app in Hin as [Hi|[Hi|Hi]%elem_of_cons].
    + specialize (H1 _ Hi). lia.
    + rewrite Hi in Hj. lia.
    + specialize (H2 _ Hi). lia.
  - intros x j Hx Hte Hax Hj. assert (x ∈ l1 ++ r :: l2) as Hx' by set_solver.
    apply withPriority_spec in Ai; [|done]. apply withPriority_spec in Hj; [|by apply Hfresh].
    enough (r_prio (withPriority sfx r) < r_prio (withPriority sfx x)) by lia. apply H2.
    apply elem_of_app. left. rewrite <- Hd. apply elem_of_list_In, List.filter_In. split; [by apply in_map, elem_of_list_In|].
    apply (fits_spec sfx sn mk (b_name b) x (Hfresh x Hx')) in Hax. apply andb_true_iff in Hax as [X1 X2]. rewrite X2.
    destruct (withPriority_same sfx x) as (_ & _ & _ & _ & _ & F4 & _). rewrite <- F4, Hte, E4, Ht. by rewrite qeqb_refl.
Qed.
End Choice.

(** ** Batches *)

Lemma chunksFuel_concat {A} fuel k (l : list A) : (0 < k)%nat -> (length l <= fuel)%nat ->
  concat (chunksFuel fuel k l) = l.
Proof.
  revert l. induction fuel as [|fuel IH]; intros l Hk Hl; cbn [chunksFuel]; [by destruct l; cbn in Hl; [|lia]|].
  destruct l as [|x l]; [done|]. cbn [concat]. rewrite IH; [apply take_drop|done|].
  rewrite drop_length. cbn in *. lia.
Qed.
Lemma chunksFuel_sizes {A} fuel k (l : list A) c : (0 < k)%nat -> c ∈ chunksFuel fuel k l -> (0 < length c <= k)%nat.
Proof.
  revert l. induction fuel as [|fuel IH]; intros l Hk; cbn [chunksFuel]; [set_solver|].
  destruct l as [|x l]; [set_solver|]. intros [->|H]%elem_of_cons; [|by apply (IH _ Hk H)].
  rewrite take_length. cbn. lia.
Qed.
Lemma filesPerBatch_pos n j : (0 < filesPerBatch n j)%nat.
Proof. unfold filesPerBatch. lia. Qed.

Lemma queueRules_seen q seen r : r ∈ queueRules q seen -> r_id r ∉ seen.
Proof.
  revert seen. induction q as [|[x t] q IH]; intros seen; cbn [queueRules]; [set_solver|].
  destruct (existsb (Nat.eqb (r_id x)) seen) eqn:E; [by apply IH|].
  intros [->|H]%elem_of_cons; [|specialize (IH _ H); set_solver].
  intros Hin. enough (existsb (Nat.eqb (r_id x)) seen = true) by congruence.
  apply existsb_exists. exists (r_id x). split; [by apply elem_of_list_In|]. by rewrite Nat.eqb_refl.
Qed.
Lemma queueRules_rest q seen :
  flat_map (fun r => map snd (List.filter (fun p => Nat.eqb (r_id (fst p)) (r_id r)) q)) (queueRules q seen)
  ≡ₚ map snd (List.filter (fun p => negb (existsb (Nat.eqb (r_id (fst p))) seen)) q).
Proof.
  enough (forall (q0 : batchq) seen, flat_map (fun r => map snd (List.filter (fun p => Nat.eqb (r_id (fst p)) (r_id r)) q0)) (queueRules q seen)
    ≡ₚ map snd (List.filter (fun p => negb (existsb (Nat.eqb (r_id (fst p))) seen) && existsb (Nat.eqb (r_id (fst p))) (map r_id (queueRules q seen))) q0)) as E.
  { rewrite E. clear E. assert (forall p, p ∈ q -> existsb (Nat.eqb (r_id (fst p))) seen = false ->
      existsb (Nat.eqb (r_id (fst p))) (map r_id (queueRules q seen)) = true) as Hc.
    { revert seen. induction q as [|[x t] q IH]; intros seen p Hp Hs; [set_solver|]. cbn [queueRules].
      destruct (existsb (Nat.eqb (r_id x)) seen) eqn:E.
      - apply elem_of_cons in Hp as [->|Hp]; [cbn in Hs; congruence|]. by apply IH.
      - cbn [map existsb]. destruct (Nat.eqb (r_id (fst p)) (r_id x)) eqn:E2; [done|]. cbn [orb].
        apply elem_of_cons in Hp as [->|Hp]; [cbn in E2; by rewrite Nat.eqb_refl in E2|]. apply IH; [done|]. cbn. by rewrite E2. }
    erewrite List.filter_ext_in; [reflexivity|]. intros p Hp%elem_of_list_In. cbv beta.
    destruct (existsb (Nat.eqb (r_id (fst p))) seen) eqn:E; [done|]. by rewrite Hc. }
  clear. induction q as [|[x t] q IH]; intros q0 seen; cbn [queueRules flat_map map].
  { induction q0; [done|]. cbn. by rewrite andb_false_r. }
  destruct (existsb (Nat.eqb (r_id x)) seen) eqn:E; [by apply IH|].
  cbn [flat_map map existsb]. rewrite IH. rewrite <- map_app. apply Permutation_map. clear IH.
  induction q0 as [|[y u] q0 IH]; [done|]. cbn [List.filter fst existsb].
  destruct (Nat.eqb (r_id y) (r_id x)) eqn:E1; cbn [orb negb andb].
  - apply Nat.eqb_eq in E1. rewrite E1, E. cbn. by rewrite IH.
  - destruct (existsb (Nat.eqb (r_id y)) seen); cbn [negb andb]; [done|].
    destruct (existsb (Nat.eqb (r_id y)) (map r_id (queueRules q (r_id x :: seen)))); [|done].
    rewrite <- IH. apply Permutation_sym, Permutation_middle.
Qed.

Lemma flat_map_perm {A B} (f g : A -> list B) l : (forall x, f x ≡ₚ g x) -> flat_map f l ≡ₚ flat_map g l.
Proof. intros H. induction l as [|x l IH]; [done|]. cbn. by rewrite H, IH. Qed.

(** ** Where the candidates come from *)
Section Cands.
Context (exts : list qstr) (rules : list rule).

(** Rules sit only at targets without commands, and they are the ones found for the name. *)
Definition candsOk (mk : mkfile) : Prop :=
  forall t b, mk_targets mk !! t = Some b -> b_rules b = [] \/ (b_cmds b = [] /\ b_rules b = findRules exts rules (b_name b)).

Lemma selectOwn_cands mk t : candsOk mk -> candsOk (selectOwn exts rules mk t).
Proof.
  intros H. unfold selectOwn. destruct (mk_targets mk !! t) as [b|] eqn:E; [|done].
  destruct (b_cmds b) eqn:Ec; cbn [isNil]; [|done]. destruct (isNil _); [done|].
  intros k b'. cbn. destruct (decide (k = t)) as [->|]; [|rewrite lookup_insert_ne by done; apply H].
  rewrite lookup_insert. intros [= <-]. right. by rewrite <- Ec.
Qed.
Lemma createTarget_cands mk n : candsOk mk -> candsOk (createTarget mk n (findRules exts rules n)).
Proof.
  intros H k b'. cbn. destruct (decide (k = keyOf n)) as [->|]; [|rewrite lookup_insert_ne by done; apply H].
  rewrite lookup_insert. intros [= <-]. by right.
Qed.
Lemma preselect_cands fuel st t st' : candsOk (fst st) -> preselect fuel exts rules st t = Some st' -> candsOk (fst st').
Proof.
  revert st t st'. induction fuel as [|fuel IH]; intros st t st' P; [done|]. cbn [preselect].
  destruct (decide (t ∈ snd st)) as [|Hnin]; [by intros [= <-]|].
  pose proof (selectOwn_cands _ t P) as P1. set (mk1 := selectOwn exts rules (fst st) t) in *.
  assert (Hrec : forall deps st1 st2, candsOk (fst st1) ->
    preselectDeps (preselect fuel exts rules) exts rules deps st1 = Some st2 -> candsOk (fst st2)).
  { intros deps. induction deps as [|d deps IHd]; intros st1 st2 P2; cbn [preselectDeps]; [by intros [= <-]|].
    destruct (mk_find (fst st1) d) as [c|] eqn:Ef.
    - destruct (preselect fuel exts rules st1 c) as [st3|] eqn:E3; [|done]. intros H. eapply IHd; [|done]. by eapply IH.
    - destruct (isNil _); [by apply IHd|]. apply IHd. cbn [fst]. by apply createTarget_cands. }
  destruct (preselectDeps _ exts rules (depsOf mk1 t) (mk1, snd st)) as [[mk2 pre2]|] eqn:E; [|done].
  intros [= <-]. apply Hrec in E; done.
Qed.
Lemma checkRoots_cands mk done pre names mk' done' : candsOk mk ->
  checkRoots exts rules mk done pre names = Ok (mk', done') -> candsOk mk'.
Proof.
  revert mk done pre. induction names as [|n names IH]; intros mk done pre P; cbn [checkRoots]; [by intros [= <- <-]|].
  destruct (mk_find mk n) as [t|]; [|done]. destruct (checkForCycles _ mk [] done t); try done.
  destruct (preselect _ exts rules (mk, pre) t) as [[mk1 pre1]|] eqn:E; [|done].
  apply IH. by apply (preselect_cands _ (mk, pre) _ _ P) in E.
Qed.
Lemma applySync_cands sync mk : candsOk mk -> candsOk (applySync sync mk).
Proof.
  revert mk. induction sync as [|[k ds] sync IH]; intros mk P; cbn [applySync]; [done|].
  destruct (mk_find mk k) as [t|]; [|done]. destruct (mk_targets mk !! t) as [b|] eqn:E; [|done].
  apply IH. intros x b'. cbn. destruct (decide (x = t)) as [->|]; [|rewrite lookup_insert_ne by done; apply P].
  rewrite lookup_insert. intros [= <-]. cbn. by apply (P t).
Qed.
End Cands.

Lemma finishParse_cands exts sfx rules sync mk active mk' names :
  (forall t b, mk_targets mk !! t = Some b -> b_rules b = []) ->
  finishParse exts sfx rules sync mk active = Ok (mk', names) ->
  candsOk exts (calculatePriorities sfx rules) mk'.
Proof.
  intros H. assert (candsOk exts (calculatePriorities sfx rules) mk) as P by (intros t b Hb; left; eauto).
  unfold finishParse. destruct (decide _); [by intros [= <- _]|]. destruct (existsb _ active); [done|].
  destruct (match active with [] => _ | _ => _ end) as [names'|]; [|done].
  destruct (checkRoots _ _ _ _ _ _) as [[mk1 done]| | | |] eqn:E; try (intros; discriminate).
  apply checkRoots_cands in E; [|by apply applySync_cands].
  destruct (resetRoots mk1 done names'); [|done]. by intros [= <- _].
Qed.

(** ** The queue of batch work *)
Section Queue.
Context (xp : qstr -> option qstr).
Lemma applyToTargets_queue be sn mk q ts mk' q' : applyToTargets xp be sn mk q ts = Some (mk', q') ->
  exists l, map snd q' = map snd q ++ l /\ sublist l ts.
Proof.
  revert mk q. induction ts as [|t ts IH]; intros mk q; cbn [applyToTargets].
  { intros [= <- <-]. exists []. by rewrite app_nil_r. }
  destruct (applyToTarget xp be sn mk q t) as [[mk1 q1]|] eqn:E; [|done]. intros H.
  destruct (IH _ _ H) as (l & Hl & Hs).
  assert (map snd q1 = map snd q \/ map snd q1 = map snd q ++ [t]) as [Eq|Eq].
  { unfold applyToTarget in E. destruct (mk_targets mk !! t) as [b|]; [|injection E as _ <-; by left].
    destruct (chooseRule sn mk b) as [r|]; [|injection E as _ <-; by left].
    destruct (be && r_batch r); [injection E as _ <-; right; by rewrite map_app|].
    destruct (applySingle xp mk t b r); [injection E as _ <-; by left|done]. }
  - exists l. rewrite Hl, Eq. split; [done|]. by apply sublist_cons.
  - exists (t :: l). rewrite Hl, Eq, <- app_assoc. split; [done|]. by apply sublist_skip.
Qed.

(** applyQueue works through exactly these batches. *)
Fixpoint runBatches (mk : mkfile) (bs : list (rule * list tid)) : option mkfile :=
  match bs with
  | [] => Some mk
  | (r, b) :: bs' => match applyBatch xp mk r b with Some mk' => runBatches mk' bs' | None => None end
  end.
Lemma runBatches_app mk a b : runBatches mk (a ++ b) = match runBatches mk a with Some m => runBatches m b | None => None end.
Proof. revert mk. induction a as [|[r x] a IH]; intros mk; [done|]. cbn. destruct (applyBatch xp mk r x); [apply IH|done]. Qed.
Lemma runBatches_map mk r bs : runBatches mk (map (pair r) bs) = applyBatches xp mk r bs.
Proof. revert mk. induction bs as [|b bs IH]; intros mk; [done|]. cbn. destruct (applyBatch xp mk r b); [apply IH|done]. Qed.
Lemma applyQueue_batches jobs mk q : applyQueue xp jobs mk q (queueRules q []) = runBatches mk (batchesOf jobs q).
Proof.
  unfold batchesOf. generalize (queueRules q []). intros rs. revert mk. induction rs as [|r rs IH]; intros mk; [done|].
  cbn [applyQueue flat_map]. rewrite runBatches_app, runBatches_map.
  destruct (applyBatches xp mk r _); [apply IH|done].
Qed.
End Queue.

Lemma batchesOf_perm jobs q : flat_map snd (batchesOf jobs q) ≡ₚ map snd q.
Proof.
  transitivity (flat_map (queueTargets q) (queueRules q [])).
  - unfold batchesOf. induction (queueRules q []) as [|r rs IH]; [done|]. cbn [flat_map].
    rewrite flat_map_app, IH. apply Permutation_app_tail.
    rewrite flat_map_concat_map, map_map. cbn. rewrite map_id. unfold chunks.
    rewrite chunksFuel_concat; [done|apply filesPerBatch_pos|done].
  - etransitivity; [apply flat_map_perm; intros r; unfold queueTargets; apply Permutation_sym, Permutation_rev|].
    rewrite queueRules_rest. cbn. clear. induction q as [|p q IH]; [done|]. cbn. by constructor.
Qed.

Lemma sublist_nodup {A} (l k : list A) : sublist l k -> NoDup k -> NoDup l.
Proof.
  induction 1 as [|x l k Hs IH|x l k Hs IH]; [done| |]; intros [H1 H2]%NoDup_cons; [|by apply IH].
  apply NoDup_cons. split; [|by apply IH]. intros H. apply H1. by eapply elem_of_submseteq, sublist_submseteq.
Qed.
