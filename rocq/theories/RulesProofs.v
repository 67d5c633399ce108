(** Lemmas about sequences of rules. *)
From Coq Require Import Ascii String.
From stdpp Require Import prelude gmap.
From RecordUpdate Require Import RecordSet.
From Verif Require Import Base BaseProofs Data Infer UpToDate Graph Macro MacroProofs Front FileMacros FileMacrosProofs Preproc MkParse RulesSpec.
Import RecordSetNotations.
Local Open Scope N_scope.

(** ** Names *)
Definition normChar (c : N) : N := let l := lowerChar c in if l =? 47 then 92 else l.
Lemma lower_cases c : (lowerChar c = c + 32 /\ (65 <= c <= 90 \/ (192 <= c <= 222 /\ c <> 215))) \/
  (lowerChar c = c /\ ~ (65 <= c <= 90 \/ (192 <= c <= 222 /\ c <> 215))).
Proof.
  unfold lowerChar. destruct (N.leb_spec 65 c), (N.leb_spec c 90), (N.leb_spec 192 c), (N.leb_spec c 222), (N.eqb_spec c 215); cbn; (left; split; [done|lia]) || (right; split; [done|lia]).
Qed.
Lemma norm_cases c : (normChar c = c + 32 /\ (65 <= c <= 90 \/ (192 <= c <= 222 /\ c <> 215))) \/ (c = 47 /\ normChar c = 92) \/
  (normChar c = c /\ c <> 47 /\ ~ (65 <= c <= 90 \/ (192 <= c <= 222 /\ c <> 215))).
Proof.
  unfold normChar. destruct (lower_cases c) as [[-> H]|[-> H]].
  - destruct (N.eqb_spec (c + 32) 47); [lia|auto].
  - destruct (N.eqb_spec c 47); [lia|auto].
Qed.
Lemma sameChar_norm a b : sameChar a b <-> normChar a = normChar b.
Proof.
  split.
  - intros H. destruct H as [c|u l [-> H]|u l [-> H]| |]; try done.
    + destruct (norm_cases u), (norm_cases (u + 32)); lia.
    + destruct (norm_cases u), (norm_cases (u + 32)); lia.
  - intros H. destruct (decide (a = b)) as [->|Hn]; [constructor|].
    destruct (norm_cases a) as [[Ha Ha']|[[-> Ha]|(Ha & Ha' & Ha'')]], (norm_cases b) as [[Hb Hb']|[[-> Hb]|(Hb & Hb' & Hb'')]]; try lia.
    + apply sc_lower. unfold casePair. split; [lia|done].
    + assert (b = 92) as -> by lia. exact sc_slash.
    + apply sc_upper. unfold casePair. split; [lia|done].
    + assert (a = 92) as -> by lia. exact sc_backslash.
Qed.
Definition norm (s : list N) : list N := map normChar s.
Lemma sameName_norm (a b : list N) : sameName a b <-> norm a = norm b.
Proof.
  unfold sameName. split.
  - induction 1 as [|x y a b H _ IH]; [done|]. apply sameChar_norm in H. unfold norm in *. cbn [map]. by rewrite H, IH.
  - revert b. induction a as [|x a IH]; intros [|y b]; try done. unfold norm. cbn [map]. intros E. injection E as H1 H2. constructor; [by apply sameChar_norm|by apply IH].
Qed.
Lemma norm_lower (s : list N) : replaceChar 47 92 (toLower s) = norm s.
Proof. unfold replaceChar, toLower, norm. rewrite map_map. apply map_ext. intros c. done. Qed.
Lemma native_lower (s : list N) : native s -> toLower s = norm s.
Proof.
  intros H. rewrite <- norm_lower. unfold replaceChar. symmetry. rewrite <- (map_id (toLower s)) at 2. apply map_ext_in. intros c Hc.
  destruct (N.eqb_spec c 47) as [->|]; [|done]. exfalso. apply H. unfold toLower in Hc. apply in_map_iff in Hc as (x & Hx & Hi).
  apply elem_of_list_In. destruct (lower_cases x) as [[E ?]|[E ?]]; [lia|]. rewrite E in Hx. by subst.
Qed.
Lemma native_lower' (s : list N) : native s -> native (toLower s).
Proof.
  intros H Hc. apply H. unfold toLower in Hc. apply elem_of_list_In, in_map_iff in Hc as (x & Hx & Hi). apply elem_of_list_In.
  destruct (lower_cases x) as [[E ?]|[E ?]]; [lia|]. rewrite E in Hx. by subst.
Qed.
Lemma native_replace (s : list N) : native s -> replaceChar 47 92 s = s.
Proof.
  intros H. unfold replaceChar. rewrite <- (map_id s) at 2. apply map_ext_in. intros c Hc. destruct (N.eqb_spec c 47) as [->|]; [|done].
  exfalso. apply H. by apply elem_of_list_In.
Qed.
Lemma native_toNative (s : list N) : native (toNative s).
Proof.
  unfold native, toNative, replaceChar. intros H. apply elem_of_list_In, in_map_iff in H as (x & Hx & _). destruct (N.eqb_spec x 47); [lia|done].
Qed.

(** Tables in which every target stands under its name. *)
Definition wf (mk : mkfile) : Prop := forall t b, mk_targets mk !! t = Some b -> t = keyOf (b_name b) /\ native (b_name b).
Lemma find_spec mk (n : list N) t : wf mk -> mk_find mk n = Some t <-> exists b, mk_targets mk !! t = Some b /\ sameName n (b_name b).
Proof.
  intros W. unfold mk_find. cbv zeta. rewrite norm_lower. split.
  - destruct (mk_targets mk !! toLower n) as [b|] eqn:E1.
    + intros [= <-]. exists b. split; [done|]. apply W in E1 as [E Hn]. unfold keyOf in E. apply sameName_norm. rewrite <- (native_lower _ Hn), <- E.
      rewrite <- norm_lower. apply native_replace. rewrite E. by apply native_lower'.
    + case_match eqn:E2; [|done]. intros [= <-]. exists b. split; [done|].
      apply W in E2 as [E Hn]. unfold keyOf in E. apply sameName_norm. rewrite E. by apply native_lower.
  - intros (b & Hb & Hs). apply sameName_norm in Hs. destruct (W _ _ Hb) as [Ht Hn]. unfold keyOf in Ht. rewrite (native_lower _ Hn) in Ht.
    destruct (mk_targets mk !! toLower n) as [b'|] eqn:E1.
    + destruct (W _ _ E1) as [E Hn']. unfold keyOf in E. f_equal. rewrite Ht, <- Hs, <- norm_lower. symmetry. apply native_replace. rewrite E. by apply native_lower'.
    + subst t. rewrite <- Hs in Hb |- *. case_match eqn:E3; [done|]. exfalso.
      assert (H : Some b = None) by (etransitivity; [symmetry; exact Hb|exact E3]). done.
Qed.
Lemma find_key mk (n : list N) : wf mk -> native n -> mk_find mk n = if mk_targets mk !! keyOf n then Some (keyOf n) else None.
Proof.
  intros W Hn. unfold mk_find. cbv zeta. unfold keyOf. change (mk_targets mk !! (toLower n : qstr)) with (mk_targets mk !! (toLower n : tid)).
  destruct (mk_targets mk !! (toLower n : tid)) eqn:E; [done|]. rewrite norm_lower, <- native_lower by done.
  change (mk_targets mk !! (toLower n : qstr)) with (mk_targets mk !! (toLower n : tid)). by rewrite E.
Qed.
Lemma key_lower (n : list N) : keyOf n = toLower n.
Proof. done. Qed.

(** ** One rule *)
Lemma sameName_lower (a b : list N) : native a -> native b -> sameName a b <-> toLower a = toLower b.
Proof. intros Ha Hb. rewrite sameName_norm. by rewrite !native_lower. Qed.
Lemma acsEqb_eq a b : acsEqb a b = true <-> a = b.
Proof. by destruct a, b. Qed.

Lemma firstCommands_snoc l cs cs' : firstCommands l cs -> firstCommands (l ++ [cs']) (if isNil cs then cs' else cs).
Proof.
  induction 1 as [|l cs H IH|c cs l]; cbn [app isNil].
  - destruct cs'; [constructor; constructor|constructor].
  - by constructor.
  - constructor.
Qed.
Lemma expandDependents_forall2 name deps tm fuel r : expandDependents name deps tm fuel = Some (FOk r) ->
  Forall2 (fun d d' => expandName name deps tm fuel None true d = Some (FOk d')) deps r.
Proof. unfold expandDependents. by rewrite collect_ok. Qed.
Lemma expandsTo_snoc name d e d' fuel deps tm : expandsTo name d e -> expandName name deps tm fuel None true e = Some (FOk d') -> expandsTo name d d'.
Proof.
  induction 1 as [d e f1 d1 t1 H|d e f1 d1 t1 x H _ IH]; intros H'.
  - eapply et_again; [exact H|]. by eapply et_once.
  - eapply et_again; [exact H|]. by apply IH.
Qed.
Lemma deps_step name xs ys new tm fuel r : Forall2 (expandsTo name) xs ys -> expandDependents name (ys ++ new) tm fuel = Some (FOk r) ->
  Forall2 (expandsTo name) (xs ++ new) r.
Proof.
  intros HF H. apply expandDependents_forall2 in H. apply Forall2_app_inv_l in H as (r1 & r2 & H1 & H2 & ->). apply Forall2_app.
  - clear H2. remember (ys ++ new) as all. clear Heqall. revert r1 H1. induction HF as [|x y xs ys Hx _ IH]; intros r1 H1.
    + apply Forall2_nil_inv_l in H1 as ->. constructor.
    + apply Forall2_cons_inv_l in H1 as (z & r' & Hz & H1 & ->). constructor; [eapply expandsTo_snoc; [exact Hx|exact Hz]|by apply IH].
  - clear H1 HF. eapply Forall2_impl; [exact H2|]. intros x y E. eapply et_once. exact E.
Qed.

(** The table after the uses [us]: exactly the targets used, each with its rules. *)
Definition tableFor (mk : mkfile) (us : list (qstr * prule)) : Prop :=
  wf mk /\ mk_first mk = match us with [] => None | (n, _) :: _ => Some (keyOf n) end /\
  (forall t b, mk_targets mk !! t = Some b -> exists rs, usesOf (b_name b) us rs /\ blockFor b rs) /\
  (forall n r, (n, r) ∈ us -> exists t b, mk_targets mk !! t = Some b /\ sameName n (b_name b)).
Lemma usesOf_snoc t us rs n r : usesOf t us rs -> usesOf t (us ++ [(n, r)]) (if decide (norm t = norm n) then rs ++ [r] else rs).
Proof.
  induction 1 as [|n' r' us rs Hs _ IH|n' r' us rs Hs _ IH]; cbn [app].
  - destruct (decide _) as [E|E].
    + apply uo_yes; [by apply sameName_norm|constructor].
    + apply uo_no; [by rewrite sameName_norm|constructor].
  - destruct (decide _); cbn [app]; by apply uo_yes.
  - destruct (decide _); by apply uo_no.
Qed.
Lemma usesOf_none t us : (forall n r, (n, r) ∈ us -> ~ sameName t n) -> usesOf t us [].
Proof.
  induction us as [|[n r] us IH]; intros H; [constructor|]. apply uo_no; [apply (H n r); by left|]. apply IH. intros n' r' Hi. apply (H n' r'). by right.
Qed.
Lemma setBlock_lookup mk t b t' : mk_targets (setBlock mk t b) !! t' = if decide (t = t') then Some b else mk_targets mk !! t'.
Proof. unfold setBlock. cbn. destruct (decide (t = t')) as [->|Hn]; [by rewrite lookup_insert|by rewrite lookup_insert_ne]. Qed.
Lemma addRuleFor_ok fuel r mk (n : list N) mk' us : tableFor mk us -> native n -> addRuleFor fuel r mk n = POk mk' -> tableFor mk' (us ++ [(n, r)]).
Proof.
  intros (W & HF & HT & HU) Hn. unfold addRuleFor. rewrite find_key by done.
  destruct (mk_targets mk !! keyOf n) as [b|] eqn:E.
  - (* a rule before *)
    rewrite E. destruct (W _ _ E) as [Hk Hnb]. destruct (HT _ _ E) as (rs & Hrs & Hb).
    destruct (_ && _) eqn:Em; [done|]. cbn [bindR]. rewrite E.
    destruct (expandDependents _ _ _ _) as [[deps| |]|] eqn:Ed; try done. intros [= <-].
    destruct Hb as [(r0 & rs' & -> & Ha & Hall & Hc) Hd].
    assert (Ekind : pr_double r = pr_double r0).
    { rewrite Ha in Em. destruct (pr_double r), (pr_double r0); done. }
    set (b' := Block _ _ _ _ _ _ _).
    assert (Hb' : blockFor b' ((r0 :: rs') ++ [r])).
    { split.
      - exists r0, (rs' ++ [r]). split_and!; [done|cbn; by rewrite Ekind| |].
        + apply Forall_app. split; [done|]. by constructor.
        + rewrite map_app. change (map pr_cmds [r]) with [pr_cmds r]. cbn [b' b_cmds]. rewrite Ekind. destruct (pr_double r0) eqn:Ek.
          * rewrite concat_app, <- Hc. change (concat [pr_cmds r]) with (pr_cmds r ++ []). rewrite app_nil_r. cbn [acsEqb orb]. destruct (pr_cmds r) eqn:Ec; cbn [isNil]; [by rewrite app_nil_r|done].
          * cbn [acsEqb orb]. replace (if isNil (pr_cmds r) then b_cmds b else if isNil (b_cmds b) then b_cmds b ++ pr_cmds r else b_cmds b)
              with (if isNil (b_cmds b) then pr_cmds r else b_cmds b); [by apply firstCommands_snoc|].
            destruct (pr_cmds r), (b_cmds b); done.
      - cbn [b' b_name b_deps]. rewrite map_app, concat_app. change (concat (map pr_deps [r])) with (pr_deps r ++ []). rewrite app_nil_r. by eapply deps_step. }
    split_and!.
    + intros t x. rewrite setBlock_lookup. destruct (decide _) as [<-|]; [|apply W]. intros [= <-]. done.
    + unfold setBlock. cbn [mk_first]. rewrite HF. destruct us as [|[n1 r1] us]; [|done]. inversion Hrs.
    + intros t x. rewrite setBlock_lookup. destruct (decide _) as [<-|Ht].
      * intros [= <-]. exists ((r0 :: rs') ++ [r]). split; [|done]. apply (usesOf_snoc _ _ _ n r) in Hrs. cbn [b' b_name].
        rewrite decide_True in Hrs; [done|]. apply sameName_norm, sameName_lower; [done|done|]. symmetry. exact Hk.
      * intros Hx. destruct (HT _ _ Hx) as (rs1 & H1 & H2). exists rs1. split; [|done]. apply (usesOf_snoc _ _ _ n r) in H1.
        rewrite decide_False in H1; [done|]. destruct (W _ _ Hx) as [Hkx Hnx]. intros En. apply sameName_norm, sameName_lower in En; [|done|done].
        apply Ht. rewrite Hkx. symmetry. exact En.
    + intros n' r' Hi. apply elem_of_app in Hi as [Hi|Hi].
      * destruct (HU _ _ Hi) as (t & x & Hx & Hs). destruct (decide (keyOf n = t)) as [<-|Ht].
        -- exists (keyOf n), b'. rewrite setBlock_lookup, decide_True by done. split; [done|]. rewrite E in Hx. by injection Hx as <-.
        -- exists t, x. rewrite setBlock_lookup, decide_False by done. done.
      * apply elem_of_list_singleton in Hi. injection Hi as -> ->. exists (keyOf n), b'. rewrite setBlock_lookup, decide_True by done.
        split; [done|]. apply sameName_lower; [done|done|]. exact Hk.
  - (* the first rule *)
    cbn [bindR]. unfold createTarget at 1. cbn [mk_targets]. rewrite lookup_insert. cbn [newBlock b_name b_deps b_cmds b_rules b_time b_exists app].
    destruct (expandDependents _ _ _ _) as [[deps| |]|] eqn:Ed; try done. intros [= <-].
    set (b' := Block _ _ _ _ _ _ _).
    assert (Hb' : blockFor b' [r]).
    { split.
      - exists r, []. split_and!; [done|done|constructor|]. cbn [b' b_cmds map concat acsEqb orb].
        destruct (pr_double r); destruct (pr_cmds r) as [|c cs]; cbn [isNil]; rewrite ?app_nil_r; try done; repeat constructor.
      - cbn [b' b_name b_deps map concat]. rewrite app_nil_r. apply (deps_step n [] [] (pr_deps r) _ _ _ (Forall2_nil_2 _ _ _)) in Ed. done. }
    assert (Hnone : forall t x, mk_targets mk !! t = Some x -> ~ sameName n (b_name x)).
    { intros t x Hx Hs. destruct (W _ _ Hx) as [Hkx Hnx]. apply sameName_lower in Hs; [|done|done]. assert (t = keyOf n) as -> by (rewrite Hkx; symmetry; exact Hs). congruence. }
    assert (L : forall t, mk_targets (setBlock (createTarget mk n []) (keyOf n) b') !! t = if decide (keyOf n = t) then Some b' else mk_targets mk !! t).
    { intros t. rewrite setBlock_lookup. destruct (decide _) as [|Ht]; [done|]. unfold createTarget. cbn. by rewrite lookup_insert_ne. }
    split_and!.
    + intros t x. rewrite L. destruct (decide _) as [<-|]; [|apply W]. intros [= <-]. done.
    + unfold setBlock, createTarget. cbn [mk_first]. rewrite HF. by destruct us as [|[n1 r1] us].
    + intros t x. rewrite L. destruct (decide _) as [<-|Ht].
      * intros [= <-]. exists [r]. split; [|done]. cbn [b' b_name].
        assert (H0 : usesOf n us []).
        { apply usesOf_none. intros n' r' Hi Hs. destruct (HU _ _ Hi) as (t & x & Hx & Hs'). apply (Hnone t x Hx).
          apply sameName_norm. apply sameName_norm in Hs, Hs'. by rewrite Hs. }
        apply (usesOf_snoc _ _ _ n r) in H0. by rewrite decide_True in H0.
      * intros Hx. destruct (HT _ _ Hx) as (rs1 & H1 & H2). exists rs1. split; [|done]. apply (usesOf_snoc _ _ _ n r) in H1.
        rewrite decide_False in H1; [done|]. intros En. apply (Hnone t x Hx). by apply sameName_norm.
    + intros n' r' Hi. apply elem_of_app in Hi as [Hi|Hi].
      * destruct (HU _ _ Hi) as (t & x & Hx & Hs). destruct (decide (keyOf n = t)) as [<-|Ht]; [congruence|].
        exists t, x. rewrite L, decide_False by done. done.
      * apply elem_of_list_singleton in Hi. injection Hi as -> ->. exists (keyOf n), b'. rewrite L, decide_True by done.
        split; [done|]. apply sameName_norm. done.
Qed.

(** ** Sequences of rules *)
Fixpoint applyRules (fuel : nat) (rs : list prule) (st : rstate) : pres rstate :=
  match rs with [] => POk st | r :: rs' => bindR (applyRule fuel r st) (applyRules fuel rs') end.
Lemma applyRules_app fuel rs1 : forall rs2 st, applyRules fuel (rs1 ++ rs2) st = bindR (applyRules fuel rs1 st) (applyRules fuel rs2).
Proof. induction rs1 as [|r rs1 IH]; intros rs2 st; cbn; [done|]. destruct (applyRule fuel r st); cbn; try done. Qed.
Definition usesIn (r : prule) (names : list qstr) : list (qstr * prule) :=
  map (fun n => (n, r)) (filter (fun n => n <> s2q ".NOTPARALLEL") names).
Lemma qeqb_dec a b : qeqb a b = bool_decide (a = b).
Proof.
  destruct (bool_decide (a = b)) eqn:E.
  - apply bool_decide_eq_true in E as ->. by apply qeqb_spec.
  - apply bool_decide_eq_false in E. destruct (qeqb a b) eqn:Q; [by apply qeqb_spec in Q|done].
Qed.
Lemma addRule_ok fuel r names : forall st us mk' ser', tableFor (fst st) us -> Forall native names ->
  addRule fuel r names st = POk (mk', ser') ->
  tableFor mk' (us ++ usesIn r names) /\ (ser' = true <-> snd st = true \/ s2q ".NOTPARALLEL" ∈ names).
Proof.
  induction names as [|n names IH]; intros st us mk' ser' HT HN; cbn [addRule].
  - intros [= ->]. cbn. rewrite app_nil_r. split; [done|]. rewrite elem_of_nil. tauto.
  - apply Forall_cons in HN as [Hn HN]. unfold usesIn. rewrite filter_cons. rewrite qeqb_dec.
    destruct (decide (n = s2q ".NOTPARALLEL")) as [->|Hs].
    + rewrite bool_decide_eq_true_2, decide_False by (done || by intros []). intros H. apply (IH _ us) in H as [H1 H2]; [|done|done].
      split; [done|]. cbn [snd] in H2. rewrite H2, elem_of_cons. tauto.
    + rewrite bool_decide_eq_false_2, decide_True by done. destruct (addRuleFor fuel r (fst st) n) as [mk1| | |] eqn:E; try done. cbn [bindR].
      intros H. apply (IH _ (us ++ [(n, r)])) in H as [H1 H2]; [| |done].
      * split; [cbn [map]; by rewrite <- app_assoc in H1|]. cbn [snd] in H2. rewrite H2, elem_of_cons. split; [tauto|]. intros [?|[?|?]]; auto.
      * cbn [fst]. by eapply addRuleFor_ok.
Qed.

(** ** .SYNC *)
Definition isSync (d : qstr) : bool := qeqb d (s2q ".SYNC").
Lemma syncLoop_deps l : forall before group sd, fst (syncLoop before group sd l) = before ++ filter (fun d => d <> s2q ".SYNC") l.
Proof.
  induction l as [|d l IH]; intros before group sd; cbn [syncLoop]; [by rewrite app_nil_r|]. rewrite qeqb_dec, filter_cons.
  destruct (decide (d = s2q ".SYNC")) as [->|Hd].
  - rewrite bool_decide_eq_true_2, decide_False by (done || by intros []). destruct l as [|x l]; [by rewrite app_nil_r|apply IH].
  - rewrite bool_decide_eq_false_2, decide_True by done. specialize (IH (before ++ [d]) (group ++ [d]) sd).
    destruct (syncLoop _ _ _ l). cbn [fst] in *. rewrite IH, <- app_assoc. done.
Qed.
(** The points made for a list of groups. *)
Fixpoint points (prev : list qstr) (gs : list (list qstr)) : list (qstr * list qstr) :=
  match gs with [] => [] | g :: gs' => map (fun d => (d, prev)) g ++ points g gs' end.
Lemma syncLoop_points gs : forall g before pre sd, s2q ".SYNC" ∉ g -> Forall (fun g => s2q ".SYNC" ∉ g) gs ->
  snd (syncLoop before pre sd (withSync g gs)) = map (fun d => (d, sd)) g ++ points (pre ++ g) gs.
Proof.
  assert (G : forall g rest before pre sd, s2q ".SYNC" ∉ g ->
    snd (syncLoop before pre sd (g ++ rest)) = map (fun d => (d, sd)) g ++ snd (syncLoop (before ++ g) (pre ++ g) sd rest)).
  { induction g as [|d g IH]; intros rest before pre sd Hg; cbn [app map]; [by rewrite !app_nil_r|].
    apply not_elem_of_cons in Hg as [Hd Hg]. cbn [syncLoop]. rewrite qeqb_dec, bool_decide_eq_false_2 by congruence.
    specialize (IH rest (before ++ [d]) (pre ++ [d]) sd Hg). destruct (syncLoop _ _ _ (g ++ rest)). cbn [snd] in *. rewrite IH, <- !app_assoc. done. }
  induction gs as [|g' gs IH]; intros g before pre sd Hg HG; cbn [withSync points].
  - rewrite <- (app_nil_r g) at 1. rewrite G by done. done.
  - apply Forall_cons in HG as [Hg' HG]. rewrite G by done. f_equal. cbn [syncLoop]. rewrite qeqb_dec, bool_decide_eq_true_2 by done.
    destruct (withSync g' gs) as [|x l] eqn:E.
    + assert (g' = [] /\ gs = []) as [-> ->]. { destruct gs; cbn in E; [done|]. destruct g'; done. } done.
    + rewrite <- E, IH by done. done.
Qed.
Lemma points_in gs : forall prev d ds, (d, ds) ∈ points prev gs <-> exists k b, gs !! k = Some b /\ d ∈ b /\ (prev :: gs) !! k = Some ds.
Proof.
  induction gs as [|g gs IH]; intros prev d ds; cbn [points].
  - split; [intros H; by apply elem_of_nil in H|]. by intros (k & b & ? & _).
  - rewrite elem_of_app. rewrite IH. split.
    + intros [H|(k & b & H1 & H2 & H3)].
      * apply elem_of_list_In, in_map_iff in H as (x & [= -> ->] & Hx). exists 0%nat, g. split_and!; [done|by apply elem_of_list_In|done].
      * exists (S k), b. done.
    + intros ([|k] & b & H1 & H2 & H3).
      * left. injection H1 as <-. injection H3 as <-. apply elem_of_list_In, in_map_iff. exists d. split; [done|by apply elem_of_list_In].
      * right. exists k, b. done.
Qed.
(** The table of sync points: [x] is listed under [d]. *)
Definition listedUnder (sync : list (qstr * list qstr)) (d x : qstr) : Prop := exists ds, (d, ds) ∈ sync /\ x ∈ ds.
Definition keys (sync : list (qstr * list qstr)) : list qstr := map fst sync.
Lemma addSync_keys k ds sync d : d ∈ keys (addSync k ds sync) <-> d = k \/ d ∈ keys sync.
Proof.
  induction sync as [|[k' ds'] sync IH]; cbn [addSync keys map fst].
  - by rewrite elem_of_list_singleton, elem_of_nil; intuition.
  - rewrite qeqb_dec. destruct (decide (k = k')) as [->|Hn].
    + rewrite bool_decide_eq_true_2 by done. cbn [map fst]. rewrite !elem_of_cons. tauto.
    + rewrite bool_decide_eq_false_2 by done. cbn [map fst]. rewrite !elem_of_cons. unfold keys in IH. rewrite IH. tauto.
Qed.
Lemma addSync_listed k ds sync d x : listedUnder (addSync k ds sync) d x <-> (d = k /\ x ∈ ds) \/ listedUnder sync d x.
Proof.
  unfold listedUnder. induction sync as [|[k' ds'] sync IH]; cbn [addSync].
  - split.
    + intros (e & He & Hx). apply elem_of_list_singleton in He. injection He as -> ->. by left.
    + intros [[-> Hx]|(e & He & _)]; [|by apply elem_of_nil in He]. exists ds. split; [by left|done].
  - rewrite qeqb_dec. destruct (decide (k = k')) as [->|Hn].
    + rewrite bool_decide_eq_true_2 by done. split.
      * intros (e & He & Hx). apply elem_of_cons in He as [He|He].
        -- injection He as -> ->. apply elem_of_app in Hx as [Hx|Hx]; [|by left]. right. exists ds'. split; [by left|done].
        -- right. exists e. split; [by right|done].
      * intros [[-> Hx]|(e & He & Hx)].
        -- exists (ds' ++ ds). split; [by left|]. apply elem_of_app. by right.
        -- apply elem_of_cons in He as [He|He]; [injection He as -> ->; exists (ds' ++ ds); split; [by left|]; apply elem_of_app; by left|].
           exists e. split; [by right|done].
    + rewrite bool_decide_eq_false_2 by done. split.
      * intros (e & He & Hx). apply elem_of_cons in He as [He|He].
        -- right. exists e. split; [apply elem_of_cons; by left|done].
        -- destruct (proj1 IH) as [H|(e' & He' & Hx')]; [by exists e|by left|]. right. exists e'. split; [by right|done].
      * intros [H|(e & He & Hx)].
        -- destruct (proj2 IH) as (e & He & Hx); [by left|]. exists e. split; [by right|done].
        -- apply elem_of_cons in He as [He|He]; [exists e; split; [apply elem_of_cons; by left|done]|].
           destruct (proj2 IH) as (e' & He' & Hx'); [right; by exists e|]. exists e'. split; [by right|done].
Qed.
Lemma fold_listed pts : forall sync d x, listedUnder (fold_left (fun l p => addSync (fst p) (snd p) l) pts sync) d x <->
  listedUnder pts d x \/ listedUnder sync d x.
Proof.
  induction pts as [|[k ds] pts IH]; intros sync d x; cbn [fold_left fst snd].
  - split; [by right|]. intros [(e & He & _)|H]; [by apply elem_of_nil in He|done].
  - rewrite IH, addSync_listed. unfold listedUnder at 4. split.
    + intros [(e & He & Hx)|[[-> Hx]|H]]; [left; exists e; split; [by right|done]|left; exists ds; split; [by left|done]|by right].
    + intros [(e & He & Hx)|H]; [|by right; right]. apply elem_of_cons in He as [He|He]; [injection He as -> ->; right; by left|left; by exists e].
Qed.
Lemma fold_keys pts : forall sync d, d ∈ keys (fold_left (fun l p => addSync (fst p) (snd p) l) pts sync) <-> d ∈ keys pts \/ d ∈ keys sync.
Proof.
  induction pts as [|[k ds] pts IH]; intros sync d; cbn [fold_left fst snd].
  - cbn. rewrite elem_of_nil. tauto.
  - rewrite IH, addSync_keys. change (keys ((k, ds) :: pts)) with (k :: keys pts). rewrite elem_of_cons. tauto.
Qed.

Lemma removeDups_in l x : x ∈ removeDups l <-> x ∈ l.
Proof.
  unfold removeDups. assert (G : forall l seen, x ∈ removeDupsGo seen l <-> x ∈ l /\ x ∉ seen).
  { clear l. induction l as [|y l IH]; intros seen; cbn [removeDupsGo].
    - rewrite elem_of_nil. tauto.
    - destruct (containsStr y seen) eqn:E; unfold containsStr in E.
      + rewrite IH. assert (Hy : y ∈ seen). { apply existsb_exists in E as (z & Hz & Ez). apply qeqb_spec in Ez. subst. by apply elem_of_list_In. }
        rewrite elem_of_cons. split; [tauto|]. intros [[->|?] ?]; [done|tauto].
      + assert (Hy : y ∉ seen). { intros Hy. apply not_true_iff_false in E. apply E. apply existsb_exists. exists y. split; [by apply elem_of_list_In|by apply qeqb_spec]. }
        rewrite elem_of_cons, IH, !elem_of_cons. destruct (decide (x = y)) as [->|]; tauto. }
  rewrite G. split; [tauto|]. intros H. split; [done|]. apply not_elem_of_nil.
Qed.
Lemma find_setBlock mk t b b' n : mk_targets mk !! t = Some b' -> mk_find (setBlock mk t b) n = mk_find mk n.
Proof.
  intros H. assert (G : forall (k : tid) (A : Type) (x y : A), match mk_targets (setBlock mk t b) !! k with Some _ => x | None => y end =
    match mk_targets mk !! k with Some _ => x | None => y end).
  { intros k A x y. rewrite setBlock_lookup. destruct (decide (t = k)) as [->|]; [|done]. by rewrite H. }
  unfold mk_find. cbv zeta. etransitivity; [apply (G (toLower n))|]. destruct (mk_targets mk !! (toLower n : tid)) eqn:E.
  - change (mk_targets mk !! (toLower n : qstr)) with (mk_targets mk !! (toLower n : tid)). by rewrite E.
  - change (mk_targets mk !! (toLower n : qstr)) with (mk_targets mk !! (toLower n : tid)). rewrite E. apply (G (replaceChar 47 92 (toLower n))).
Qed.
Lemma find_in mk n t : mk_find mk n = Some t -> exists b, mk_targets mk !! t = Some b.
Proof.
  unfold mk_find. cbv zeta. case_match eqn:E; [intros [= <-]; by eexists|]. case_match eqn:E2; [|done]. intros [= <-]. by eexists.
Qed.
Lemma applySync_in sync : forall mk, Forall (fun p => is_Some (mk_find mk (fst p))) sync -> forall t b', mk_targets (applySync sync mk) !! t = Some b' ->
  exists b, mk_targets mk !! t = Some b /\ b_name b' = b_name b /\ b_cmds b' = b_cmds b /\
    forall x, x ∈ b_deps b' <-> x ∈ b_deps b \/ exists d, mk_find mk d = Some t /\ listedUnder sync d x.
Proof.
  induction sync as [|[k ds] sync IH]; intros mk HA t b'; cbn [applySync].
  - intros H. exists b'. split_and!; try done. intros x. split; [by left|]. intros [?|(d & _ & e & He & _)]; [done|]. by apply elem_of_nil in He.
  - apply Forall_cons in HA as [[t0 H0] HA]. cbn [fst] in H0. rewrite H0. destruct (find_in _ _ _ H0) as [b0 Hb0]. rewrite Hb0. intros H.
    apply IH in H.
    + destruct H as (b & H1 & H2 & H3 & H4). rewrite setBlock_lookup in H1.
      assert (HD : forall d, mk_find (setBlock mk t0 (setDeps (removeDups (b_deps b0 ++ ds)) b0)) d = mk_find mk d) by (intros d; by eapply find_setBlock).
      destruct (decide (t0 = t)) as [->|Hn].
      * injection H1 as <-. exists b0. split_and!; [done|done|done|]. intros x. rewrite H4. cbn [setDeps b_deps]. rewrite removeDups_in, elem_of_app. split.
        -- intros [[?|?]|(d & Hd & e & He & Hx)]; [by left|right; exists k; split; [done|]; exists ds; split; [by left|done]|].
           right. exists d. rewrite HD in Hd. split; [done|]. exists e. split; [by right|done].
        -- intros [?|(d & Hd & e & He & Hx)]; [by left; left|]. apply elem_of_cons in He as [He|He].
           ++ injection He as -> ->. left. by right.
           ++ right. exists d. rewrite HD. split; [done|]. by exists e.
      * exists b. split_and!; try done. intros x. rewrite H4. split.
        -- intros [?|(d & Hd & e & He & Hx)]; [by left|]. right. exists d. rewrite HD in Hd. split; [done|]. exists e. split; [by right|done].
        -- intros [?|(d & Hd & e & He & Hx)]; [by left|]. apply elem_of_cons in He as [He|He].
           ++ injection He as -> ->. rewrite H0 in Hd. injection Hd as ->. done.
           ++ right. exists d. rewrite HD. split; [done|]. by exists e.
    + eapply Forall_impl; [exact HA|]. intros p Hp. cbn beta. by rewrite (find_setBlock _ _ _ _ _ Hb0).
Qed.
Lemma applySync_find sync : forall mk n, Forall (fun p => is_Some (mk_find mk (fst p))) sync -> mk_find (applySync sync mk) n = mk_find mk n.
Proof.
  induction sync as [|[k ds] sync IH]; intros mk n HA; cbn [applySync]; [done|].
  apply Forall_cons in HA as [[t0 H0] HA]. cbn [fst] in H0. rewrite H0. destruct (find_in _ _ _ H0) as [b0 Hb0]. rewrite Hb0. rewrite IH.
  - by eapply find_setBlock.
  - eapply Forall_impl; [exact HA|]. intros p Hp. cbn beta. by rewrite (find_setBlock _ _ _ _ _ Hb0).
Qed.

(** ** Rules and sync points together *)
Definition nativeRules (rs : list prule) : Prop := Forall (fun r => Forall native (pr_targets r)) rs.
Lemma uses_app a b : uses (a ++ b) = uses a ++ uses b.
Proof. unfold uses. by rewrite flat_map_app. Qed.
Lemma applyRules_ok fuel rs : forall mk ser sync us mk' ser' sync', tableFor mk us -> nativeRules rs ->
  applyRules fuel rs (mk, ser, sync) = POk (mk', ser', sync') ->
  tableFor mk' (us ++ uses (map strip rs)) /\ (ser' = true <-> ser = true \/ exists r, r ∈ rs /\ s2q ".NOTPARALLEL" ∈ pr_targets r) /\
  (forall d x, listedUnder sync' d x <-> listedUnder sync d x \/ exists r, r ∈ rs /\ listedUnder (snd (syncLoop [] [] [] (pr_deps r))) d x) /\
  (forall d, d ∈ keys sync' <-> d ∈ keys sync \/ exists r, r ∈ rs /\ d ∈ keys (snd (syncLoop [] [] [] (pr_deps r)))).
Proof.
  induction rs as [|r rs IH]; intros mk ser sync us mk' ser' sync' HT HN; cbn [applyRules].
  - intros [= <- <- <-]. cbn. rewrite app_nil_r. split_and!; [done| | |].
    + split; [by left|]. intros [?|(r & Hr & _)]; [done|by apply elem_of_nil in Hr].
    + intros d x. split; [by left|]. intros [?|(r & Hr & _)]; [done|by apply elem_of_nil in Hr].
    + intros d. split; [by left|]. intros [?|(r & Hr & _)]; [done|by apply elem_of_nil in Hr].
  - apply Forall_cons in HN as [Hn HN]. unfold applyRule. pose proof (syncLoop_deps (pr_deps r) [] [] []) as HD.
    destruct (syncLoop [] [] [] (pr_deps r)) as [deps pts] eqn:Es. cbn [fst app] in HD.
    change (Prule (pr_double r) (pr_targets r) deps (pr_cmds r)) with (Prule (pr_double r) (pr_targets r) deps (pr_cmds r)).
    rewrite HD. fold (strip r). destruct (addRule fuel (strip r) (pr_targets r) (mk, ser)) as [[mk1 ser1]| | |] eqn:E; try done. cbn [bindR].
    apply addRule_ok with (us := us) in E as [H1 H2]; [|done|done]. cbn [snd] in H2. intros H. apply IH with (us := us ++ usesIn (strip r) (pr_targets r)) in H; [|done|done].
    destruct H as (H3 & H4 & H5 & H6). split_and!.
    + rewrite <- app_assoc in H3. exact H3.
    + rewrite H4, H2. split.
      * intros [[?|?]|(r' & Hr & Hs)]; [by left|right; exists r; split; [by left|done]|right; exists r'; split; [by right|done]].
      * intros [?|(r' & Hr & Hs)]; [by left; left|]. apply elem_of_cons in Hr as [->|Hr]; [left; by right|]. right. by exists r'.
    + intros d x. rewrite H5, fold_listed. split.
      * intros [[?|?]|(r' & Hr & Hs)]; [right; exists r; rewrite Es; split; [by left|done]|by left|right; exists r'; split; [by right|done]].
      * intros [?|(r' & Hr & Hs)]; [left; by right|]. apply elem_of_cons in Hr as [->|Hr]; [rewrite Es in Hs; left; by left|]. right. by exists r'.
    + intros d. rewrite H6, fold_keys. split.
      * intros [[?|?]|(r' & Hr & Hs)]; [right; exists r; rewrite Es; split; [by left|done]|by left|right; exists r'; split; [by right|done]].
      * intros [?|(r' & Hr & Hs)]; [left; by right|]. apply elem_of_cons in Hr as [->|Hr]; [rewrite Es in Hs; left; by left|]. right. by exists r'.
Qed.

(** ** A mix of separators *)
Lemma addRuleFor_mixed fuel r mk n us : tableFor mk us -> native n -> addRuleFor fuel r mk n = PErr EMixed ->
  exists n' r', (n', r') ∈ us /\ sameName n n' /\ pr_double r' <> pr_double r.
Proof.
  intros (W & _ & HT & _) Hn. unfold addRuleFor. rewrite find_key by done.
  destruct (mk_targets mk !! keyOf n) as [b|] eqn:E.
  - rewrite E. destruct (_ && _) eqn:Em.
    + intros _. destruct (W _ _ E) as [Hk Hnb]. destruct (HT _ _ E) as (rs & Hrs & (r0 & rs' & -> & Ha & _) & _).
      assert (H : exists n', (n', r0) ∈ us /\ sameName (b_name b) n').
      { clear -Hrs. remember (r0 :: rs') as l eqn:El. revert El. induction Hrs as [|n r us rs Hs _ _|n r us rs Hs _ IH]; intros El; [done| |].
        - injection El as -> ->. exists n. split; [by left|done].
        - destruct (IH El) as (n' & Hi & Hn'). exists n'. split; [by right|done]. }
      destruct H as (n' & Hi & Hs). exists n', r0. split_and!; [done| |].
      * apply sameName_norm. apply sameName_norm in Hs. rewrite <- Hs. apply sameName_norm, sameName_lower; [done|done|exact Hk].
      * rewrite Ha in Em. destruct (pr_double r), (pr_double r0); done.
    + cbn [bindR]. rewrite E. destruct (expandDependents _ _ _ _) as [[?| |]|]; done.
  - cbn [bindR]. destruct (mk_targets (createTarget mk n []) !! keyOf n); [|done]. destruct (expandDependents _ _ _ _) as [[?| |]|]; done.
Qed.
Lemma addRule_mixed fuel r names : forall st us, tableFor (fst st) us -> Forall native names -> addRule fuel r names st = PErr EMixed ->
  exists n1 r1 n2 r2, (n1, r1) ∈ us ++ usesIn r names /\ (n2, r2) ∈ us ++ usesIn r names /\ sameName n1 n2 /\ pr_double r1 <> pr_double r2.
Proof.
  induction names as [|n names IH]; intros st us HT HN; cbn [addRule]; [done|].
  apply Forall_cons in HN as [Hn HN]. unfold usesIn. rewrite filter_cons. rewrite qeqb_dec.
  destruct (decide (n = s2q ".NOTPARALLEL")) as [->|Hs].
  - rewrite bool_decide_eq_true_2, decide_False by (done || by intros []). intros H. by apply (IH _ us) in H.
  - rewrite bool_decide_eq_false_2, decide_True by done. cbn [map]. destruct (addRuleFor fuel r (fst st) n) as [mk1|e| |] eqn:E; try done; cbn [bindR].
    + intros H. apply (IH _ (us ++ [(n, r)])) in H; [|cbn [fst]; by eapply addRuleFor_ok|done]. rewrite <- app_assoc in H. exact H.
    + intros [= ->]. apply addRuleFor_mixed with (us := us) in E as (n' & r' & Hi & Hs' & Hk); [|done|done].
      exists n, r, n', r'. split_and!; [apply elem_of_app; right; by left|apply elem_of_app; by left|done|done].
Qed.
Lemma applyRules_mixed fuel rs : forall mk ser sync us, tableFor mk us -> nativeRules rs -> applyRules fuel rs (mk, ser, sync) = PErr EMixed ->
  exists n1 r1 n2 r2, (n1, r1) ∈ us ++ uses (map strip rs) /\ (n2, r2) ∈ us ++ uses (map strip rs) /\ sameName n1 n2 /\ pr_double r1 <> pr_double r2.
Proof.
  induction rs as [|r rs IH]; intros mk ser sync us HT HN; cbn [applyRules]; [done|].
  apply Forall_cons in HN as [Hn HN]. unfold applyRule. pose proof (syncLoop_deps (pr_deps r) [] [] []) as HD.
  destruct (syncLoop [] [] [] (pr_deps r)) as [deps pts] eqn:Es. cbn [fst app] in HD. rewrite HD. fold (strip r).
  assert (EU : us ++ uses (map strip (r :: rs)) = (us ++ usesIn (strip r) (pr_targets r)) ++ uses (map strip rs)) by (rewrite <- app_assoc; done).
  rewrite EU. destruct (addRule fuel (strip r) (pr_targets r) (mk, ser)) as [[mk1 ser1]|e| |] eqn:E; try done; cbn [bindR].
  - apply addRule_ok with (us := us) in E as [H1 H2]; [|done|done]. intros H. by eapply IH.
  - intros [= ->]. apply addRule_mixed with (us := us) in E as (n1 & r1 & n2 & r2 & H1 & H2 & H3 & H4); [|done|done].
    exists n1, r1, n2, r2. split_and!; try done; apply elem_of_app; by left.
Qed.
Lemma tableFor_empty dir : tableFor (Mkfile ∅ None dir 0) [].
Proof. split_and!; [| | |]; cbn; try done. intros n r H. by apply elem_of_nil in H. Qed.
Lemma usesOf_in t us rs r : usesOf t us rs -> (exists n, (n, r) ∈ us /\ sameName t n) -> r ∈ rs.
Proof.
  induction 1 as [|n' r' us rs Hs _ IH|n' r' us rs Hs _ IH]; intros (n & Hi & Hn).
  - by apply elem_of_nil in Hi.
  - apply elem_of_cons in Hi as [Hi|Hi]; [injection Hi as -> ->; by left|]. right. apply IH. by exists n.
  - apply elem_of_cons in Hi as [Hi|Hi]; [injection Hi as -> ->; done|]. apply IH. by exists n.
Qed.

(** ** From lines to rules *)
Lemma trimmed_sub (s : list N) c : c ∈ trimmed s -> c ∈ s.
Proof.
  assert (D : forall s : list N, c ∈ dropSpaces s -> c ∈ s).
  { clear. induction s as [|x s IH]; cbn [dropSpaces]; [done|]. destruct (isSpace x); [intros H; right; by apply IH|done]. }
  unfold trimmed. intros H. apply D. apply elem_of_list_In, in_rev, elem_of_list_In, D in H. apply elem_of_list_In. rewrite in_rev. by apply elem_of_list_In.
Qed.
Lemma take_sub {A} n (s : list A) c : c ∈ take n s -> c ∈ s.
Proof. intros H. rewrite <- (take_drop n s). apply elem_of_app. by left. Qed.
Lemma drop_sub {A} n (s : list A) c : c ∈ drop n s -> c ∈ s.
Proof. intros H. rewrite <- (take_drop n s). apply elem_of_app. by right. Qed.
Lemma rdq_sub (s : list N) c : c ∈ removeDoubleQuotes s -> c ∈ s.
Proof.
  unfold removeDoubleQuotes, qremove, qchop. case_match; [|done]. cbn [firstn app]. intros H9. by apply drop_sub, take_sub in H9.
Qed.
Lemma appendName_native lst w : Forall native lst -> native w -> Forall native (appendName lst w).
Proof.
  intros Hl Hw. unfold appendName. cbv zeta. case_match; [done|]. apply Forall_app. split; [done|]. constructor; [|done].
  intros Hc. apply Hw. by apply rdq_sub, trimmed_sub in Hc.
Qed.
Lemma splitNames_native (s : list N) : forall q (cur : list N) lst, native cur -> Forall native lst -> native s -> Forall native (splitNamesGo q cur lst s).
Proof.
  assert (Snoc : forall (cur : list N) c, native cur -> c <> 47 -> native (cur ++ [c])).
  { intros cur c Hc Hn H. apply elem_of_app in H as [H|H]; [done|]. apply elem_of_list_singleton in H. done. }
  induction s as [|c s IH]; intros q cur lst Hc Hl Hs; cbn [splitNamesGo].
  - case_match; [done|by apply appendName_native].
  - assert (Hc0 : c <> 47) by (intros ->; apply Hs; by left). assert (Hs' : native s) by (intros H; apply Hs; by right).
    destruct (c =? 34); [apply IH; auto|]. destruct (negb q && isSpaceOrTab c).
    + destruct (isEmpty cur).
      * apply IH; try done. intros H. apply elem_of_list_singleton in H. done.
      * apply IH; [intros H; by apply elem_of_nil in H|by apply appendName_native|done].
    + apply IH; auto.
Qed.

Section source.
Context {R : Type} (next : bool -> R -> pres (option qstr * R)) (tab : R -> gmap qstr mdata).
Context (glob : qstr -> qstr -> list qstr) (isRel : qstr -> bool).
Notation pst := (pst R).
(** What only rules change. *)
Definition core (st : pst) : rstate := (s_mk st, s_serial st, s_sync st).
Lemma readL_core inl (st st' : pst) : readL next inl st = POk st' -> core st' = core st.
Proof. unfold readL. destruct (next inl (s_rd st)) as [[l r]| | |]; cbn; try done. by intros [= <-]. Qed.
Lemma inlineContent_core inf fuel : forall f (st : pst) f' st', inlineContent next tab fuel inf f st = POk (f', st') -> core st' = core st.
Proof.
  induction fuel as [|fuel IH]; intros f st f' st'; cbn [inlineContent]; [done|]. destruct (s_line st) as [line|]; [|by intros [= <- <-]].
  destruct (startsWith [60; 60] line); [by intros [= <- <-]|].
  destruct (if inf then POk line else expandL tab false line st) as [c| | |]; try done. cbn [bindR].
  destruct (readL next true st) as [st1| | |] eqn:E; try done. cbn [bindR]. intros H. apply IH in H. rewrite H. by eapply readL_core.
Qed.
Lemma inlineContents_core inf fuel names : forall (st : pst) fs st', inlineContents next tab fuel inf names st = POk (fs, st') -> core st' = core st.
Proof.
  induction names as [|n names IH]; intros st fs st'; cbn [inlineContents]; [by intros [= <- <-]|].
  destruct (readL next true st) as [st1| | |] eqn:E1; try done. cbn [bindR].
  destruct (inlineContent next tab fuel inf _ st1) as [[f st2]| | |] eqn:E2; try done. cbn [bindR].
  destruct (inlineContents next tab fuel inf names st2) as [[fs' st3]| | |] eqn:E3; try done. cbn [bindR].
  intros [= <- <-]. rewrite (IH _ _ _ E3), (inlineContent_core _ _ _ _ _ _ E2). by eapply readL_core.
Qed.
Lemma parseCommandLine_core fuel line inf (st : pst) c st' : parseCommandLine next tab fuel line inf st = POk (c, st') -> core st' = core st.
Proof.
  unfold parseCommandLine. cbv zeta. set (X := if inf then _ else _). destruct X as [cmd| | |]; try done. cbn [bindR].
  destruct (inlineNames _ _) as [l names]. destruct (inlineContents _ _ _ _ _ _) as [[fs st1]| | |] eqn:E; try done. cbn [bindR].
  intros [= <- <-]. by eapply inlineContents_core.
Qed.
Lemma skipEmpty_core fuel : forall (st : pst) b st', skipEmpty next fuel st = POk (b, st') -> core st' = core st.
Proof.
  induction fuel as [|fuel IH]; intros st b st'; cbn [skipEmpty]; [done|]. destruct (isEmpty _); [|by intros [= <- <-]].
  destruct (readL next false st) as [st1| | |] eqn:E; try done. cbn [bindR]. apply readL_core in E. destruct (s_line st1).
  - intros H. apply IH in H. congruence.
  - intros [= <- <-]. done.
Qed.
Lemma parseCommand_core fuel inf (st : pst) c st' : parseCommand next tab fuel inf st = POk (c, st') -> core st' = core st.
Proof.
  unfold parseCommand. destruct (skipEmpty next fuel st) as [[more st1]| | |] eqn:E; try done. cbn [bindR]. apply skipEmpty_core in E.
  destruct (_ && _); [|intros [= <- <-]; done]. destruct (parseCommandLine _ _ _ _ _ _) as [[c' st2]| | |] eqn:E2; try done. cbn [bindR].
  intros [= <- <-]. apply parseCommandLine_core in E2. congruence.
Qed.
Lemma parseCommands_core fuel inf n : forall (st : pst) cs st', parseCommands next tab n fuel inf st = POk (cs, st') -> core st' = core st.
Proof.
  induction n as [|n IH]; intros st cs st'; cbn [parseCommands]; [done|].
  destruct (parseCommand _ _ _ _ _) as [[c st1]| | |] eqn:E; try done. cbn [bindR]. apply parseCommand_core in E.
  destruct c as [c|]; [|intros [= <- <-]; done]. destruct (readL next false st1) as [st2| | |] eqn:E2; try done. cbn [bindR]. apply readL_core in E2.
  destruct (parseCommands _ _ _ _ _ _) as [[cs' st3]| | |] eqn:E3; try done. cbn [bindR]. intros [= <- <-]. apply IH in E3. congruence.
Qed.
Lemma readRule_core fuel line pos len sep (st : pst) r st' : readRule next tab glob isRel fuel line pos len sep st = POk (r, st') ->
  core st' = core st /\ Forall native (pr_targets r).
Proof.
  unfold readRule. destruct (expandL tab false _ st) as [target| | |]; try done. cbn [bindR].
  destruct (expandL tab true _ st) as [value| | |]; try done. cbn [bindR].
  set (X := match sep with Some _ => _ | None => _ end). destruct X as [[cs1 st1]| | |] eqn:E1; try done. cbn [bindR].
  assert (H1 : core st1 = core st).
  { unfold X in E1. destruct sep; [|by injection E1 as <- <-]. destruct (parseCommandLine _ _ _ _ _ _) as [[c s]| | |] eqn:E; try done.
    cbn [bindR] in E1. injection E1 as <- <-. by eapply parseCommandLine_core. }
  destruct (readL next false st1) as [st2| | |] eqn:E2; try done. cbn [bindR]. apply readL_core in E2.
  match goal with |- bindR ?Y _ = _ -> _ => destruct Y as [[cs2 st3]| | |] eqn:E3; try done end. cbn [bindR].
  intros [= <- <-]. cbn [pr_targets]. split.
  - destruct (isEmpty _).
    + destruct (readL next false st2) as [st4| | |] eqn:E4; try done. cbn [bindR] in E3. injection E3 as <- <-. apply readL_core in E4. congruence.
    + apply parseCommands_core in E3. congruence.
  - apply splitNames_native; [intros H; by apply elem_of_nil in H|constructor|apply native_toNative].
Qed.
Lemma parseLoop_rules fuel n : forall (st st' : pst), parseLoop next tab glob isRel n fuel st = POk st' ->
  exists rs, nativeRules rs /\ applyRules fuel rs (core st) = POk (core st').
Proof.
  induction n as [|n IH]; intros st st'; cbn [parseLoop]; [done|]. destruct (s_line st) as [line|].
  2: { intros [= <-]. exists []. split; [constructor|done]. }
  destruct (expandL tab false line st) as [ex| | |]; try done. cbn [bindR].
  match goal with |- bindR ?Y _ = _ -> _ => destruct Y as [st1| | |] eqn:E; try done end. cbn [bindR]. intros H. apply IH in H as (rs & Hn & Ha).
  assert (G : core st1 = core st -> exists rs, nativeRules rs /\ applyRules fuel rs (core st) = POk (core st')) by (intros <-; by exists rs).
  destruct (isEmpty _); [apply G; by eapply readL_core|]. destruct (dotDirective ex) as [[d v]|].
  { unfold parseDotDirective in E. apply readL_core in E. apply G. rewrite E. by repeat (destruct (qeqb _ _)). }
  destruct (inferenceRule ex) as [caps|].
  { unfold parseInferenceRule in E. destruct caps as [[[[fp fe] tp] te] cl]. destruct (readL next false st) as [s1| | |] eqn:E1; try done. cbn [bindR] in E.
    apply readL_core in E1. destruct (parseCommands _ _ _ _ _ _) as [[cs s2]| | |] eqn:E2; try done. cbn [bindR] in E. apply parseCommands_core in E2.
    injection E as <-. apply G. change (core s2 = core st). congruence. }
  destruct (removeComments line) as [l sep]. destruct (findRule l) as [[pos len]|]; [|done].
  unfold parseDescriptionBlock in E. destruct (readRule _ _ _ _ _ _ _ _ _ _) as [[r s1]| | |] eqn:E1; try done. cbn [bindR] in E.
  apply readRule_core in E1 as [H1 H2]. fold (core s1) in E. rewrite H1 in E.
  destruct (applyRule fuel r (core st)) as [[[mk ser] sync]| | |] eqn:E2; try done. cbn [bindR] in E. injection E as <-.
  exists (r :: rs). split; [by constructor|]. cbn [applyRules]. rewrite E2. exact Ha.
Qed.
Lemma parseFile_rules n fuel dir silent stop r (st : pst) : parseFile next tab glob isRel n fuel dir silent stop r = POk st ->
  exists rs, nativeRules rs /\ applyRules fuel rs (Mkfile ∅ None dir 0, false, []) = POk (core st).
Proof.
  unfold parseFile. destruct (readL _ _ _) as [st1| | |] eqn:E; try done. cbn [bindR]. apply readL_core in E. intros H.
  apply parseLoop_rules in H. rewrite E in H. exact H.
Qed.
End source.

(** ** Sync points of a rule *)
Lemma syncLoop_keys l : forall before group sd, keys (snd (syncLoop before group sd l)) = filter (fun d => d <> s2q ".SYNC") l.
Proof.
  induction l as [|d l IH]; intros before group sd; cbn [syncLoop]; [done|]. rewrite qeqb_dec, filter_cons.
  destruct (decide (d = s2q ".SYNC")) as [->|Hd].
  - rewrite bool_decide_eq_true_2, decide_False by (done || by intros []). destruct l as [|x l]; [done|apply IH].
  - rewrite bool_decide_eq_false_2, decide_True by done. specialize (IH (before ++ [d]) (group ++ [d]) sd).
    destruct (syncLoop _ _ _ l). cbn [snd keys map fst] in *. unfold keys in IH. by rewrite IH.
Qed.
Lemma groups_exist l : exists g gs, l = withSync g gs /\ Forall (fun g => s2q ".SYNC" ∉ g) (g :: gs).
Proof.
  induction l as [|d l (g & gs & -> & HF)].
  - exists [], []. split; [done|]. constructor; [apply not_elem_of_nil|constructor].
  - destruct (decide (d = s2q ".SYNC")) as [->|Hd].
    + exists [], (g :: gs). split; [done|]. constructor; [apply not_elem_of_nil|done].
    + apply Forall_cons in HF as [Hg HF]. exists (d :: g), gs. split; [by destruct gs|]. constructor; [|done]. intros H. apply elem_of_cons in H as [H|H]; [by rewrite H in Hd|done].
Qed.
Lemma listed_waits g gs d x : Forall (fun g => s2q ".SYNC" ∉ g) (g :: gs) ->
  listedUnder (snd (syncLoop [] [] [] (withSync g gs))) d x <-> waits g gs d x.
Proof.
  intros HF. apply Forall_cons in HF as [Hg HF]. rewrite syncLoop_points by done. unfold listedUnder, waits. cbn [app]. split.
  - intros (ds & Hi & Hx). apply elem_of_app in Hi as [Hi|Hi].
    + apply elem_of_list_In, in_map_iff in Hi as (y & [= -> <-] & _). by apply elem_of_nil in Hx.
    + apply points_in in Hi as (k & b & H1 & H2 & H3). exists k, ds, b. done.
  - intros (k & a & b & H1 & H2 & Hx & Hd). exists a. split; [|done]. apply elem_of_app. right. apply points_in. exists k, b. done.
Qed.
Lemma Permutation_listed s1 s2 d x : s1 ≡ₚ s2 -> listedUnder s1 d x <-> listedUnder s2 d x.
Proof. intros P. unfold listedUnder. by setoid_rewrite P. Qed.
Lemma applySync_lookup sync : forall mk t b, mk_targets mk !! t = Some b -> exists b', mk_targets (applySync sync mk) !! t = Some b'.
Proof.
  induction sync as [|[k ds] sync IH]; intros mk t b H; cbn [applySync]; [by exists b|].
  destruct (mk_find mk k) as [t0|]; [|by exists b]. destruct (mk_targets mk !! t0) as [b0|] eqn:E; [|by exists b].
  destruct (decide (t0 = t)) as [->|Hn].
  - eapply IH. rewrite setBlock_lookup, decide_True by done. done.
  - eapply IH. rewrite setBlock_lookup, decide_False by done. exact H.
Qed.
