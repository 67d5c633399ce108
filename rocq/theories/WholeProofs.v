(** From the text of a makefile to the graph of a build: what is written there is not lost on the way. *)
From Coq Require Import Ascii String.
From stdpp Require Import prelude gmap.
From RecordUpdate Require Import RecordSet.
From Verif Require Import Base BaseProofs Data Infer UpToDate Graph Exec ExecSpec SchedInv Macro Env Opts OptsSpec LineReader Preproc Front FrontSpec FileMacros FileMacrosProofs FileCacheProofs MkParse RulesSpec RulesProofs CmdExec
  Main MainSpec MainProofs OriginProofs.
Import RecordSetNotations.
Local Open Scope N_scope.

(** ** The end of parsing *)
Lemma preselect_ind2 (P : mkfile -> Prop) (ok : qstr -> Prop) exts rules :
  (forall mk t b d, P mk -> mk_targets mk !! t = Some b -> d ∈ b_deps b -> ok d) ->
  (forall mk t, P mk -> P (selectOwn exts rules mk t)) ->
  (forall mk d, P mk -> ok d -> mk_find mk d = None -> P (createTarget mk (removeDoubleQuotes d) (findRules exts rules (removeDoubleQuotes d)))) ->
  forall fuel st t st', preselect fuel exts rules st t = Some st' -> P (fst st) -> P (fst st').
Proof.
  intros HO HS HC. induction fuel as [|fuel IH]; intros st t st' H HP; [done|]. cbn [preselect] in H.
  destruct (decide (t ∈ snd st)); [by injection H as <-|].
  assert (HD : forall deps st1 st2, Forall ok deps -> preselectDeps (preselect fuel exts rules) exts rules deps st1 = Some st2 -> P (fst st1) -> P (fst st2)).
  { intros deps. induction deps as [|d deps IHd]; intros st1 st2 Ho H1 HP1; [by injection H1 as <-|]. cbn [preselectDeps] in H1. apply Forall_cons in Ho as [Hd Ho].
    destruct (mk_find (fst st1) d) as [c|] eqn:Ef.
    - destruct (preselect fuel exts rules st1 c) as [st3|] eqn:E; [|done]. eapply IHd; [done|done|]. by eapply IH.
    - cbv zeta in H1. eapply IHd; [done|done|]. destruct (isNil _) eqn:En; [done|]. cbn [fst]. by apply HC. }
  cbv zeta in H. destruct (preselectDeps _ _ _ _ _) as [[mk2 pre]|] eqn:E; [|done]. injection H as <-. cbn [fst].
  assert (P1 : P (selectOwn exts rules (fst st) t)) by by apply HS.
  refine (HD _ _ _ _ E P1). apply Forall_forall. intros d Hd. unfold depsOf in Hd.
  destruct (mk_targets (selectOwn exts rules (fst st) t) !! t) as [b|] eqn:Eb; [|by apply elem_of_nil in Hd]. by eapply HO.
Qed.
Lemma checkRoots_ind2 (P : mkfile -> Prop) (ok : qstr -> Prop) exts rules :
  (forall mk t b d, P mk -> mk_targets mk !! t = Some b -> d ∈ b_deps b -> ok d) ->
  (forall mk t, P mk -> P (selectOwn exts rules mk t)) ->
  (forall mk d, P mk -> ok d -> mk_find mk d = None -> P (createTarget mk (removeDoubleQuotes d) (findRules exts rules (removeDoubleQuotes d)))) ->
  forall names mk done pre mk' done', checkRoots exts rules mk done pre names = Ok (mk', done') -> P mk -> P mk'.
Proof.
  intros HO HS HC. induction names as [|n names IH]; intros mk dn pre mk' dn' H HP; cbn [checkRoots] in H; [by injection H as <- _|].
  destruct (mk_find mk n) as [t|]; [|done]. destruct (checkForCycles _ _ _ _ _); try done.
  destruct (preselect _ _ _ _ _) as [[mk1 pre1]|] eqn:E; [|done]. eapply IH; [done|].
  by apply (preselect_ind2 P ok exts rules HO HS HC _ _ _ _ E).
Qed.
(** Nothing of [mk0] is lost in [mk], and names mean what they meant. *)
Record keeping (mk0 mk : mkfile) : Prop := {
  kp_old : forall t b0, mk_targets mk0 !! t = Some b0 -> exists b, mk_targets mk !! t = Some b /\ b_name b = b_name b0 /\ b_cmds b = b_cmds b0 /\ forall d, d ∈ b_deps b0 -> d ∈ b_deps b;
  kp_find : forall d t, mk_find mk0 d = Some t -> mk_find mk d = Some t;
  kp_quotes : forall t b d, mk_targets mk !! t = Some b -> d ∈ b_deps b -> 34 ∉ (d : list N);
}.
Lemma unquoted (d : qstr) : 34 ∉ (d : list N) -> removeDoubleQuotes d = d.
Proof.
  intros H. unfold removeDoubleQuotes. destruct d as [|c d]; [done|]. apply not_elem_of_cons in H as [H _].
  cbn [startsWith]. destruct (N.eqb_spec 34 c); [done|]. by rewrite ?andb_false_l.
Qed.
Lemma keeping_select exts rules mk0 mk t : keeping mk0 mk -> keeping mk0 (selectOwn exts rules mk t).
Proof.
  intros [O F Q]. unfold selectOwn. destruct (mk_targets mk !! t) as [b|] eqn:E; [|by split]. destruct (isNil (b_cmds b)); [|by split].
  destruct (isNil (findRules _ _ _)); [by split|]. split.
  - intros k b0 Hb. destruct (O _ _ Hb) as (b1 & H1 & H2 & H3 & H4). rewrite setBlock_lookup. destruct (decide (t = k)) as [<-|]; [|by exists b1].
    rewrite E in H1. injection H1 as ->. by eexists.
  - intros d k Hd. erewrite find_setBlock by exact E. by apply F.
  - intros k x d. rewrite setBlock_lookup. destruct (decide (t = k)) as [<-|]; [|by apply Q]. intros [= <-]. by apply (Q _ _ _ E).
Qed.
Lemma keeping_create rules mk0 mk (d : qstr) : keeping mk0 mk -> 34 ∉ (d : list N) -> mk_find mk d = None -> keeping mk0 (createTarget mk (removeDoubleQuotes d) rules).
Proof.
  intros [O F Q] Hq Hf. rewrite (unquoted _ Hq).
  assert (HN : mk_targets mk !! keyOf d = None). { revert Hf. unfold mk_find. cbv zeta. case_match eqn:E; [done|]. intros _. exact E. }
  split.
  - intros k b0 Hb. destruct (O _ _ Hb) as (b1 & H1 & H2). exists b1. cbn [createTarget mk_targets]. rewrite lookup_insert_ne; [done|]. intros <-. rewrite HN in H1. discriminate.
  - intros x k Hx. apply F in Hx.
    assert (E1 : toLower d <> toLower x). { intros E. enough (mk_find mk x = mk_find mk d) by congruence. unfold mk_find. cbv zeta. by rewrite E. }
    assert (L : forall k : tid, keyOf d <> k -> mk_targets (createTarget mk d rules) !! k = mk_targets mk !! k).
    { intros k0 Hk. cbn [createTarget mk_targets]. by rewrite lookup_insert_ne. }
    revert Hx. unfold mk_find. cbv zeta. case_match eqn:M1.
    + intros Hx. case_match eqn:M2; [exact Hx|]. pose proof (eq_trans (eq_sym (L _ E1)) M2) as X. pose proof (eq_trans (eq_sym M1) X). discriminate.
    + case_match eqn:M2; [|done]. intros Hx. case_match eqn:M3; [pose proof (eq_trans (eq_sym (L _ E1)) M3) as X; pose proof (eq_trans (eq_sym M1) X); discriminate|].
      case_match eqn:M4; [exact Hx|]. exfalso. assert (E2 : keyOf d <> replaceChar 47 92 (toLower x)). { intros E. rewrite E in HN. pose proof (eq_trans (eq_sym M2) HN). discriminate. }
      pose proof (eq_trans (eq_sym (L _ E2)) M4) as X. pose proof (eq_trans (eq_sym M2) X). discriminate.
  - intros k b x. cbn [createTarget mk_targets]. destruct (decide (keyOf d = k)) as [<-|]; [|rewrite lookup_insert_ne by done; by apply Q].
    rewrite lookup_insert. intros [= <-] Hx. cbn in Hx. by apply elem_of_nil in Hx.
Qed.
Lemma keeping_sync sync : forall mk0 mk, (forall d x, listedUnder sync d x -> 34 ∉ (x : list N)) -> keeping mk0 mk -> keeping mk0 (applySync sync mk).
Proof.
  induction sync as [|[k ds] sync IH]; intros mk0 mk HQ HK; [done|]. cbn [applySync]. destruct (mk_find mk k) as [t|]; [|done].
  destruct (mk_targets mk !! t) as [b|] eqn:E; [|done]. apply IH.
  { intros d x (l & H1 & H2). apply (HQ d x). exists l. split; [by right|done]. }
  destruct HK as [O F Q]. split.
  - intros k' b0 Hb. destruct (O _ _ Hb) as (b1 & H1 & H2 & H3 & H4). rewrite setBlock_lookup. destruct (decide (t = k')) as [<-|]; [|by exists b1].
    rewrite E in H1. injection H1 as ->. eexists. split_and!; [done|done|done|]. intros d Hd. cbn. apply removeDups_in, elem_of_app. left. by apply H4.
  - intros d k' Hd. erewrite find_setBlock by exact E. by apply F.
  - intros k' x d. rewrite setBlock_lookup. destruct (decide (t = k')) as [<-|]; [|by apply Q]. intros [= <-]. cbn. rewrite removeDups_in, elem_of_app.
    intros [H|H]; [by apply (Q _ _ _ E)|]. apply (HQ k d). exists ds. split; [left|done].
Qed.
Lemma finish_keeping exts sfx irules sync mk0 active mk names : (forall d x, listedUnder sync d x -> 34 ∉ (x : list N)) ->
  (forall t b d, mk_targets mk0 !! t = Some b -> d ∈ b_deps b -> 34 ∉ (d : list N)) ->
  finishParse exts sfx irules sync mk0 active = Ok (mk, names) -> keeping mk0 mk.
Proof.
  intros HS HQ. assert (K0 : keeping mk0 mk0). { split; [|done|exact HQ]. intros t b0 Hb. by exists b0. }
  unfold finishParse. destruct (decide (mk_targets mk0 = ∅)); [by intros [= <- _]|].
  destruct (existsb _ _); [done|]. set (names' := match active with [] => _ | _ => _ end). destruct names' as [ns|]; [|done].
  destruct (checkRoots _ _ _ _ _ _) as [[mk1 dn]| | | |] eqn:E; try done. destruct (resetRoots _ _ _); [|done]. intros [= <- _].
  eapply (checkRoots_ind2 (keeping mk0) (fun d => 34 ∉ (d : list N))); [| | |exact E|by apply keeping_sync].
  - intros m t b d [_ _ Q]. by apply Q.
  - intros m t. apply keeping_select.
  - intros m d. apply keeping_create.
Qed.

(** ** What the rules give *)
Lemma syncLoop_from l : forall before group sd d x, listedUnder (snd (syncLoop before group sd l)) d x -> x ∈ group \/ x ∈ sd \/ x ∈ l.
Proof.
  induction l as [|y l IH]; intros before group sd d x; cbn [syncLoop].
  - intros (ds & H & _). by apply elem_of_nil in H.
  - destruct (qeqb y (s2q ".SYNC")).
    + destruct l as [|z l]; [intros (ds & H & _); by apply elem_of_nil in H|]. intros [H|[H|H]]%IH; [by apply elem_of_nil in H|by left|]. right. right. by right.
    + specialize (IH (before ++ [y]) (group ++ [y]) sd d x). destruct (syncLoop (before ++ [y]) (group ++ [y]) sd l) as [ds pts]. cbn [snd] in *.
      intros (l0 & H & Hx). apply elem_of_cons in H as [[= -> ->]|H]; [by right; left|].
      destruct IH as [H1|[H1|H1]]; [by exists l0| |by right; left|right; right; by right].
      apply elem_of_app in H1 as [H1|H1]; [by left|]. apply elem_of_list_singleton in H1 as ->. right. right. left.
Qed.
Lemma expandsTo_plain target (d d' : qstr) : magicEscape ∉ (d : list N) -> expandsTo target d d' -> d' = d.
Proof.
  intros Hd.
  assert (G : forall deps tm fuel e, expandName target deps tm fuel None true d = Some (FOk e) -> e = d).
  { intros deps tm fuel e. destruct fuel as [|fuel]; [done|]. unfold expandName. cbn [expandNames].
    pose proof (cut_clean d [] Hd) as E. rewrite app_nil_r in E. rewrite E. cbn. by intros [= <-]. }
  induction 1 as [e fuel deps tm H|e0 d2 fuel deps tm e H _ IH]; [by eapply G|]. apply G in H as ->. by apply IH.
Qed.
