(** C11: dependency cycles; C42 for the whole program. *)
From Coq Require Import Relations Ascii String.
From stdpp Require Import prelude gmap relations.
From Verif Require Import Base BaseProofs Data Infer UpToDate UpToDateProofs Graph Exec ExecSpec Front FrontSpec FrontProofs ExecEx ExecProps2.

(** The names that are checked. *)
Lemma names_of mk active names : hasFirst mk -> mk_targets mk <> ∅ ->
  (forall n, n ∈ active -> is_Some (mk_find mk n)) ->
  match active with
  | [] => match mk_first mk with
          | Some t => match mk_targets mk !! t with Some b => Some [b_name b] | None => None end
          | None => None
          end
  | _ => Some active
  end = Some names ->
  (forall n, n ∈ names -> is_Some (mk_find mk n)) /\
  (forall t, asksFor mk active t <-> exists n, n ∈ names /\ mk_find mk n = Some t).
Proof.
  intros Hf Hne Hall. destruct (Hf Hne) as (t & b & Ht & Hb & Hk).
  assert (Hfind : mk_find mk (b_name b) = Some t).
  { unfold mk_find. cbn zeta. destruct (mk_targets mk !! toLower (b_name b)) eqn:E.
    - f_equal. exact Hk.
    - exfalso. unfold keyOf in Hk. rewrite <- Hk in Hb. clear -Hb E. unfold tid, qstr, qchar in *. congruence. }
  destruct active as [|n ns].
  - rewrite Ht, Hb. intros [= <-]. split.
    + intros n Hn. apply elem_of_list_singleton in Hn as ->. by rewrite Hfind.
    + intros t'. split.
      * intros [[_ E]|(n & Hn & _)]; [|by apply elem_of_nil in Hn].
        exists (b_name b). split; [left|]. congruence.
      * intros (n & Hn & E). apply elem_of_list_singleton in Hn as ->. left. split; [done|]. congruence.
  - intros [= <-]. split; [done|]. intros t'. split.
    + intros [[E _]|H]; [done|done].
    + intros H. by right.
Qed.

(** All that can come out of the end of parsing. *)
Lemma finish_cases exts sfx rules sync mk active : hasFirst mk -> mk_targets mk <> ∅ ->
  (forall n, n ∈ active -> is_Some (mk_find mk n)) ->
  exists names,
    (forall n, n ∈ names -> is_Some (mk_find mk n)) /\
    (forall t, asksFor mk active t <-> exists n, n ∈ names /\ mk_find mk n = Some t) /\
    match checkRoots exts (calculatePriorities sfx rules) (applySync sync mk) [] [] names with
    | Ok (mk', done) => finishParse exts sfx rules sync mk active = Ok (mk', names)
    | Throws => finishParse exts sfx rules sync mk active = Throws
    | _ => False
    end.
Proof.
  intros Hf Hne Hall. unfold finishParse. rewrite decide_False by done.
  assert (existsb (fun n => match mk_find mk n with None => true | Some _ => false end) active = false) as ->.
  { apply not_true_is_false. intros H. apply existsb_exists in H as (n & Hn & Hx).
    destruct (Hall n) as [k Hk]; [by apply elem_of_list_In|]. by rewrite Hk in Hx. }
  pose proof (names_of mk active) as Hnames.
  destruct (match active with [] => _ | _ => _ end) as [names|] eqn:E.
  2:{ exfalso. destruct (Hf Hne) as (t & b & Ht & Hb & Hk). destruct active; [|done]. by rewrite Ht, Hb in E. }
  destruct (Hnames names Hf Hne Hall eq_refl) as [H1 H2]. exists names. split; [done|]. split; [done|].
  assert (Hd0 : okDone (applySync sync mk) []) by (intros x Hx; by apply elem_of_nil in Hx).
  assert (Hn0 : forall n, n ∈ names -> is_Some (mk_find (applySync sync mk) n)).
  { intros n Hn. rewrite applySync_find. by apply H1. }
  pose proof (checkRoots_ok exts (calculatePriorities sfx rules) (applySync sync mk) [] [] names Hd0 Hn0) as Hc.
  destruct (checkRoots _ _ _ _ _ _) as [[mk' dn]| | | |]; try done.
  destruct Hc as (_ & Hdn & _). destruct (resetRoots_ok mk' dn names Hdn) as [x Hx]. by rewrite Hx.
Qed.

Lemma finish_throws exts sfx rules sync mk active n : mk_targets mk <> ∅ -> n ∈ active -> mk_find mk n = None ->
  finishParse exts sfx rules sync mk active = Throws.
Proof.
  intros Hne Hn Hf. unfold finishParse. rewrite decide_False by done.
  assert (existsb (fun n => match mk_find mk n with None => true | Some _ => false end) active = true) as ->; [|done].
  apply existsb_exists. exists n. split; [by apply elem_of_list_In|]. by rewrite Hf.
Qed.
Lemma all_or_not mk (l : list qstr) : (forall n, n ∈ l -> is_Some (mk_find mk n)) \/ exists n, n ∈ l /\ mk_find mk n = None.
Proof.
  induction l as [|n l [H|(m & Hm & E)]].
  - left. intros n Hn. by apply elem_of_nil in Hn.
  - destruct (mk_find mk n) as [k|] eqn:E.
    + left. intros m Hm. apply elem_of_cons in Hm as [->|Hm]; [eauto|by apply H].
    + right. exists n. split; [left|done].
  - right. exists m. split; [by right|done].
Qed.

(** *** C11 *)

(** If a cycle is reported, there is one among the targets reachable from a requested one (sync points
    included), unless a requested name is no target at all. *)
Theorem C11_reported exts sfx rules sync mk active :
  hasFirst mk -> finishParse exts sfx rules sync mk active = Throws ->
  (exists n, n ∈ active /\ mk_find mk n = None)
  \/ exists t, asksFor mk active t /\ cycleReachable (applySync sync mk) t.
Proof.
  intros Hf H. destruct (decide (mk_targets mk = ∅)) as [E|Hne].
  { unfold finishParse in H. by rewrite decide_True in H. }
  destruct (all_or_not mk active) as [Hall|Hno]; [|by left]. right.
  destruct (finish_cases exts sfx rules sync mk active Hf Hne Hall) as (names & H1 & H2 & H3).
  assert (Hd0 : okDone (applySync sync mk) []) by (intros x Hx; by apply elem_of_nil in Hx).
  assert (Hn0 : forall n, n ∈ names -> is_Some (mk_find (applySync sync mk) n)).
  { intros n Hn. rewrite applySync_find. by apply H1. }
  pose proof (checkRoots_ok exts (calculatePriorities sfx rules) (applySync sync mk) [] [] names Hd0 Hn0) as Hc.
  destruct (checkRoots _ _ _ _ _ _) as [[mk' dn]| | | |]; try done.
  - congruence.
  - destruct Hc as (n & t & Hn & Ht & Hcy). exists t. split; [|done]. apply H2. exists n.
    split; [done|]. by rewrite applySync_find in Ht.
Qed.
Print Assumptions C11_reported.

(** If a requested target reaches a cycle, the parser throws, and main returns 2 before the executor
    exists (makefilefactory.cpp:168-172, main.cpp:163-173).  The dependents are not quoted (otherwise a target created for a quoted
    name may take the place of another). *)
Theorem C11_always_reported exts sfx rules sync mk active t :
  hasFirst mk -> plainDeps (applySync sync mk) -> asksFor mk active t -> cycleReachable (applySync sync mk) t ->
  finishParse exts sfx rules sync mk active = Throws.
Proof.
  intros Hf Hp Ha Hc.
  assert (Hne : mk_targets mk <> ∅).
  { intros E. apply cycle_is in Hc. destruct (proj1 (applySync_dom sync mk t) Hc) as [b Hb]. by rewrite E in Hb. }
  destruct (all_or_not mk active) as [Hall|(n & Hn & En)]; [|by eapply finish_throws].
  destruct (finish_cases exts sfx rules sync mk active Hf Hne Hall) as (names & H1 & H2 & H3).
  apply H2 in Ha as (n & Hn & Ht).
  rewrite (checkRoots_throws _ _ _ _ _ _ n t) in H3; [done|..|done]; try done.
  - intros x Hx. by apply elem_of_nil in Hx.
  - intros m Hm. rewrite applySync_find. by apply H1.
  - by rewrite applySync_find.
Qed.
Print Assumptions C11_always_reported.

(** After parsing without an exception, no requested name leads to a cycle, whatever targets were created. *)
Theorem C11_not_reported exts sfx rules sync mk active mk' names :
  hasFirst mk -> finishParse exts sfx rules sync mk active = Ok (mk', names) ->
  forall n t, n ∈ names -> mk_find mk' n = Some t -> ~ cycleReachable mk' t.
Proof.
  intros Hf H. destruct (decide (mk_targets mk = ∅)) as [E|Hne].
  { unfold finishParse in H. rewrite decide_True in H by done. injection H as <- <-.
    intros n t Hn Ht. apply mk_find_is in Ht as [b Hb]. by rewrite E in Hb. }
  destruct (all_or_not mk active) as [Hall|(n & Hn & En)].
  2:{ rewrite (finish_throws exts sfx rules sync mk active n) in H by done. done. }
  destruct (finish_cases exts sfx rules sync mk active Hf Hne Hall) as (names' & H1 & H2 & H3).
  assert (Hd0 : okDone (applySync sync mk) []) by (intros x Hx; by apply elem_of_nil in Hx).
  assert (Hn0 : forall n, n ∈ names' -> is_Some (mk_find (applySync sync mk) n)).
  { intros n Hn. rewrite applySync_find. by apply H1. }
  pose proof (checkRoots_ok exts (calculatePriorities sfx rules) (applySync sync mk) [] [] names' Hd0 Hn0) as Hc.
  destruct (checkRoots _ _ _ _ _ _) as [[mk2 dn]| | | |]; try done; [|congruence].
  rewrite H in H3. injection H3 as <- <-. by destruct Hc as (_ & _ & Hc).
Qed.
Print Assumptions C11_not_reported.

(** The check, the preselection of rules and the clearing of the flags end on every makefile, and nothing
    is dereferenced that is not there. *)
Theorem C11_terminates exts sfx rules sync mk active :
  hasFirst mk ->
  finishParse exts sfx rules sync mk active = Throws
  \/ exists mk' names, finishParse exts sfx rules sync mk active = Ok (mk', names).
Proof.
  intros Hf. destruct (decide (mk_targets mk = ∅)) as [E|Hne].
  { right. exists mk, active. unfold finishParse. by rewrite decide_True. }
  destruct (all_or_not mk active) as [Hall|(n & Hn & En)]; [|left; by eapply finish_throws].
  destruct (finish_cases exts sfx rules sync mk active Hf Hne Hall) as (names & H1 & H2 & H3).
  destruct (checkRoots _ _ _ _ _ _) as [[mk2 dn]| | | |]; try done; [|by left].
  right. by exists mk2, names.
Qed.
Print Assumptions C11_terminates.

(** What is missing: the dependency graph (dependencygraph.cpp:190-199) also looks names up relative to
    the makefile's directory, the cycle check does not. Where that makes no difference, the build starts
    without cycles. *)
Lemma tc_clos mk (H : forall t b d, mk_targets mk !! t = Some b -> d ∈ b_deps b -> resolveDep mk d = mk_find mk d) x y :
  dependsTrans mk x y -> tc (edge mk) x y.
Proof.
  assert (Hs : forall x y, dependsOn mk x y -> edge mk x y).
  { intros a b (bl & d & Hb & Hd & Hr). exists bl, d. split; [done|]. split; [done|]. by rewrite <- (H a bl d Hb Hd). }
  induction 1 as [x y H1|x y z H1 _ IH]; [apply tc_once; by apply Hs|]. eapply tc_l; [apply Hs; exact H1|exact IH].
Qed.
Theorem C11_build_acyclic_partial exts sfx rules sync mk active mk' names n t :
  hasFirst mk -> finishParse exts sfx rules sync mk active = Ok (mk', names) ->
  (forall u b d, mk_targets mk' !! u = Some b -> d ∈ b_deps b -> resolveDep mk' d = mk_find mk' d) ->
  n ∈ names -> mk_find mk' n = Some t -> acyclicFrom mk' t.
Proof.
  intros Hf H Hr Hn Ht u Hu Hc.
  apply (C11_not_reported _ _ _ _ _ _ _ _ Hf H n t Hn Ht). exists u. split.
  - destruct Hu as [->|Hu]; [done|]. apply tc_rtc. by apply tc_clos.
  - by apply tc_clos.
Qed.
Print Assumptions C11_build_acyclic_partial.

(** a: b / b: c / c: a d / d, asked for d (fine) and for a (reported). *)
Definition ring : mkfile := exMk
  [exBlock "a" ["b"]%string [exCmd "x" 0]; exBlock "b" ["C"]%string [];
   exBlock "c" ["a"; "d"]%string []; exBlock "d" []%string [exCmd "y" 0]].
Lemma ring_edges : edge ring (T "a") (T "b") /\ edge ring (T "b") (T "c") /\ edge ring (T "c") (T "a").
Proof.
  split_and!.
  - eexists _, (T "b"). split; [vm_compute; reflexivity|]. split; [left|vm_compute; reflexivity].
  - eexists _, (T "C"). split; [vm_compute; reflexivity|]. split; [left|vm_compute; reflexivity].
  - eexists _, (T "a"). split; [vm_compute; reflexivity|]. split; [left|vm_compute; reflexivity].
Qed.
Lemma hasFirst_ex b bs : keyOf (b_name (snd b)) = fst b -> hasFirst (exMk (b :: bs)).
Proof.
  intros E _. exists (fst b), (snd b). split; [done|]. split; [|done].
  unfold exMk. cbn [mk_targets]. destruct b as [t bl]. cbn. by rewrite lookup_insert.
Qed.

Example C11_case_cycle :
  hasFirst ring /\ plainDeps (applySync [] ring) /\ asksFor ring [T "d"; T "B"] (T "b")
  /\ cycleReachable (applySync [] ring) (T "b")
  /\ finishParse [] [] [] [] ring [T "d"; T "B"] = Throws
  /\ exists mk' names, finishParse [] [] [] [] ring [T "d"] = Ok (mk', names).
Proof.
  split; [by apply hasFirst_ex|]. split; [|split; [|split; [|split]]].
  - intros t b d Hb Hd. cbn [applySync] in Hb. unfold ring, exMk in Hb. cbn [mk_targets] in Hb.
    apply elem_of_list_to_map_2 in Hb. cbn in Hb.
    repeat (apply elem_of_cons in Hb as [Hb|Hb]; [injection Hb as -> ->; cbn in Hd;
      repeat (apply elem_of_cons in Hd as [->|Hd]; [by vm_compute|]); by apply elem_of_nil in Hd|]).
    by apply elem_of_nil in Hb.
  - right. exists (T "B"). split; [right; left|by vm_compute].
  - destruct ring_edges as (H1 & H2 & H3). exists (T "b"). split; [done|].
    eapply tc_l; [exact H2|]. eapply tc_l; [exact H3|]. apply tc_once. exact H1.
  - by vm_compute.
  - eexists _, _. vm_compute. reflexivity.
Qed.

(** The names of sync points count as well, and rules create targets. *)
Definition ruleMk : mkfile := exMk [exBlock "all" ["x.obj"; "y.obj"]%string [exCmd "link" 0]; exBlock "gen" ["all"]%string []].
Definition objRule : rule := Rule 0 false [46]%N (s2q ".c") [46]%N (s2q ".obj") (-1) [exCmd "cl" 0].
Example C11_case_ok :
  hasFirst ruleMk
  /\ finishParse [s2q ".obj"] [s2q ".c"] [objRule] [(T "all", [T "gen"])] ruleMk [] = Throws
  /\ exists mk', finishParse [s2q ".obj"] [s2q ".c"] [objRule] [] ruleMk [] = Ok (mk', [T "all"])
       /\ mk_targets ruleMk !! T "x.obj" = None
       /\ option_map (fun b => length (b_rules b)) (mk_targets mk' !! T "x.obj") = Some 1.
Proof.
  split; [by apply hasFirst_ex|]. split; [by vm_compute|]. eexists. split; [vm_compute; reflexivity|].
  split; by vm_compute.
Qed.

(** The cycle  c:\p\a: b / b: a  in a makefile in c:\p is not reported, because the check does not see that a
    stands for c:\p\a. The dependency graph then has no leaf, so nothing is built and jom ends with 0. *)
Definition aliasMk : mkfile :=
  let m := exMk [exBlock "c:\p\a" ["b"]%string [exCmd "mka" 0]; exBlock "b" ["a"]%string [exCmd "mkb" 0]] in
  Mkfile (mk_targets m) (mk_first m) (s2q "c:\p") 0.
Theorem C11_refuted : exists mk mk' names es s,
  hasFirst mk /\ finishParse [] [] [] [] mk [] = Ok (mk', names)
  /\ (exists t, mk_find mk' (hd [] names) = Some t /\ dependsTrans mk' t t)
  /\ buildRun exXp exPrep exKind exW (exOpts false 2) mk' names es s
  /\ e_end s = Some (EExit 0) /\ map brief (e_log s) = [("root", "c:\p\a", "")]%string.
Proof.
  exists aliasMk, aliasMk, [T "c:\p\a"], [EvStart go], (exFinal exW (exOpts false 2) aliasMk [T "c:\p\a"] [EvStart go]).
  split.
  { intros _. exists (T "c:\p\a"), (snd (exBlock "c:\p\a" ["b"]%string [exCmd "mka" 0])). by vm_compute. }
  split; [by vm_compute|]. split.
  { exists (T "c:\p\a"). split; [by vm_compute|]. eapply Relation_Operators.t1n_trans with (y := T "b").
    - eexists _, (T "b"). split; [vm_compute; reflexivity|]. split; [left|vm_compute; reflexivity].
    - apply Relation_Operators.t1n_step. eexists _, (T "a"). split; [vm_compute; reflexivity|]. split; [left|vm_compute; reflexivity]. }
  split; [apply exRun_build; by vm_compute|]. split; by vm_compute.
Qed.
Print Assumptions C11_refuted.

(** *** C42, whole program *)

(** The parser refuses names that are not targets, so of the reasons for a crash in C42_crash_reasons only
    two remain. *)
Theorem C42_crash_reasons_program exts sfx rules sync mk0 active mk names xp prep kind w o es s :
  hasFirst mk0 -> finishParse exts sfx rules sync mk0 active = Ok (mk, names) ->
  startable o mk -> buildRun xp prep kind w o mk names es s -> e_end s = Some ECrash ->
  (exists t n b, mk_targets (e_mk s) !! t = Some b /\ b_cmds b <> [] /\ prep (e_mk s) t n = Some []) \/ exists e, e ∈ es /\ launchFails e.
Proof.
  intros Hf H Hs Hr He.
  destruct (C42_crash_reasons _ _ _ _ _ _ _ _ _ Hs Hr He) as [Hno|?]; [|done]. exfalso.
  destruct (decide (mk_targets mk0 = ∅)) as [E|Hne].
  { unfold finishParse in H. rewrite decide_True in H by done. injection H as <- <-.
    assert (Hnone : forall n, mk_find mk0 n = None).
    { intros n. destruct (mk_find mk0 n) eqn:Ef; [|done]. apply mk_find_is in Ef as [b Hb]. by rewrite E in Hb. }
    destruct Hr as (s0 & Ha & _). unfold apply in Ha. destruct active as [|n ns].
    - cbn in Hno. rewrite decide_True in Hno by done. by apply elem_of_nil in Hno.
    - by rewrite Hnone in Ha. }
  destruct (all_or_not mk0 active) as [Hall|(n & Hn & En)].
  2:{ rewrite (finish_throws exts sfx rules sync mk0 active n) in H by done. done. }
  destruct (finish_cases exts sfx rules sync mk0 active Hf Hne Hall) as (names' & H1 & H2 & H3).
  assert (Hd0 : okDone (applySync sync mk0) []) by (intros x Hx; by apply elem_of_nil in Hx).
  assert (Hn0 : forall n, n ∈ names' -> is_Some (mk_find (applySync sync mk0) n)).
  { intros n Hn. rewrite applySync_find. by apply H1. }
  pose proof (checkRoots_ok exts (calculatePriorities sfx rules) (applySync sync mk0) [] [] names' Hd0 Hn0) as Hc.
  destruct (checkRoots _ _ _ _ _ _) as [[mk2 dn]| | | |]; try done; [|congruence].
  rewrite H in H3. injection H3 as <- <-. destruct Hc as (G & _ & _).
  assert (Hsome : forall n, n ∈ names -> is_Some (mk_find mk n)).
  { intros n Hn. eapply grown_find_some; [exact G|]. by apply Hn0. }
  destruct names as [|n ns].
  - cbn in Hno. destruct (H2 (default [] (mk_first mk0))) as [_ _].
    destruct (Hf Hne) as (t & b & Ht & Hb & Hk).
    destruct active as [|n ns].
    + assert (Ha : asksFor mk0 [] t) by (by left). apply H2 in Ha as (n & Hn & _). by apply elem_of_nil in Hn.
    + destruct (Hall n ltac:(left)) as [k Hk'].
      assert (Ha : asksFor mk0 (n :: ns) k). { right. exists n. split; [left|done]. }
      apply H2 in Ha as (m & Hm & _). by apply elem_of_nil in Hm.
  - unfold requested in Hno. apply elem_of_list_fmap in Hno as (m & Em & Hm).
    destruct (Hsome m Hm) as [k Hk]. congruence.
Qed.
Print Assumptions C42_crash_reasons_program.

(** Such a crash exists: preparation that leaves no command (the modifier ! with no dependents, makefile.cpp:86-92). *)
Example C42_case_program :
  hasFirst diamond /\ (exists mk names, finishParse [] [] [] [] diamond [T "c"] = Ok (mk, names)
    /\ exists s, buildRun exXp (fun _ _ _ => Some []) exKind exW (exOpts false 1) mk names [EvStart go] s
    /\ e_end s = Some ECrash).
Proof.
  split; [by apply hasFirst_ex|]. exists diamond, [T "c"]. split; [by vm_compute|].
  assert (Hx : exists s, (match apply exW (exOpts false 1) diamond [T "c"] with
    | Ok s0 => run exXp (fun _ _ _ => Some []) exKind exW (exOpts false 1) s0 [EvStart go] | _ => None end) = Some s
    /\ e_end s = Some ECrash).
  { eexists. split; [vm_compute; reflexivity|]. reflexivity. }
  destruct Hx as (s & Hs & He). exists s. split; [|done]. unfold buildRun.
  destruct (apply exW (exOpts false 1) diamond [T "c"]) as [s0| | | |]; try done. by exists s0.
Qed.
