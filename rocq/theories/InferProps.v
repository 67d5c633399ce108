(** C25 (choice of inference rules) and C26 (batches). *)
From Coq Require Import Ascii String.
From stdpp Require Import prelude gmap.
From Verif Require Import Base BaseProofs Data Cmd Infer UpToDate Graph Exec ExecSpec ExecEx Front InferSpec InferProofs.

(** C25: the rule taken fits, stands first in the suffix list, and among equals was defined last.
    "Equals" means: same to-extension, spelled the same way; see C25_refuted for different spellings.
    [rules] as the parser leaves them (InferenceRule's constructor, makefile.cpp:370-374: priority -1);
    [exts] enumerates the suffix cache, parser.cpp:140-144. *)
Theorem C25_choice sfx exts rules sn mk b r' :
  (forall r, r ∈ rules -> r_prio r = (-1)%Z) -> (forall r, r ∈ rules -> r_toExt r ∈ exts) ->
  b_rules b = findRules exts (calculatePriorities sfx rules) (b_name b) ->
  chooseRule sn mk b = Some r' ->
  exists before r after i, rules = before ++ r :: after /\ sameRule r r'
    /\ applicable sfx sn mk (b_name b) r /\ firstAt sfx (r_fromExt r) i
    /\ (forall x j, x ∈ rules -> applicable sfx sn mk (b_name b) x -> firstAt sfx (r_fromExt x) j -> i <= j)
    /\ (forall x j, x ∈ after -> r_toExt x = r_toExt r -> applicable sfx sn mk (b_name b) x ->
          firstAt sfx (r_fromExt x) j -> i < j).
Proof.
  intros H1 H2 H3 H. destruct (choose_some _ _ _ _ _ _ H1 H2 H3 _ H) as (l1 & r & l2 & i & ? & -> & ? & ? & ? & ?).
  exists l1, r, l2, i. split_and!; try done. apply withPriority_same.
Qed.
Print Assumptions C25_choice.

(** C25: no rule is taken exactly if none fits. *)
Theorem C25_none sfx exts rules sn mk b :
  (forall r, r ∈ rules -> r_prio r = (-1)%Z) -> (forall r, r ∈ rules -> r_toExt r ∈ exts) ->
  b_rules b = findRules exts (calculatePriorities sfx rules) (b_name b) ->
  chooseRule sn mk b = None <-> forall r, r ∈ rules -> ~ applicable sfx sn mk (b_name b) r.
Proof.
  intros H1 H2 H3. split; [by apply (choose_none sfx exts)|]. intros H.
  destruct (chooseRule sn mk b) as [r'|] eqn:E; [|done]. exfalso.
  destruct (choose_some _ _ _ _ _ _ H1 H2 H3 _ E) as (l1 & r & l2 & i & Hr & _ & Ha & _).
  apply (H r); [|done]. rewrite Hr. set_solver.
Qed.
Print Assumptions C25_none.

(** C25: a rule whose from-extension is not in the suffix list is never taken. *)
Theorem C25_suffixes sfx exts rules sn mk b r' :
  (forall r, r ∈ rules -> r_prio r = (-1)%Z) -> (forall r, r ∈ rules -> r_toExt r ∈ exts) ->
  b_rules b = findRules exts (calculatePriorities sfx rules) (b_name b) ->
  chooseRule sn mk b = Some r' -> exists x, x ∈ sfx /\ foldCase x = foldCase (r_fromExt r').
Proof.
  intros H1 H2 H3 H. destruct (C25_choice _ _ _ _ _ _ _ H1 H2 H3 H) as (l1 & r & l2 & i & _ & Hs & _ & [(x & Hx & E) _] & _).
  exists x. split; [by eapply elem_of_list_lookup_2|]. destruct Hs as (_ & _ & _ & <- & _). done.
Qed.
Print Assumptions C25_suffixes.

(** C25: after parsing, only targets without commands have candidates, and these are the ones the
    three theorems above speak about. *)
Theorem C25_candidates exts sfx rules sync mk active mk' names :
  (forall t b, mk_targets mk !! t = Some b -> b_rules b = []) ->
  finishParse exts sfx rules sync mk active = Ok (mk', names) ->
  forall t b, mk_targets mk' !! t = Some b ->
    b_rules b = [] \/ (b_cmds b = [] /\ b_rules b = findRules exts (calculatePriorities sfx rules) (b_name b)).
Proof. intros H1 H2. by apply (finishParse_cands _ _ _ _ _ _ _ _ H1 H2). Qed.
Print Assumptions C25_candidates.

Definition exRule (id : nat) (batch : bool) (from to cmd : string) : rule :=
  Rule id batch [46%N] (s2q from) [46%N] (s2q to) (-1)%Z [exCmd cmd 0].
Definition exRules : list rule :=
  [exRule 1 false ".cpp" ".obj" "cxx"; exRule 2 false ".c" ".obj" "cl1"; exRule 3 false ".c" ".obj" "cl2";
   exRule 4 false ".y" ".obj" "yacc"; exRule 5 false ".c" ".exe" "link"].
Definition exSfx : list qstr := map s2q [".C"; ".cpp"]%string.
Definition exExts : list qstr := map s2q [".exe"; ".obj"]%string.
(** all: foo.obj / foo.obj: -- files foo.c, foo.cpp, foo.y, foo.exe all exist *)
Definition exInfMk : mkfile := exMk [exBlock "all" ["foo.obj"]%string [exCmd "done" 0]; exBlock "foo.obj" []%string []].
Definition exInfW : world := exWorld [(".\foo.c", 1%N); (".\foo.cpp", 1%N); (".\foo.y", 1%N); ("foo.c", 1%N)]%string.

Example C25_case :
  exists mk' b r, finishParse exExts exSfx exRules [] exInfMk [] = Ok (mk', [T "all"])
    /\ mk_targets mk' !! T "foo.obj" = Some b
    /\ b_rules b = findRules exExts (calculatePriorities exSfx exRules) (b_name b)
    /\ (forall r, r ∈ exRules -> r_prio r = (-1)%Z) /\ (forall r, r ∈ exRules -> r_toExt r ∈ exExts)
    /\ map r_id (b_rules b) = [1; 2; 3]%nat
    /\ chooseRule (exInfW 0) mk' b = Some r /\ r_id r = 3%nat.
Proof.
  do 3 eexists. split; [vm_compute; reflexivity|]. split; [vm_compute; reflexivity|].
  split; [vm_compute; reflexivity|]. split; [apply Forall_forall; repeat constructor|].
  split; [|vm_compute; done].
  apply (Forall_forall (fun r => r_toExt r ∈ exExts)). repeat constructor.
Qed.

(** C25 is false for to-extensions that differ in case: the order then depends on the hash table. *)
Theorem C25_refuted : exists sfx exts rules sn mk b r,
  (forall r, r ∈ rules -> r_prio r = (-1)%Z) /\ (forall r, r ∈ rules -> r_toExt r ∈ exts) /\ NoDup exts
  /\ b_rules b = findRules exts (calculatePriorities sfx rules) (b_name b)
  /\ chooseRule sn mk b = Some r
  /\ exists before x, rules = before ++ [x] /\ r_id x <> r_id r /\ applicable sfx sn mk (b_name b) x /\ r_fromExt x = r_fromExt r.
Proof.
  set (rules := [exRule 1 false ".c" ".obj" "old"; exRule 2 false ".c" ".OBJ" "new"]).
  set (exts := map s2q [".OBJ"; ".obj"]%string).
  set (b := Block (s2q "foo.obj") [] [] (findRules exts (calculatePriorities exSfx rules) (s2q "foo.obj")) 0 false ACSEnabled).
  assert (forall r, r ∈ rules -> r_prio r = (-1)%Z) as H1 by (apply Forall_forall; repeat constructor).
  assert (forall r, r ∈ rules -> r_toExt r ∈ exts) as H2.
  { apply (Forall_forall (fun r => r_toExt r ∈ exts)). repeat constructor. }
  eexists exSfx, exts, rules, (exInfW 0), exInfMk, b, _. split; [done|]. split; [done|].
  split; [apply (bool_decide_unpack _); vm_compute; done|]. split; [done|]. split; [vm_compute; reflexivity|].
  eexists [exRule 1 false ".c" ".obj" "old"], _. split; [reflexivity|]. split; [vm_compute; done|]. split; [|done].
  apply fits_spec; [done|]. vm_compute. done.
Qed.
Print Assumptions C25_refuted.

(** C26: makefile.cpp:524-543 handles the queue as the list [batchesOf]; every queued target is in exactly
    one batch, and no batch is empty. *)
Theorem C26_partition xp o sn mk ts mk' : NoDup ts -> 0 < o_jobs o -> applyInferenceRules xp o sn mk ts = Some mk' ->
  exists mk1 q, applyToTargets xp (o_batch o) sn mk [] ts = Some (mk1, q)
    /\ runBatches xp mk1 (batchesOf (o_jobs o) q) = Some mk'
    /\ NoDup (map snd q) /\ sublist (map snd q) ts
    /\ flat_map snd (batchesOf (o_jobs o) q) ≡ₚ map snd q
    /\ (forall r b, (r, b) ∈ batchesOf (o_jobs o) q -> b <> []).
Proof.
  intros Hn Hj. unfold applyInferenceRules.
  destruct (applyToTargets xp (o_batch o) sn mk [] ts) as [[mk1 q]|] eqn:E; [|done]. rewrite applyQueue_batches. intros H.
  exists mk1, q. apply applyToTargets_queue in E as (l & El & Hs). cbn in El. subst l.
  split_and!; [done|done|by eapply sublist_nodup|done|apply batchesOf_perm|].
  intros r b Hb. apply elem_of_list_In, in_flat_map in Hb as (x & _ & Hb). cbn zeta in Hb. apply in_map_iff in Hb as (c & [= -> ->] & Hc).
  apply elem_of_list_In in Hc. apply chunksFuel_sizes in Hc; [|apply filesPerBatch_pos]. intros ->. cbn in Hc. lia.
Qed.
Print Assumptions C26_partition.

(** C26: a target is in one batch only. *)
Theorem C26_one_batch xp o sn mk ts mk1 q : NoDup ts ->
  applyToTargets xp (o_batch o) sn mk [] ts = Some (mk1, q) ->
  forall i j t a b, batchesOf (o_jobs o) q !! i = Some a -> batchesOf (o_jobs o) q !! j = Some b ->
    t ∈ snd a -> t ∈ snd b -> i = j.
Proof.
  intros Hn E. apply applyToTargets_queue in E as (l & El & Hs). cbn in El. subst l.
  assert (NoDup (flat_map snd (batchesOf (o_jobs o) q))) as Hd.
  { rewrite batchesOf_perm. by eapply sublist_nodup. }
  generalize dependent (batchesOf (o_jobs o) q). clear. intros bs Hd.
  induction bs as [|x bs IH]; intros i j t a b Hi Hj Ha Hb; [done|].
  cbn in Hd. apply NoDup_app in Hd as (_ & Hx & Hd).
  assert (forall k c, bs !! k = Some c -> t ∈ snd c -> t ∈ flat_map snd bs) as Hin.
  { intros k c Hk Hc. apply elem_of_list_In, in_flat_map. exists c. split; apply elem_of_list_In; [by eapply elem_of_list_lookup_2|done]. }
  destruct i as [|i], j as [|j]; cbn in Hi, Hj.
  - done.
  - injection Hi as ->. exfalso. eapply Hx; eauto.
  - injection Hj as ->. exfalso. eapply Hx; eauto.
  - f_equal. by eapply IH.
Qed.
Print Assumptions C26_one_batch.

(** Three objects, two jobs: two batches. z needs b.obj. *)
Definition exBRules : list rule := [exRule 1 true ".c" ".obj" "cl"].
Definition exBMk : mkfile := exMk
  [exBlock "all" ["a.obj"; "b.obj"; "c.obj"; "z"]%string [exCmd "done" 0];
   exBlock "a.obj" []%string []; exBlock "b.obj" []%string []; exBlock "c.obj" []%string [];
   exBlock "z" ["b.obj"]%string [exCmd "usesb" 0]].
Definition exBW : world := exWorld [(".\a.c", 1%N); (".\b.c", 1%N); (".\c.c", 1%N); ("a.c", 1%N); ("b.c", 1%N); ("c.c", 1%N)]%string.
Definition exBParsed : mkfile :=
  match finishParse [s2q ".obj"] [s2q ".c"] exBRules [] exBMk [] with Ok (m, _) => m | _ => exBMk end.

Example C26_case :
  let ts := map T ["a.obj"; "b.obj"; "c.obj"]%string in
  NoDup ts /\ exists mk1 q mk', applyToTargets exXp true (exBW 0) exBParsed [] ts = Some (mk1, q)
    /\ applyInferenceRules exXp (exOpts false 2) (exBW 0) exBParsed ts = Some mk'
    /\ map (fun p => map q2s (snd p)) (batchesOf 2 q) = [["c.obj"; "b.obj"]; ["a.obj"]]%string.
Proof.
  cbv zeta. split; [apply (bool_decide_unpack _); vm_compute; done|]. do 3 eexists. split; [vm_compute; reflexivity|].
  split; [vm_compute; reflexivity|]. vm_compute. done.
Qed.

(** C26 is false where it speaks about ordering. Only the first member of a batch gets the command
    (makefile.cpp:644, 655); the others end without commands at once, and whatever depends on them may
    start. Here the command of a.obj makes a.obj and b.obj from a.c and b.c, and z, which needs b.obj,
    starts while that command is running. *)
Definition exBEvents : list event :=
  [EvStart go; EvStart go; EvTake; EvAcquired go; EvStart go; EvExit 1 0 go; EvStart go; EvTake; EvAcquired go].

Definition isStart (t : tid) (e : logev) : bool := match e with LStart x _ => bool_decide (x = t) | _ => false end.
Definition isCmd (t : tid) (e : logev) : bool := match e with LCmd x _ => bool_decide (x = t) | _ => false end.

Theorem C26_order_refuted : exists es s a,
  buildRun exXp exPrep exKind exBW (exOpts false 2) exBParsed [] es s
  /\ T "b.obj" ∈ depsOf exBParsed (T "z") /\ (exists n, LStart (T "z") n ∈ e_log s)
  /\ mk_targets (e_mk s) !! T "a.obj" = Some a /\ s2q "b.c" ∈ b_deps a /\ b_cmds a <> []
  /\ T "a.obj" ∈ cmdsRunning (e_log s)
  /\ (forall n, LStart (T "b.obj") n ∉ e_log s) /\ (forall c, LCmd (T "b.obj") c ∉ e_log s).
Proof.
  assert (forall mk names s, isSome (exRun exBW (exOpts false 2) mk names exBEvents) = true ->
    s = exFinal exBW (exOpts false 2) mk names exBEvents ->
    existsb (isStart (T "z")) (e_log s) = true -> existsb (isStart (T "b.obj")) (e_log s) = false ->
    existsb (isCmd (T "b.obj")) (e_log s) = false -> bool_decide (T "a.obj" ∈ cmdsRunning (e_log s)) = true ->
    match mk_targets (e_mk s) !! T "a.obj" with
    | Some a => bool_decide (s2q "b.c" ∈ b_deps a) && negb (isNil (b_cmds a)) | None => false end = true ->
    T "b.obj" ∈ depsOf mk (T "z") ->
    exists es s a, buildRun exXp exPrep exKind exBW (exOpts false 2) mk names es s
      /\ T "b.obj" ∈ depsOf mk (T "z") /\ (exists n, LStart (T "z") n ∈ e_log s)
      /\ mk_targets (e_mk s) !! T "a.obj" = Some a /\ s2q "b.c" ∈ b_deps a /\ b_cmds a <> []
      /\ T "a.obj" ∈ cmdsRunning (e_log s)
      /\ (forall n, LStart (T "b.obj") n ∉ e_log s) /\ (forall c, LCmd (T "b.obj") c ∉ e_log s)) as A.
  { intros mk names s Hrun -> H1 H2 H3 H4 H5 H6. apply exRun_build in Hrun.
    exists exBEvents. set (s := exFinal exBW (exOpts false 2) mk names exBEvents) in *. clearbody s.
    exists s. destruct (mk_targets (e_mk s) !! T "a.obj") as [a|]; [|done]. exists a.
    apply andb_true_iff in H5 as [H5 H5']. apply bool_decide_eq_true in H4, H5.
    split_and!; try done.
    - apply existsb_exists in H1 as (e & He & Hi). apply elem_of_list_In in He. destruct e; try done.
      apply bool_decide_eq_true in Hi. subst. eauto.
    - intros E. by rewrite E in H5'.
    - intros n Hn. enough (existsb (isStart (T "b.obj")) (e_log s) = true) by congruence.
      apply existsb_exists. exists (LStart (T "b.obj") n). split; [by apply elem_of_list_In|]. by apply bool_decide_eq_true.
    - intros n Hn. enough (existsb (isCmd (T "b.obj")) (e_log s) = true) by congruence.
      apply existsb_exists. exists (LCmd (T "b.obj") n). split; [by apply elem_of_list_In|]. by apply bool_decide_eq_true. }
  eapply (A exBParsed []); [vm_compute; reflexivity|reflexivity|vm_compute; reflexivity|vm_compute; reflexivity
    |vm_compute; reflexivity|vm_compute; reflexivity|vm_compute; reflexivity|].
  apply (bool_decide_unpack _). vm_compute. done.
Qed.
Print Assumptions C26_order_refuted.
