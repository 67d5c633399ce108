(** C64: a jom started by another one and the job server. *)
From Coq Require Import Ascii String.
From stdpp Require Import prelude gmap.
From Verif Require Import Base BaseProofs Data Infer UpToDate Graph Exec Macro MacroSpec MacroProofs Env EnvSpec EnvProofs EnvProps Opts OptsSpec OptsProofs OptsFlagsProofs OptsProps LineReader Preproc Front FileMacros MkParse CmdExec Main MainSpec MainProofs MainEx MainProps StartSpec StartProps Nested NestedSpec NestedProofs.
Local Open Scope N_scope.

(** Whatever the makefile defines, the environment of the commands has the variables jom was started with, unless they are given on the
    command line or have a dollar sign in their values. *)
Theorem C64_kept u n fuel cl p is ms ts name v : mainParse u n fuel = MGoesOn (cl, p) -> says u is ms ts -> variableIs (u_env u) name v ->
  36 ∉ v -> plainName name -> leaveAlone name ms -> tableVariable (pd_macros p) name = v.
Proof.
  intros H (args & Ha & Hc) Hvar Hd Hp Hl. apply sys_find in Hvar. pose proof (sys_sorted (u_env u)) as Hs.
  unfold mainParse in H. fold (argumentsOf u) in H. destruct (readCommandLine _ _ _ _) as [cl'| | |] eqn:E; try done.
  apply C31_read in E as (args2 & is2 & ms2 & ts2 & t & Ha2 & Hc2 & Hdef & Hm & _).
  rewrite <- (expands_one _ _ _ _ Ha Ha2) in Hc2. destruct (commandLine_det _ _ _ _ _ _ _ Hc Hc2) as (<- & <- & <-).
  pose proof (fresh_value _ _ _ Hs Hvar) as Hv0.
  assert (Hq0 : notGiven (foldCase name) (freshTable (readSystemEnvironment (u_env u)))) by (intros m d _ Hm0; done).
  destruct (defined_given _ _ _ _ _ Hdef (definitions_alone _ _ Hp Hl []) Hq0 Hv0) as [Hq1 Hv1].
  assert (Hv2 : hasValue (foldCase name) v (c_macros cl')).
  { destruct Hv1 as [n0 Hv1]. exists n0. apply env_setMacro in Hm; [|done]. by rewrite Hm. }
  assert (Hq2 : notGiven (foldCase name) (c_macros cl')).
  { unfold setMacroValue, setMacroImpl in Hm. destruct (internalSet t _ _ _) as [[t1 [k|]]|] eqn:Ei; try done. cbn [srcEqb] in Hm. injection Hm as <-.
    eapply internalSet_given in Ei as (_ & Hq & _). apply setSource_given; [by left|by apply Hq]. }
  destruct (_ || _); [done|]. destruct (match o_stderr _ with Some _ => _ | None => _ end); [done|].
  destruct (readEnvironment _ _ _) as [t1|] eqn:E1; [|done].
  assert (Hv3 : hasValue (foldCase name) v t1).
  { eapply readEnvironment_given; [exact Hd| |exact E1|exact Hq2|exact Hv2]. apply Forall_forall. intros [k w] Hin Hk. cbn in *.
    eapply find_only; [exact Hs|exact Hvar|exact Hin|by apply plain_upper]. }
  destruct (if o_ignorePredefined _ then _ else _) as [t2|] eqn:E2; [|done].
  assert (He : mt_env t2 = mt_env t1). { destruct (o_ignorePredefined _); [by injection E2 as <-|by eapply predefine_env]. }
  destruct (readMakefile _ _ _ _ _ _ _) as [q| | |] eqn:E3; try done. injection H as <- <-. apply readMakefile_env in E3.
  unfold tableVariable. rewrite E3, He. destruct Hv3 as [n0 ->]. done.
Qed.
Print Assumptions C64_kept.

Lemma key_plain : plainName (s2q "_JOMSRVKEY_") /\ plainName (s2q "_JOMJOBCOUNT_").
Proof.
  assert (G : forall l, forallb (fun c => c <? 128) l = true -> (forall a b, foldCase l <> a ++ [115; 115] ++ b) -> plainName l).
  { intros l H1 H2. split; [|intros (a & b & E); by apply (H2 a b)]. apply Forall_forall. intros c Hc. rewrite forallb_forall in H1. apply N.ltb_lt, H1. by apply elem_of_list_In. }
  split; (apply G; [by vm_compute|]); intros a b E; vm_compute in E; repeat (destruct a as [|? a]; [done|]; injection E as _ E); by destruct a.
Qed.

(** A jom that finds the two variables uses the server with that key if it is not told another number of jobs, and creates one otherwise. *)
Theorem C64_joins u n fuel w b is ms ts key count j : mainStart u n fuel w = MGoesOn b -> says u is ms ts ->
  variableIs (u_env u) (s2q "_JOMSRVKEY_") key -> variableIs (u_env u) (s2q "_JOMJOBCOUNT_") count -> jobText count j ->
  36 ∉ key -> 36 ∉ count -> leaveAlone (s2q "_JOMSRVKEY_") ms -> leaveAlone (s2q "_JOMJOBCOUNT_") ms ->
  let o := c_opts (bd_cl b) in
  (bd_server b = None /\ (o_jobsSet o = false \/ Opts.o_jobs o = j) /\ tableVariable (pd_macros (bd_parsed b)) (s2q "_JOMSRVKEY_") = key) \/
  (bd_server b = Some (Opts.o_jobs o) /\ o_jobsSet o = true /\ Opts.o_jobs o <> j).
Proof.
  intros H Hs Hk Hc Hj Hd1 Hd2 Hl1 Hl2. cbv zeta. destruct (C56_server _ _ _ _ _ H) as [H1 H2].
  assert (exists cl p, mainParse u n fuel = MGoesOn (cl, p) /\ bd_parsed b = p) as (cl & p & Hm & Hp).
  { unfold mainStart in H. destruct (mainParse u n fuel) as [| | |[cl p]]; try done. cbv zeta in H. exists cl, p. split; [done|].
    destruct (match newServer _ _ _ with Some _ => _ | None => _ end); [done|]. destruct (negb _); [done|]. destruct (apply _ _ _ _); try done. by injection H as <-. }
  pose proof (C64_kept _ _ _ _ _ _ _ _ _ _ Hm Hs Hk Hd1 (proj1 key_plain) Hl1) as Hk'.
  pose proof (C64_kept _ _ _ _ _ _ _ _ _ _ Hm Hs Hc Hd2 (proj2 key_plain) Hl2) as Hc'. rewrite Hp, Hk'. rewrite Hp, Hc' in H2.
  assert (Hno : ~ noVariable (u_env u) (s2q "_JOMSRVKEY_")). { intros Hno. apply sys_none in Hno. apply sys_find in Hk. congruence. }
  destruct H1 as [H1|H1].
  - right. split; [done|]. apply H2 in H1 as [?|(Hset & k & Ht & Hne)]; [done|]. split; [done|]. rewrite (jobText_det _ _ _ Hj Ht). congruence.
  - left. split; [done|]. split; [|done]. destruct (o_jobsSet (c_opts (bd_cl b))) eqn:Hset; [|by left]. right.
    destruct (decide (Opts.o_jobs (c_opts (bd_cl b)) = j)) as [E|E]; [done|]. exfalso.
    assert (bd_server b = Some (Opts.o_jobs (c_opts (bd_cl b)))) by (apply H2; right; split; [done|]; exists j; by split). congruence.
Qed.
Print Assumptions C64_joins.

(** Numbers are written in decimal notation. *)
Lemma size_bound n : n < 2 ^ N.of_nat (N.size_nat n).
Proof.
  destruct n as [|p]; [done|]. cbn [N.size_nat]. induction p as [p IH|p IH|]; [| |done]; cbn [Pos.size_nat]; rewrite Nat2N.inj_succ, N.pow_succ_r'; lia.
Qed.
Lemma decimal_written n : decimal (decimalText n) n.
Proof.
  unfold decimalText. pose proof (size_bound n) as Hb. revert Hb. generalize (N.size_nat n) as f. intros f. revert n.
  assert (Hd : forall x, x < 10 -> isDigit (48 + x) = true). { intros x Hx. unfold isDigit. apply andb_true_iff. split; apply N.leb_le; lia. }
  induction f as [|f IH]; intros n Hb.
  - replace n with 0 by (change (N.of_nat 0) with 0 in Hb; rewrite N.pow_0_r in Hb; lia). cbn. apply (dec_one 48). done.
  - remember (S f) as g eqn:Hg in |- *. cbn [decimalFuel]. destruct (N.ltb_spec n 10) as [Hn|Hn].
    + cbn [app]. rewrite N.mod_small by done. replace n with (48 + n - 48) at 2 by lia. apply dec_one, Hd, Hn.
    + subst g. replace n with (n / 10 * 10 + (48 + n mod 10 - 48)) at 3.
      * apply dec_snoc; [|apply Hd; by apply N.mod_lt]. apply IH. rewrite Nat2N.inj_succ, N.pow_succ_r' in Hb. apply N.div_lt_upper_bound; lia.
      * pose proof (N.div_mod' n 10) as H. clear Hb IH. revert H. generalize (n / 10) (n mod 10). intros x y H. lia.
Qed.
Lemma written_digits n c : c ∈ decimalText n -> isDigit c = true.
Proof. intros H. destruct (decimal_digits _ _ (decimal_written n)) as (_ & HF & _). rewrite Forall_forall in HF. by apply HF. Qed.
Lemma key_no_dollar pid r : 36 ∉ serverKey pid r.
Proof.
  unfold serverKey. rewrite !elem_of_app. intros [H|[H|[H|H]]].
  - apply elem_of_list_In in H. vm_compute in H. by repeat destruct H as [H|H].
  - by apply written_digits in H.
  - by apply elem_of_list_singleton in H.
  - by apply written_digits in H.
Qed.

(** Jom processes that run at the same time have different servers. *)
Theorem C64_keys pid r pid' r' : serverKey pid r = serverKey pid' r' -> pid = pid' /\ r = r'.
Proof.
  intros H. unfold serverKey in H. apply app_inv_head in H.
  assert (G : forall a b a' b' : qstr, (forall c, c ∈ a -> c <> 45) -> (forall c, c ∈ a' -> c <> 45) -> a ++ [45] ++ b = a' ++ [45] ++ b' -> a = a' /\ b = b').
  { induction a as [|x a IH]; intros b [|y a'] b' H1 H2 E; cbn in E.
    - by injection E.
    - injection E as E _. by destruct (H2 y); [left|].
    - injection E as E _. by destruct (H1 x); [left|].
    - injection E as -> E. destruct (IH b a' b') as [-> ->]; [intros c Hc; apply H1; by right|intros c Hc; apply H2; by right|done|done]. }
  apply G in H as [H1 H2]; [|intros c Hc ->; by apply written_digits in Hc..].
  split; (eapply decimal_det; [apply decimal_written|]); [rewrite H1|rewrite H2]; apply decimal_written.
Qed.
Print Assumptions C64_keys.

(** From one jom to another: a jom that has created a server for [jobs] jobs starts another one, whose environment has the two variables as the
    executors have them; that one uses the server unless it is told another number of jobs. *)
Theorem C64_nested u0 n0 fuel0 w0 b0 pid r jobs u n fuel w b is ms ts : mainStart u0 n0 fuel0 w0 = MGoesOn b0 -> bd_server b0 = Some jobs -> 1 <= jobs -> jobs < 2 ^ 31 ->
  (forall name, name ∈ [s2q "_JOMSRVKEY_"; s2q "_JOMJOBCOUNT_"] -> variableIs (u_env u) name (tableVariable (executorsEnvironment b0 (serverKey pid r)) name) /\ leaveAlone name ms) ->
  mainStart u n fuel w = MGoesOn b -> says u is ms ts ->
  let o := c_opts (bd_cl b) in
  (bd_server b = None /\ (o_jobsSet o = false \/ Opts.o_jobs o = jobs) /\ tableVariable (executorsEnvironment b (serverKey pid r)) (s2q "_JOMSRVKEY_") = serverKey pid r) \/
  (bd_server b = Some (Opts.o_jobs o) /\ o_jobsSet o = true /\ Opts.o_jobs o <> jobs).
Proof.
  intros _ Hs H1 H2 Hv H Hsays. cbv zeta. destruct (Hv (s2q "_JOMSRVKEY_")) as [Hk Hl1]; [left|]. destruct (Hv (s2q "_JOMJOBCOUNT_")) as [Hc Hl2]; [right; left|].
  unfold executorsEnvironment in Hk, Hc. rewrite Hs in Hk, Hc.
  assert (tableVariable (tellOthers (serverKey pid r) jobs (pd_macros (bd_parsed b0))) (s2q "_JOMSRVKEY_") = serverKey pid r) as E1.
  { unfold tableVariable, tellOthers, setEnv. cbn [mt_env]. rewrite lookup_insert_ne by done. by rewrite lookup_insert. }
  assert (tableVariable (tellOthers (serverKey pid r) jobs (pd_macros (bd_parsed b0))) (s2q "_JOMJOBCOUNT_") = decimalText jobs) as E2.
  { unfold tableVariable, tellOthers, setEnv. cbn [mt_env]. by rewrite lookup_insert. }
  rewrite E1 in Hk. rewrite E2 in Hc.
  assert (Hj : jobText (decimalText jobs) jobs).
  { exists [], [], (decimalText jobs), []. split; [by rewrite app_nil_r|]. split; [by left|]. split; [constructor|]. split; [constructor|]. split; [apply decimal_written|done]. }
  assert (Hd : 36 ∉ decimalText jobs) by (intros Hin; by apply written_digits in Hin).
  destruct (C64_joins _ _ _ _ _ _ _ _ _ _ _ H Hsays Hk Hc Hj (key_no_dollar pid r) Hd Hl1 Hl2) as [(G1 & G2 & G3)|G]; [left|by right].
  split; [done|]. split; [done|]. unfold executorsEnvironment. rewrite G1. exact G3.
Qed.
Print Assumptions C64_nested.

(** Two levels: the outer jom has four jobs; its command [jom /k] finds the variables. *)
Definition outerServer : option (option N) := match mainStart (exOut ["/J4"]%string twoMk) 200 2000 exNoFiles with MGoesOn b => Some (bd_server b) | _ => None end.
Definition innerOut (args : list string) : outside :=
  Outside (map s2q args) (map s2q ["_JOMSRVKEY_=jomsrv-77-5"; "_JOMJOBCOUNT_=4"; "Path=c:\bin"]%string) (fun _ => None) 8 (s2q "c:\jom.exe") (s2q "c:\d") (fun _ => true)
    (exFiles ["_JOMSRVKEY_=other"; "_JOMJOBCOUNT_=9"; "all:"; "	one"]%string) (fun _ _ => []) (fun _ => true) (fun l => l) (fun l => l) true true (s2q "cmd") (s2q "c:\t\") (s2q "78").
Definition innerSees (args : list string) : option (option N * qstr) :=
  match mainStart (innerOut args) 200 2000 exNoFiles with MGoesOn b => Some (bd_server b, tableVariable (executorsEnvironment b (serverKey 78 6)) (s2q "_jomsrvkey_")) | _ => None end.
Example C64_case : outerServer = Some (Some 4) /\ serverKey 77 5 = s2q "jomsrv-77-5" /\
  variableIs (u_env (innerOut [])) (s2q "_JOMSRVKEY_") (serverKey 77 5) /\ variableIs (u_env (innerOut [])) (s2q "_JOMJOBCOUNT_") (decimalText 4) /\
  innerSees ["/k"]%string = Some (None, s2q "jomsrv-77-5") /\ innerSees ["/J4"]%string = Some (None, s2q "jomsrv-77-5") /\
  innerSees ["/J2"]%string = Some (Some 2, s2q "jomsrv-78-6").
Proof.
  split; [vm_compute; reflexivity|]. split; [vm_compute; reflexivity|]. split; [apply sys_find; vm_compute; reflexivity|]. split; [apply sys_find; vm_compute; reflexivity|].
  split; [vm_compute; reflexivity|]. split; vm_compute; reflexivity.
Qed.

(** The command line [all V=1] leaves the two variables alone; it is in the grammar, and the server is used. *)
Example C64_alone_ex : let ms := [(s2q "V", s2q "1")] in says (innerOut ["all"; "V=1"]%string) [] ms [s2q "all"] /\
  leaveAlone (s2q "_JOMSRVKEY_") ms /\ leaveAlone (s2q "_JOMJOBCOUNT_") ms /\ jobText (s2q "4") 4 /\
  innerSees ["all"; "V=1"]%string = Some (None, s2q "jomsrv-77-5").
Proof.
  cbv zeta. split; [|split; [|split; [|split; [|vm_compute; reflexivity]]]].
  - assert (E : argumentsOf (innerOut ["all"; "V=1"]%string) = [s2q "all"; s2q "V" ++ ch "=" :: s2q "1"]) by (vm_compute; reflexivity).
    unfold says. rewrite E. exists [s2q "all"; s2q "V" ++ ch "=" :: s2q "1"]. split.
    + exists [s2q "all"; s2q "V" ++ ch "=" :: s2q "1"], []. split; [|done]. apply wf_plain; [by intros [f H]|]. apply wf_plain; [by intros [f H]|]. apply wf_end.
    + apply (cl_target (s2q "all")); [| |apply (cl_macro (s2q "V") (s2q "1")); [| | |apply cl_end]].
      * intros (c & w & H & [-> | ->]); vm_compute in H; discriminate H.
      * intros H. apply elem_of_list_In in H. vm_compute in H. by repeat destruct H as [H|H].
      * intros (c & w & H & [-> | ->]); vm_compute in H; discriminate H.
      * intros H. apply elem_of_list_In in H. vm_compute in H. by repeat destruct H as [H|H].
      * vm_compute. reflexivity.
  - constructor; [|constructor]. split; [|by vm_compute]. intros H. apply elem_of_list_In in H. vm_compute in H. by repeat destruct H as [H|H].
  - constructor; [|constructor]. split; [|by vm_compute]. intros H. apply elem_of_list_In in H. vm_compute in H. by repeat destruct H as [H|H].
  - exists [], [], (s2q "4"), []. split; [done|]. split; [by left|]. split; [constructor|]. split; [constructor|]. split; [|done]. apply (decimal_written 4).
Qed.

(** A macro on the command line takes the place of the key: the server is not the one of the jom that started this one. *)
Theorem C64_macro_refuted : exists u n fuel w b key, mainStart u n fuel w = MGoesOn b /\ variableIs (u_env u) (s2q "_JOMSRVKEY_") key /\
  o_jobsSet (c_opts (bd_cl b)) = false /\ bd_server b = None /\ tableVariable (pd_macros (bd_parsed b)) (s2q "_JOMSRVKEY_") <> key.
Proof.
  assert (H : match mainStart (innerOut ["_JOMSRVKEY_=x"]%string) 200 2000 exNoFiles with
    MGoesOn b => negb (o_jobsSet (c_opts (bd_cl b))) && match bd_server b with None => true | _ => false end && qeqb (tableVariable (pd_macros (bd_parsed b)) (s2q "_JOMSRVKEY_")) (s2q "x") | _ => false end = true) by (vm_compute; reflexivity).
  destruct (mainStart (innerOut ["_JOMSRVKEY_=x"]%string) 200 2000 exNoFiles) as [| | |b] eqn:E; [discriminate H..|].
  apply andb_true_iff in H as [H H3]. apply andb_true_iff in H as [H1 H2]. apply negb_true_iff in H1. apply BaseProofs.qeqb_spec in H3.
  exists (innerOut ["_JOMSRVKEY_=x"]%string), 200%nat, 2000%nat, exNoFiles, b, (s2q "jomsrv-77-5"). split; [exact E|]. split; [apply sys_find; vm_compute; reflexivity|].
  split; [exact H1|]. split; [clear -H2; by destruct (bd_server b)|]. rewrite H3. clear. done.
Qed.
Print Assumptions C64_macro_refuted.

Lemma valueIn_split l name v : valueIn l name = Some v -> NoDup (map (fun kv => foldCase (fst kv)) l) ->
  exists l1 n l2, l = l1 ++ [(n, v)] ++ l2 /\ sameVar n name /\ forall kv, kv ∈ l2 -> ~ sameVar (fst kv) name.
Proof.
  induction l as [|[n w] l IH]; [done|]. cbn [valueIn map fst]. intros H Hn. apply NoDup_cons in Hn as [Hn1 Hn2]. destruct (decide (sameVar n name)) as [Hs|Hs].
  - injection H as ->. exists [], n, l. split; [done|]. split; [done|]. intros kv Hin Hk. apply Hn1. unfold sameVar in Hs, Hk. rewrite Hs, <- Hk.
    apply elem_of_list_fmap. by exists kv.
  - destruct (IH H Hn2) as (l1 & n' & l2 & -> & H1 & H2). by exists ((n, w) :: l1), n', l2.
Qed.
Lemma reads_clean b l : reads b l -> Forall cleanVar l.
Proof. induction 1; constructor; done. Qed.

(** The environment of the executors reaches the other process: it reads its block and has the lines as Windows hands them on. *)
Theorem C64_block p e l name v : e <> [] -> sortedEnv e -> Forall cleanVar e -> 0 ∉ p_path p -> 0 ∉ p_root p ->
  foldCase name <> [] -> 61 ∉ foldCase name -> envFind name e = Some v -> reads (createEnvBlock p e) l -> variableIs (linesOf l) name v.
Proof.
  intros H1 H2 H3 H4 H5 Hne Heq Hf Hr. destruct (C35_block _ _ H1 H2 H3 H4 H5) as (l0 & Hr0 & Hone & Hnd & Hv). rewrite <- (Hone _ Hr) in *.
  specialize (Hv name). rewrite Hf in Hv. destruct (valueIn_split _ _ _ Hv Hnd) as (l1 & n & l2 & -> & Hs & Hoth). pose proof (reads_clean _ _ Hr) as Hc.
  assert (Hin : forall c (a : qstr), c = 61 -> c ∈ a -> 61 ∈ foldCase a).
  { intros c a -> Hc61. unfold foldCase. apply elem_of_list_fmap. exists 61. split; [by vm_compute|done]. }
  exists (linesOf l1), (n ++ [ch "="] ++ v), (linesOf l2), n. split; [by unfold linesOf; rewrite !map_app|]. split; [split; [done|]|split; [done|]].
  - intros Hc61. apply Heq. unfold sameVar in Hs. rewrite <- Hs. by eapply Hin.
  - intros l' k' v' Hl' Hsays Hk'. apply elem_of_list_fmap in Hl' as ([m w] & -> & Hmw). cbn [fst snd] in Hsays.
    assert (Hcm : cleanVar (m, w)). { rewrite Forall_forall in Hc. apply Hc. rewrite !elem_of_app. by right; right. }
    destruct Hcm as (Hm1 & _ & Hm2 & _). cbn in Hm1, Hm2. destruct m as [|c m]; [done|]. cbn [tail] in Hm2.
    destruct (decide (c = 61)) as [->|Hc61].
    + destruct Hsays as [E Hk]. destruct k' as [|c' k']; [by apply Hne; rewrite <- Hk'|]. cbn in E. injection E as <- _. apply Hk. left.
    + assert (saysVariable ((c :: m) ++ [ch "="] ++ w) (c :: m) w) as Hs2. { split; [done|]. intros Hx. apply elem_of_cons in Hx as [Hx|Hx]; [by apply Hc61; rewrite <- Hx|done]. }
      destruct (says_same _ _ _ _ _ Hsays Hs2) as [-> _]. by apply (Hoth _ Hmw).
Qed.
Print Assumptions C64_block.

(** From the jom that creates a server to the one among its commands, through the environment block. [e]: the environment of the executors as a
    sorted list. *)
Theorem C64_started u0 n0 fuel0 w0 b0 pid r jobs p e l u n fuel w b is ms ts : mainStart u0 n0 fuel0 w0 = MGoesOn b0 -> bd_server b0 = Some jobs -> 1 <= jobs -> jobs < 2 ^ 31 ->
  sortedEnv e -> Forall cleanVar e -> 0 ∉ p_path p -> 0 ∉ p_root p -> (forall k, envFind k e = snd <$> mt_env (executorsEnvironment b0 (serverKey pid r)) !! foldCase k) ->
  reads (createEnvBlock p e) l -> u_env u = linesOf l -> leaveAlone (s2q "_JOMSRVKEY_") ms -> leaveAlone (s2q "_JOMJOBCOUNT_") ms ->
  mainStart u n fuel w = MGoesOn b -> says u is ms ts ->
  let o := c_opts (bd_cl b) in
  (bd_server b = None /\ (o_jobsSet o = false \/ Opts.o_jobs o = jobs) /\ tableVariable (executorsEnvironment b (serverKey pid r)) (s2q "_JOMSRVKEY_") = serverKey pid r) \/
  (bd_server b = Some (Opts.o_jobs o) /\ o_jobsSet o = true /\ Opts.o_jobs o <> jobs).
Proof.
  intros H0 Hs H1 H2 He1 He2 Hp1 Hp2 He Hr Hu Hl1 Hl2 H Hsays. eapply C64_nested; [exact H0|exact Hs|done|done| |exact H|exact Hsays].
  assert (Hsome : forall name, name = s2q "_JOMSRVKEY_" \/ name = s2q "_JOMJOBCOUNT_" ->
    envFind name e = Some (tableVariable (executorsEnvironment b0 (serverKey pid r)) name)).
  { intros name Hname. rewrite He. unfold tableVariable, executorsEnvironment. rewrite Hs. unfold tellOthers, setEnv. cbn [mt_env].
    destruct Hname as [-> | ->]; [rewrite lookup_insert_ne by done|]; by rewrite lookup_insert. }
  intros name Hname. rewrite Hu. apply elem_of_cons in Hname as [->|Hname]; [|apply elem_of_list_singleton in Hname as ->]; (split; [|done]).
  - eapply C64_block; [|exact He1|exact He2|exact Hp1|exact Hp2| | |apply Hsome; by left|exact Hr]; [|by vm_compute|].
    + intros ->. by specialize (Hsome _ (or_introl eq_refl)).
    + intros Hx. apply elem_of_list_In in Hx. vm_compute in Hx. by repeat destruct Hx as [Hx|Hx].
  - eapply C64_block; [|exact He1|exact He2|exact Hp1|exact Hp2| | |apply Hsome; by right|exact Hr]; [|by vm_compute|].
    + intros ->. by specialize (Hsome _ (or_intror eq_refl)).
    + intros Hx. apply elem_of_list_In in Hx. vm_compute in Hx. by repeat destruct Hx as [Hx|Hx].
Qed.
Print Assumptions C64_started.

(** The block of the jom with four jobs, read by the other one. *)
Definition handedOn : env := readSystemEnvironment (map s2q ["Path=c:\bin"; "_JOMSRVKEY_=jomsrv-77-5"; "_JOMJOBCOUNT_=4"]%string).
Definition handedLines : list (qstr * qstr) :=
  [(s2q "_JOMJOBCOUNT_", s2q "4"); (s2q "_JOMSRVKEY_", s2q "jomsrv-77-5"); (s2q "Path", s2q "c:\bin"); (s2q "SystemRoot", s2q "c:\w")].
Example C64_block_ex : handedOn <> [] /\ Forall cleanVar handedOn /\ reads (createEnvBlock (Penv [] (s2q "c:\w")) handedOn) handedLines /\
  linesOf handedLines = map s2q ["_JOMJOBCOUNT_=4"; "_JOMSRVKEY_=jomsrv-77-5"; "Path=c:\bin"; "SystemRoot=c:\w"]%string /\
  variableIs (linesOf handedLines) (s2q "_JOMSRVKEY_") (serverKey 77 5).
Proof.
  assert (C : forall k v, forallb (fun c => negb (c =? 0)) (k ++ v) && forallb (fun c => negb (c =? 61)) k && negb (isEmpty k) = true -> cleanVar (k, v)).
  { intros k v H. apply andb_true_iff in H as [H H3]. apply andb_true_iff in H as [H1 H2]. rewrite forallb_forall in H1, H2. unfold cleanVar. cbn [fst snd].
    split; [by destruct k|]. split; [|split]; intros Hx.
    - apply elem_of_list_In in Hx. specialize (H1 0 (in_or_app _ _ _ (or_introl Hx))). done.
    - assert (Hy : ch "=" ∈ k) by (destruct k; [done|by right]). apply elem_of_list_In in Hy. by specialize (H2 _ Hy).
    - apply elem_of_list_In in Hx. specialize (H1 0 (in_or_app _ _ _ (or_intror Hx))). done. }
  split; [by vm_compute|]. split; [|split; [|split; [vm_compute; reflexivity|apply sys_find; vm_compute; reflexivity]]].
  - assert (E : handedOn = [(s2q "_JOMJOBCOUNT_", s2q "4"); (s2q "_JOMSRVKEY_", s2q "jomsrv-77-5"); (s2q "Path", s2q "c:\bin")]) by (vm_compute; reflexivity). rewrite E.
    repeat (apply Forall_cons; split; [apply C; vm_compute; reflexivity|]). by apply Forall_nil.
  - assert (E : createEnvBlock (Penv [] (s2q "c:\w")) handedOn = s2q "_JOMJOBCOUNT_" ++ ch "=" :: s2q "4" ++ 0 :: (s2q "_JOMSRVKEY_" ++ ch "=" :: s2q "jomsrv-77-5" ++ 0 ::
      (s2q "Path" ++ ch "=" :: s2q "c:\bin" ++ 0 :: (s2q "SystemRoot" ++ ch "=" :: s2q "c:\w" ++ 0 :: [0; 0])))) by (vm_compute; reflexivity).
    rewrite E. unfold handedLines. repeat (apply rd_entry; [apply C; vm_compute; reflexivity|]). apply rd_end.
Qed.
