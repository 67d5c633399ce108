(** C56: what jom starts with. *)
From Coq Require Import Ascii String.
From stdpp Require Import prelude gmap.
From Verif Require Import Base Data Infer UpToDate Graph Exec Macro MacroSpec MacroProofs Env EnvSpec EnvProofs Opts OptsSpec OptsProofs LineReader Preproc Front FileMacros MkParse CmdExec InlineProofs Main MainSpec MainProofs MainEx OriginProps StartSpec.
Local Open Scope N_scope.

Lemma indexOf_says l k v : saysVariable l k v -> indexOfChar 61 l = Some (length k).
Proof. intros [-> H]. apply indexOfChar_at. exact H. Qed.
Lemma says_indexOf l i : indexOfChar 61 l = Some i -> saysVariable l (qleft i l) (drop (S i) l).
Proof.
  intros H. apply indexOfChar_split in H as (w & r & -> & -> & Hw). unfold qleft. rewrite take_app. split; [|exact Hw].
  f_equal. cbn [app]. f_equal. change (w ++ 61 :: r) with (w ++ [61] ++ r). rewrite app_assoc, drop_app_alt; [done|]. rewrite app_length. cbn. lia.
Qed.
Lemma says_same l k v k' v' : saysVariable l k v -> saysVariable l k' v' -> k = k' /\ v = v'.
Proof.
  intros H H'. pose proof (indexOf_says _ _ _ H) as E. rewrite (indexOf_says _ _ _ H') in E. injection E as E. destruct H as [-> _], H' as [H' _].
  apply app_inj_1 in H' as [-> H']; [|done]. by injection H' as ->.
Qed.

Lemma sys_snoc ls l : readSystemEnvironment (ls ++ [l]) =
  match indexOfChar 61 l with Some i => envInsert (qleft i l) (drop (S i) l) (readSystemEnvironment ls) | None => readSystemEnvironment ls end.
Proof. unfold readSystemEnvironment. by rewrite fold_left_app. Qed.
Lemma sys_sorted ls : sortedEnv (readSystemEnvironment ls).
Proof.
  induction ls as [|l ls IH] using rev_ind; [constructor|]. rewrite sys_snoc. destruct (indexOfChar 61 l); [|exact IH]. by apply insert_sorted.
Qed.
Lemma sys_find ls name v : envFind name (readSystemEnvironment ls) = Some v <-> variableIs ls name v.
Proof.
  induction ls as [|l ls IH] using rev_ind.
  - split; [done|]. intros (l1 & l & l2 & k & H & _). by destruct l1.
  - rewrite sys_snoc. destruct (indexOfChar 61 l) as [i|] eqn:E.
    + pose proof (says_indexOf _ _ E) as Hs. rewrite find_insert by apply sys_sorted. destruct (decide (sameVar (qleft i l) name)) as [Hn|Hn].
      * split.
        -- intros [= <-]. exists ls, l, [], (qleft i l). split_and!; [done|done|done|]. intros l' k' v' H. by apply elem_of_nil in H.
        -- intros (l1 & l0 & l2 & k & H & Hs0 & Hk & Hl). destruct l2 as [|x l2] using rev_ind.
           ++ rewrite app_nil_r in H. apply app_inj_tail in H as [-> <-]. f_equal. by eapply says_same.
           ++ rewrite !app_assoc in H. apply app_inj_tail in H as [_ <-]. destruct (Hl l (qleft i l) (drop (S i) l)); [apply elem_of_app; right; left|done|done].
      * rewrite IH. split.
        -- intros (l1 & l0 & l2 & k & -> & Hs0 & Hk & Hl). exists l1, l0, (l2 ++ [l]), k. split_and!; [by rewrite <- !app_assoc|done|done|].
           intros l' k' v' H Hs'. apply elem_of_app in H as [H|H]; [by eapply Hl|]. apply elem_of_list_singleton in H as ->.
           by destruct (says_same _ _ _ _ _ Hs Hs') as [<- _].
        -- intros (l1 & l0 & l2 & k & H & Hs0 & Hk & Hl). destruct l2 as [|x l2 _] using rev_ind.
           ++ rewrite app_nil_r in H. apply app_inj_tail in H as [_ <-]. by destruct (says_same _ _ _ _ _ Hs Hs0) as [<- _].
           ++ rewrite !app_assoc in H. apply app_inj_tail in H as [-> <-]. exists l1, l0, l2, k. split_and!; [by rewrite <- app_assoc|done|done|].
              intros l' k' v' H'. apply Hl. apply elem_of_app. by left.
    + assert (Hno : forall k v', ~ saysVariable l k v'). { intros k v' Hs. apply indexOf_says in Hs. by rewrite E in Hs. }
      rewrite IH. split.
      * intros (l1 & l0 & l2 & k & -> & Hs0 & Hk & Hl). exists l1, l0, (l2 ++ [l]), k. split_and!; [by rewrite <- !app_assoc|done|done|].
        intros l' k' v' H Hs'. apply elem_of_app in H as [H|H]; [by eapply Hl|]. apply elem_of_list_singleton in H as ->. by destruct (Hno _ _ Hs').
      * intros (l1 & l0 & l2 & k & H & Hs0 & Hk & Hl). destruct l2 as [|x l2 _] using rev_ind.
        -- rewrite app_nil_r in H. apply app_inj_tail in H as [_ <-]. by destruct (Hno _ _ Hs0).
        -- rewrite !app_assoc in H. apply app_inj_tail in H as [-> <-]. exists l1, l0, l2, k. split_and!; [by rewrite <- app_assoc|done|done|].
           intros l' k' v' H'. apply Hl. apply elem_of_app. by left.
Qed.
Lemma sys_none ls name : envFind name (readSystemEnvironment ls) = None <-> noVariable ls name.
Proof.
  induction ls as [|l ls IH] using rev_ind.
  - split; [|done]. intros _ l k v H. by apply elem_of_nil in H.
  - rewrite sys_snoc. destruct (indexOfChar 61 l) as [i|] eqn:E.
    + pose proof (says_indexOf _ _ E) as Hs. rewrite find_insert by apply sys_sorted. destruct (decide (sameVar (qleft i l) name)) as [Hn|Hn].
      * split; [done|]. intros H. destruct (H l _ _ ltac:(apply elem_of_app; right; left) Hs Hn).
      * rewrite IH. split; intros H l' k v Hl Hs'.
        -- apply elem_of_app in Hl as [Hl|Hl]; [by eapply H|]. apply elem_of_list_singleton in Hl as ->. by destruct (says_same _ _ _ _ _ Hs Hs') as [<- _].
        -- eapply H; [apply elem_of_app; by left|done].
    + rewrite IH. split; intros H l' k v Hl Hs'.
      * apply elem_of_app in Hl as [Hl|Hl]; [by eapply H|]. apply elem_of_list_singleton in Hl as ->. apply indexOf_says in Hs'. by rewrite E in Hs'.
      * eapply H; [apply elem_of_app; by left|done].
Qed.

(** The environment jom works with has the variables its own environment has: of several lines for a name the last one, whatever
    the case of the letters; lines without an equals sign do not count. *)
Theorem C56_environment lines name : (forall v, envFind name (readSystemEnvironment lines) = Some v <-> variableIs lines name v) /\
  (envFind name (readSystemEnvironment lines) = None <-> noVariable lines name).
Proof. split; [intros v; apply sys_find|apply sys_none]. Qed.
Example C56_environment_ex :
  let ls := map s2q ["=C:=C:\src"; "Path=c:\bin;c:\a=b"; "nothing"; "TEMP=c:\t"; "PATH=d:\"]%string in
  variableIs ls (s2q "path") (s2q "d:\") /\ variableIs ls [] (s2q "C:=C:\src") /\ noVariable ls (s2q "nothing").
Proof.
  cbv zeta. split_and!.
  - apply sys_find. vm_compute. reflexivity.
  - apply sys_find. vm_compute. reflexivity.
  - apply sys_none. vm_compute. reflexivity.
Qed.

(** ** Predefined macros *)
Lemma startsWith_head c b s : c ∉ s -> startsWith (c :: b) s = false.
Proof. destruct s as [|x s]; intros H; [reflexivity|]. cbn [startsWith]. destruct (N.eqb_spec c x) as [->|]; [|done]. destruct H. left. Qed.
Lemma replaceGo_none c b a s : c ∉ s -> replaceGo (c :: b) a 0 s = s.
Proof.
  induction s as [|x s IH]; intros H; [done|]. cbn [replaceGo]. rewrite startsWith_head by done. rewrite IH; [done|]. intros Hs. apply H. by right.
Qed.
(** A macro that cannot be changed keeps its value, every other one gets the new one. *)
Lemma predefineValue_is k v t : isMacroNameValid k = true -> 36 ∉ v -> exists t', predefineValue k v t = MOk t' /\
  macroValue (mt_macros t') k = (if md_ro (default newMacro (mt_macros t !! k)) then macroValue (mt_macros t) k else v) /\
  (forall k', k' <> k -> mt_macros t' !! k' = mt_macros t !! k').
Proof.
  intros Hk Hv. unfold predefineValue, setMacroImpl. rewrite internalSet_valid by done. cbn [srcEqb]. eexists. split; [reflexivity|]. unfold setSource. cbn [mt_macros]. split.
  - unfold macroValue at 1. rewrite lookup_alter, lookup_insert. cbn [fmap option_fmap option_map]. cbv zeta.
    assert (Hr : forall w, replaceLazy (invocationOf k) w v = v). { intros w. unfold replaceLazy, replaceAll, invocationOf. cbn [app]. by apply replaceGo_none. }
    unfold macroValue. rewrite Hr. destruct (mt_macros t !! k) as [d|] eqn:E; simpl; [|done]. destruct (md_ro d) eqn:Er; simpl; done.
  - intros k' Hk'. rewrite lookup_alter_ne by done. by rewrite lookup_insert_ne.
Qed.
Lemma predefine_others l t t' k : Forall (fun kv => isMacroNameValid (fst kv) = true /\ 36 ∉ snd kv /\ fst kv <> k) l -> predefine l t = MOk t' -> mt_macros t' !! k = mt_macros t !! k.
Proof.
  revert t. induction l as [|[n v] l IH]; intros t Hl H; [by injection H as <-|]. apply Forall_cons in Hl as [(H1 & H2 & H3) Hl]. cbn in H1, H2, H3, H.
  destruct (predefineValue_is n v t H1 H2) as (t1 & E & _ & Ho). rewrite E in H. rewrite (IH _ Hl H). by apply Ho.
Qed.
Lemma enclose_text p : match p with c :: _ => isSpace c = false | [] => True end -> pathText p (encloseIfNeeded p).
Proof.
  intros Hp. unfold encloseIfNeeded. destruct (existsb isSpace (drop 1 p)) eqn:E.
  - left. split; [|done]. apply existsb_exists in E as (c & Hc & Hs). exists c. split; [|done]. destruct p as [|x p]; [done|]. right. by apply elem_of_list_In.
  - right. split; [|done]. intros c Hc. destruct p as [|x p]; [by apply elem_of_nil in Hc|]. apply elem_of_cons in Hc as [->|Hc]; [done|].
    apply not_true_iff_false. intros Hs. apply not_true_iff_false in E. apply E, existsb_exists. exists c. split; [by apply elem_of_list_In|done].
Qed.
Lemma enclose_dollar p : 36 ∉ p -> 36 ∉ encloseIfNeeded p.
Proof. intros H. unfold encloseIfNeeded. destruct (existsb _ _); [|done]. rewrite !elem_of_app, !elem_of_list_singleton. intros [?|[?|?]]; [done|done|done]. Qed.

Definition toolMacros : list (qstr * qstr) := drop 2 (predefined [] []).
Lemma predefined_is app cwd : predefined app cwd = (s2q "MAKE", encloseIfNeeded app) :: (s2q "MAKEDIR", encloseIfNeeded cwd) :: toolMacros.
Proof. reflexivity. Qed.
Lemma predefine_cons k v l t : predefine ((k, v) :: l) t = match predefineValue k v t with MOk t' => predefine l t' | MThrow => MThrow end.
Proof. reflexivity. Qed.
Lemma toolMacros_ok name : name = s2q "MAKE" \/ name = s2q "MAKEDIR" ->
  Forall (fun kv : qstr * qstr => isMacroNameValid (fst kv) = true /\ 36 ∉ snd kv /\ fst kv <> name) toolMacros.
Proof.
  intros Hn. assert (F : forallb (fun kv => isMacroNameValid (fst kv) && negb (bool_decide (36 ∈ snd kv)) && negb (bool_decide (fst kv = s2q "MAKE")) && negb (bool_decide (fst kv = s2q "MAKEDIR"))) toolMacros = true)
    by (vm_compute; reflexivity).
  apply Forall_forall. intros kv Hkv. rewrite forallb_forall in F.
  apply elem_of_list_In, F in Hkv. rewrite !andb_true_iff, !negb_true_iff, !bool_decide_eq_false in Hkv. destruct Hkv as [[[? ?] ?] ?]. split_and!; [done|done|].
  destruct Hn as [->| ->]; done.
Qed.
Lemma valid_make : isMacroNameValid (s2q "MAKE") = true. Proof. vm_compute. reflexivity. Qed.
Lemma valid_makedir : isMacroNameValid (s2q "MAKEDIR") = true. Proof. vm_compute. reflexivity. Qed.
Lemma make_makedir : s2q "MAKE" <> s2q "MAKEDIR". Proof. done. Qed.

(** Unless /R is given, $(MAKE) is the path of jom and $(MAKEDIR) the directory it is started in, in double quotes if there is
    white space in it, when the makefile is read; but a value given on the command line, or in the environment with /E, stays. *)
Theorem C56_make u cl t0 t1 : o_ignorePredefined (c_opts cl) = false ->
  readEnvironment (readSystemEnvironment (u_env u)) (o_overrideEnv (c_opts cl)) (c_macros cl) = MOk t1 -> predefine (predefined (u_app u) (u_cwd u)) t1 = MOk t0 ->
  macrosBefore u cl t0 /\
  forall name path, (name = s2q "MAKE" /\ path = u_app u) \/ (name = s2q "MAKEDIR" /\ path = u_cwd u) ->
  36 ∉ u_app u -> 36 ∉ u_cwd u -> match path with c :: _ => isSpace c = false | [] => True end ->
  (keeps name (macroValue (mt_macros t1) name) t1 /\ macroValue (mt_macros t0) name = macroValue (mt_macros t1) name) \/
  (~ keeps name (macroValue (mt_macros t1) name) t1 /\ pathText path (macroValue (mt_macros t0) name)).
Proof.
  intros Ho H1 H0. split; [exists t1; split; [exact H1|rewrite Ho; exact H0]|]. intros name path Hn Ha Hc Hp.
  assert (Hrest : forall t, predefine toolMacros t = MOk t0 -> macroValue (mt_macros t0) name = macroValue (mt_macros t) name).
  { intros t H. unfold macroValue. rewrite (predefine_others _ _ _ name (toolMacros_ok name ltac:(tauto)) H). done. }
  assert (K : forall t, macroValue (mt_macros t) name = macroValue (mt_macros t1) name -> mt_macros t !! name = mt_macros t1 !! name ->
    forall t', macroValue (mt_macros t') name = (if md_ro (default newMacro (mt_macros t !! name)) then macroValue (mt_macros t) name else encloseIfNeeded path) ->
    (keeps name (macroValue (mt_macros t1) name) t1 /\ macroValue (mt_macros t') name = macroValue (mt_macros t1) name) \/
    (~ keeps name (macroValue (mt_macros t1) name) t1 /\ pathText path (macroValue (mt_macros t') name))).
  { intros t Ev El t' Hv. rewrite El, Ev in Hv. destruct (mt_macros t1 !! name) as [d|] eqn:E; unfold default, id in Hv; cbn [newMacro md_ro] in Hv.
    - destruct (md_ro d) eqn:Er.
      + left. split; [|exact Hv]. exists d. split_and!; [done| |done]. unfold macroValue. by rewrite E.
      + right. split; [|rewrite Hv; by apply enclose_text]. intros (d' & Hd & _ & Hr). congruence.
    - right. split; [|rewrite Hv; by apply enclose_text]. intros (d' & Hd & _). congruence. }
  destruct (predefineValue_is (s2q "MAKE") (encloseIfNeeded (u_app u)) t1 valid_make (enclose_dollar _ Ha)) as (ta & Ea & Va & Oa).
  destruct (predefineValue_is (s2q "MAKEDIR") (encloseIfNeeded (u_cwd u)) ta valid_makedir (enclose_dollar _ Hc)) as (tb & Eb & Vb & Ob).
  rewrite predefined_is in H0.
  rewrite predefine_cons, Ea, predefine_cons, Eb in H0. apply Hrest in H0. clear Hrest. destruct Hn as [[-> ->]|[-> ->]].
  - apply (K t1); [reflexivity|reflexivity|]. etransitivity; [exact H0|]. etransitivity; [|exact Va]. unfold macroValue. rewrite (Ob _ make_makedir). reflexivity.
  - apply (K ta); [unfold macroValue; rewrite (Oa _ (not_eq_sym make_makedir)); reflexivity|exact (Oa _ (not_eq_sym make_makedir))|]. etransitivity; [exact H0|exact Vb].
Qed.

(** ** The job server *)
(** jom creates a job server, with as many jobs as it may run itself, when it is not started by a command of another jom, or when
    /J is given and differs from the number the other jom has passed on; otherwise it uses the one of the other jom. *)
Theorem C56_server u n fuel w b : mainStart u n fuel w = MGoesOn b ->
  let jobs := Opts.o_jobs (c_opts (bd_cl b)) in
  (bd_server b = Some jobs \/ bd_server b = None) /\
  (bd_server b = Some jobs <-> noVariable (u_env u) (s2q "_JOMSRVKEY_") \/
    (o_jobsSet (c_opts (bd_cl b)) = true /\ exists k, jobText (tableVariable (pd_macros (bd_parsed b)) (s2q "_JOMJOBCOUNT_")) k /\ k <> jobs)).
Proof.
  unfold mainStart. destruct (mainParse u n fuel) as [c| | |[cl p]] eqn:E; try done. cbv zeta.
  destruct (match newServer _ _ _ with Some _ => _ | None => _ end); [done|]. destruct (negb (clientOk _ _ _)); [done|].
  destruct (apply _ _ _ _) as [s| | | |]; try done. intros [= <-]. cbn [bd_cl bd_parsed bd_server].
  unfold newServer, isSubJom, envContains. pose proof (sys_none (u_env u) (s2q "_JOMSRVKEY_")) as Hno.
  destruct (envFind (s2q "_JOMSRVKEY_") (readSystemEnvironment (u_env u))) as [v|].
  2: { split; [by left|]. split; [|done]. intros _. left. by apply Hno. }
  set (x := tableVariable (pd_macros p) (s2q "_JOMJOBCOUNT_")). cbv zeta.
  destruct (jobCount x) as [k|] eqn:Ek; unfold default, id.
  - destruct (o_jobsSet (c_opts cl)); cbn [andb].
    + destruct (Opts.o_jobs (c_opts cl) =? k) eqn:Ej; cbn [negb].
      * split; [by right|]. split; [done|]. intros [H|(_ & k' & Hk & Hne)]; [by apply Hno in H|]. apply jobCount_text in Hk. apply N.eqb_eq in Ej. congruence.
      * split; [by left|]. split; [|done]. intros _. right. split; [done|]. exists k. split; [by apply jobCount_text|]. intros ->. by rewrite N.eqb_refl in Ej.
    + split; [by right|]. split; [done|]. intros [H|[H _]]; [by apply Hno in H|done].
  - rewrite N.eqb_refl, andb_false_r. split; [by right|]. split; [done|]. intros [H|(_ & k' & Hk & Hne)]; [by apply Hno in H|]. apply jobCount_text in Hk. congruence.
Qed.

(** A jom that makes no server of its own knows the key of another one: the variable is there after the makefile has been read and has a value. *)
Theorem C56_client u n fuel w b : mainStart u n fuel w = MGoesOn b -> bd_server b = None ->
  exists k key, mt_env (pd_macros (bd_parsed b)) !! foldCase (s2q "_JOMSRVKEY_") = Some (k, key) /\ key <> [].
Proof.
  unfold mainStart. destruct (mainParse u n fuel) as [c| | |[cl p]] eqn:E; try done. cbv zeta.
  destruct (match newServer _ _ _ with Some _ => _ | None => _ end); [done|]. destruct (clientOk _ _ _) eqn:Ec; cbn [negb]; [|done].
  destruct (apply _ _ _ _) as [s| | | |]; try done. intros [= <-]. cbn [bd_parsed bd_server]. intros Hn. unfold clientOk in Ec. rewrite Hn in Ec.
  apply andb_true_iff in Ec as [_ Ec]. unfold tableVariable in Ec. destruct (mt_env (pd_macros p) !! _) as [[k key]|]; [|done].
  exists k, key. split; [done|]. by intros ->.
Qed.

(** A jom started by another one for four jobs; jom is in a directory with a space in its name. *)
Definition subOut (args : list string) : outside :=
  Outside (map s2q args) (map s2q ["_JOMSRVKEY_=key"; "_JOMJOBCOUNT_=4"; "Path=c:\bin"]%string) (fun _ => None) 8 (s2q "c:\my tools\jom.exe") (s2q "c:\d") (fun _ => true)
    (exFiles ["all:"; "	$(MAKE) /f x"]%string) (fun _ _ => []) (fun _ => true) (fun l => l) (fun l => l) true true (s2q "cmd") (s2q "c:\t\") (s2q "77").
Definition subBuilding (args : list string) : option building := match mainStart (subOut args) 200 2000 exNoFiles with MGoesOn b => Some b | _ => None end.
Definition subServer (args : list string) : option (option N) := match subBuilding args with Some b => Some (bd_server b) | None => None end.
Example C56_server_ex : subServer [] = Some None /\ subServer ["/J4"]%string = Some None /\ subServer ["/J2"]%string = Some (Some 2).
Proof. split_and!; vm_compute; reflexivity. Qed.
(** With an empty key it gives up, unless it makes a server of its own. *)
Definition emptyKey (args : list string) : outside :=
  Outside (map s2q args) (map s2q ["_JOMSRVKEY_="; "_JOMJOBCOUNT_=4"; "Path=c:\bin"]%string) (fun _ => None) 8 (s2q "c:\jom.exe") (s2q "c:\d") (fun _ => true)
    (exFiles ["all:"; "	one"]%string) (fun _ _ => []) (fun _ => true) (fun l => l) (fun l => l) true true (s2q "cmd") (s2q "c:\t\") (s2q "77").
Example C56_client_ex : subServer [] = Some None /\ returns (emptyKey []) exNoFiles = Some 2 /\ returns (emptyKey ["/J2"]%string) exNoFiles = None.
Proof. split_and!; vm_compute; reflexivity. Qed.
Example C56_make_ex :
  (match subBuilding [] with Some b => macroValue (mt_macros (pd_macros (bd_parsed b))) (s2q "MAKE") | None => [] end) = [34] ++ s2q "c:\my tools\jom.exe" ++ [34] /\
  (match subBuilding [] with Some b => macroValue (mt_macros (pd_macros (bd_parsed b))) (s2q "MAKEDIR") | None => [] end) = s2q "c:\d" /\
  (match subBuilding ["MAKE=nmake"]%string with Some b => macroValue (mt_macros (pd_macros (bd_parsed b))) (s2q "MAKE") | None => [] end) = s2q "nmake".
Proof. split_and!; vm_compute; reflexivity. Qed.

Print Assumptions C56_environment.
Print Assumptions C56_make.
Print Assumptions C56_server.
Print Assumptions C56_client.
