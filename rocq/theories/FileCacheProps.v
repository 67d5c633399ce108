(** C38: the cache of file times never hides a change made by the build. *)
From Coq Require Import Ascii String.
From stdpp Require Import prelude gmap.
From Verif Require Import Base Data Infer UpToDate Graph Exec ExecSpec ExecEx FileCache FileCacheProofs FileCacheEx.
Local Open Scope string_scope.

(** Whatever jom learns about a file in a step of a build is the present state of that file, unless the
    commands of a target that produces it are under way. Hypothesis [ownsOk]: the commands of a target
    change no file but the one that has the target's name. Without it the claim is false, see below. *)
Theorem C38_current_partial xp prep kind w o own mk names es s c d e s1 l c1 d1 name :
  ownsOk own mk -> cachedBuild xp prep kind w o own mk names es s c d ->
  looksAndStep xp prep kind w o own s c d e s1 l c1 d1 -> not (beingMade own (e_log s) name) ->
  fst (fileInfo d name c) = d name
  /\ forall k, (mk_tick (e_mk s) <= k < mk_tick (e_mk s1))%nat -> sn_stat (w k) name = d name.
Proof.
  intros Ho Hb Hs Hn. split.
  - destruct (cachedBuild_ok _ _ _ _ _ _ _ _ _ _ _ _ Ho Hb) as [_ H]. by eapply ok_current.
  - intros k Hk. by eapply sees.
Qed.

(** A target is found to be up to date in a step: the observation m this is based on shows the present time of the
    target's own file and of every file listed as its dependent, whether they have been built before or not. *)
Theorem C38_decisions_partial xp prep kind w o own mk names es s c d e s1 l c1 d1 t m p b name :
  startable o mk -> keyed mk -> ownsOk own mk -> cachedBuild xp prep kind w o own mk names es s c d ->
  looksAndStep xp prep kind w o own s c d e s1 l c1 d1 ->
  LUpToDate t m ∈ l -> last (passes (e_log s)) = Some p -> mk_targets (p_mk p) !! t = Some b ->
  name = b_name b \/ name ∈ b_deps b ->
  sn_stat (w (mk_tick m)) name = d name.
Proof.
  intros Hst Hk Ho Hb Hs Hin Hp Ht Hn.
  destruct (decision_sees _ _ _ _ _ _ _ _ _ _ _ _ Hst Ho Hb _ _ _ _ _ _ _ _ _ _ Hk Hs Hin Hp Ht Hn) as [Htick Hnm].
  by eapply sees.
Qed.

(** z: a.obj a.pdb / a.obj: force / force *)
Definition pdb : mkfile := exMk
  [exBlock "z" ["a.obj"; "a.pdb"] [exCmd "link" 0];
   exBlock "a.obj" ["force"] [exCmd "cl" 0];
   exBlock "force" [] [exCmd "echo" 0]].
Definition pdb0 : files := [("z", 5); ("a.obj", 3); ("a.pdb", 4)]%N.
Definition pdbTable (f1 : files) : list (files * list (string * N)) :=
  let c := [("a.pdb", 4)]%N in
  [(pdb0, []); (pdb0, c); (pdb0, c); (pdb0, c); (pdb0, app c [("a.obj", 3%N)]); (f1, c);
   (f1, app c [("z", 5%N); ("a.obj", default 0%N (asDisk f1 (s2q "a.obj")))])].
Definition pdbPhases (f1 : files) : list phase :=
  [Phase (EvStart go) pdb0 [["force"]; []] pdb0; Phase (EvStart go) pdb0 [] pdb0; Phase (EvStart go) pdb0 [] pdb0;
   Phase (EvExit 0 0 go) pdb0 [] pdb0; Phase (EvStart go) pdb0 [["a.obj"; "force"]; []] pdb0;
   Phase (EvStart go) pdb0 [] pdb0; Phase (EvExit 0 0 go) pdb0 [] f1].
Definition onlyItself (t : tid) (n : qstr) : bool := qeqb n t && (qeqb t (s2q "a.obj") || qeqb t (s2q "z")).
Definition andPdb (t : tid) (n : qstr) : bool := onlyItself t n || (qeqb t (s2q "a.obj") && qeqb n (s2q "a.pdb")).

Definition stateAfter (tab : list (files * list (string * N))) (own : tid -> qstr -> bool) (mk : mkfile) (names : list qstr) (fs0 : files) (asks : list (list string)) (ps : list phase) : est :=
  match replayBuild tab (exOpts false 1) own mk names fs0 asks ps with Some (s, _, _) => s | None => initState (exOpts false 1) mk [] 0 end.
Definition cacheAfter (tab : list (files * list (string * N))) (own : tid -> qstr -> bool) (mk : mkfile) (names : list qstr) (fs0 : files) (asks : list (list string)) (ps : list phase) : cache :=
  match replayBuild tab (exOpts false 1) own mk names fs0 asks ps with Some (_, c, _) => c | None => ∅ end.
Definition nextState (tab : list (files * list (string * N))) (s : est) (e : event) : est := match stepX tab (exOpts false 1) s e with Some s1 => s1 | None => s end.
Definition nextCache (tab : list (files * list (string * N))) (s : est) (c : cache) (fs : files) (asks : list (list string)) : cache :=
  default ∅ (looksB tab fs asks c (mk_tick (e_mk s))).
Definition newEvents (s s1 : est) : list logev := drop (length (e_log s)) (e_log s1).
Definition upMk (t : tid) (l : list logev) : mkfile :=
  match List.find (fun e => match e with LUpToDate x _ => qeqb x t | _ => false end) l with Some (LUpToDate _ m) => m | _ => exMk [] end.
Definition upTo (t : tid) (l : list logev) : bool :=
  existsb (fun e => match e with LUpToDate x _ => qeqb x t | _ => false end) l.

Lemma upTo_in t l : upTo t l = true -> LUpToDate t (upMk t l) ∈ l.
Proof.
  unfold upTo, upMk. induction l as [|e l IH]; [done|]. cbn. destruct e as [r0 m0|u m0|u m0|u|u cs|u c0|u c0 k0|u f];
    try (cbn; intros H; right; by apply IH).
  destruct (qeqb u t) eqn:E; cbn; [|intros H; right; by apply IH]. intros _. apply BaseProofs.qeqb_spec in E as ->. by left.
Qed.

Definition endedIn (t : tid) (l : list logev) : bool :=
  existsb (fun e => match e with LEnd x false => qeqb x t | _ => false end) l.
Lemma endedIn_in t l : endedIn t l = true -> LEnd t false ∈ l.
Proof.
  intros (e & Hin & He)%existsb_exists. destruct e as [r0 m0|u m0|u m0|u|u cs|u c0|u c0 k0|u [|]]; try done.
  apply BaseProofs.qeqb_spec in He as ->. by apply elem_of_list_In.
Qed.

(** a.obj is rebuilt and its time goes from 3 to 4; then z is compared with it and is up to date: the time seen is
    4, although 3 had been remembered. *)
Definition okFiles : files := [("z", 5); ("a.obj", 4); ("a.pdb", 4)]%N.
Definition okState := stateAfter (pdbTable okFiles) onlyItself pdb [] pdb0 [["a.pdb"]] (pdbPhases okFiles).
Definition okCache := cacheAfter (pdbTable okFiles) onlyItself pdb [] pdb0 [["a.pdb"]] (pdbPhases okFiles).
Definition okNext := nextState (pdbTable okFiles) okState (EvStart go).
Definition okNew := newEvents okState okNext.
Lemma ok_build : cachedBuild exXp exPrep exKind (tableWorld (pdbTable okFiles)) (exOpts false 1) (ownP onlyItself) pdb []
  (map ph_ev (pdbPhases okFiles)) okState okCache (asDisk okFiles).
Proof.
  apply (replayBuild_sound _ _ _ _ _ pdb0 [["a.pdb"]]). vm_compute. reflexivity.
Qed.
Lemma ok_step : exists c1, looksAndStep exXp exPrep exKind (tableWorld (pdbTable okFiles)) (exOpts false 1) (ownP onlyItself)
  okState okCache (asDisk okFiles) (EvStart go) okNext okNew c1 (asDisk okFiles).
Proof.
  exists (nextCache (pdbTable okFiles) okState okCache okFiles [["z"; "a.obj"; "a.pdb"]; []]).
  apply (replay_one _ _ _ _ _ _ _ okFiles [["z"; "a.obj"; "a.pdb"]; []]); vm_compute; reflexivity.
Qed.
Lemma pdb_owns : ownsOk (ownP onlyItself) pdb.
Proof.
  intros t n Ho. unfold ownP, onlyItself in Ho. apply andb_true_iff in Ho as [E H]. apply BaseProofs.qeqb_spec in E as ->.
  apply orb_true_iff in H as [E|E]; apply BaseProofs.qeqb_spec in E as ->; vm_compute; eauto.
Qed.
Lemma pdb_startable : startable (exOpts false 1) pdb.
Proof. split; [cbn; lia|]. intros t [= <-]. vm_compute. eauto. Qed.
Lemma pdb_keyed : keyed pdb.
Proof.
  intros t b H. unfold pdb, exMk in H. cbn [mk_targets] in H. apply elem_of_list_to_map_2 in H.
  cbn in H. repeat (apply elem_of_cons in H as [[= -> ->]|H]; [vm_compute; reflexivity|]). by apply elem_of_nil in H.
Qed.
Example C38_example : 
  tabCache (pdbTable okFiles) 4 !! s2q "a.obj" = Some 3%N
  /\ LUpToDate (s2q "z") (upMk (s2q "z") okNew) ∈ okNew
  /\ sn_stat (tableWorld (pdbTable okFiles) (mk_tick (upMk (s2q "z") okNew))) (s2q "a.obj") = Some 4%N.
Proof.
  split; [vm_compute; reflexivity|]. split; [apply upTo_in; vm_compute; reflexivity|].
  destruct ok_step as [c1 Hs].
  rewrite (C38_decisions_partial _ _ _ _ _ _ _ _ _ _ _ _ _ _ _ c1 _ (s2q "z") (upMk (s2q "z") okNew)
    (Pass (s2q "z") pdb (tail (e_log okState))) (snd (exBlock "z" ["a.obj"; "a.pdb"] [exCmd "link" 0])) (s2q "a.obj")
    pdb_startable pdb_keyed pdb_owns ok_build Hs).
  - vm_compute; reflexivity.
  - apply upTo_in; vm_compute; reflexivity.
  - vm_compute; reflexivity.
  - vm_compute; reflexivity.
  - right. apply elem_of_cons. by left.
Qed.

(** C38 is false when the commands of a target change another file as well. The object file's command writes a.pdb,
    too; jom remembers the old time of a.pdb from the construction of the graph, and takes z for up to date,
    although a.pdb (9) is newer than z (5), its producer is finished and nothing is running. *)
Definition badFiles : files := [("z", 5); ("a.obj", 3); ("a.pdb", 9)]%N.
Definition badState := stateAfter (pdbTable badFiles) andPdb pdb [] pdb0 [["a.pdb"]] (pdbPhases badFiles).
Definition badCache := cacheAfter (pdbTable badFiles) andPdb pdb [] pdb0 [["a.pdb"]] (pdbPhases badFiles).
Definition badNext := nextState (pdbTable badFiles) badState (EvStart go).
Definition badNew := newEvents badState badNext.
Theorem C38_second_output_refuted : exists w own mk es s c d e s1 l c1 m name b,
  cachedBuild exXp exPrep exKind w (exOpts false 1) own mk [] es s c d
  /\ looksAndStep exXp exPrep exKind w (exOpts false 1) own s c d e s1 l c1 d
  /\ (forall t, own t name -> t = s2q "a.obj") /\ LEnd (s2q "a.obj") false ∈ e_log s /\ e_jobs s = []
  /\ LUpToDate (s2q "z") m ∈ l /\ mk_targets m !! s2q "z" = Some b /\ name ∈ b_deps b
  /\ sn_stat (w (mk_tick m)) name = Some 4%N /\ d name = Some 9%N /\ d (b_name b) = Some 5%N.
Proof.
  assert (exists c1, looksAndStep exXp exPrep exKind (tableWorld (pdbTable badFiles)) (exOpts false 1) (ownP andPdb)
    badState badCache (asDisk badFiles) (EvStart go) badNext badNew c1 (asDisk badFiles)) as [c1 Hs].
  { exists (nextCache (pdbTable badFiles) badState badCache badFiles [["z"; "a.obj"; "a.pdb"]; []]).
    apply (replay_one _ _ _ _ _ _ _ badFiles [["z"; "a.obj"; "a.pdb"]; []]); vm_compute; reflexivity. }
  exists (tableWorld (pdbTable badFiles)), (ownP andPdb), pdb, (map ph_ev (pdbPhases badFiles)), badState, badCache, (asDisk badFiles),
    (EvStart go), badNext, badNew, c1, (upMk (s2q "z") badNew), (s2q "a.pdb"), (snd (exBlock "z" ["a.obj"; "a.pdb"] [exCmd "link" 0])).
  split_and!; try exact Hs; try (vm_compute; reflexivity).
  - apply (replayBuild_sound _ _ _ _ _ pdb0 [["a.pdb"]]). vm_compute. reflexivity.
  - intros t Ho. unfold ownP, andPdb, onlyItself in Ho. apply orb_true_iff in Ho as [Ho|Ho]; apply andb_true_iff in Ho as [H1 H2].
    + apply BaseProofs.qeqb_spec in H1. apply orb_true_iff in H2 as [H2|H2]; apply BaseProofs.qeqb_spec in H2; [done|].
      rewrite <- H1 in H2. vm_compute in H2. done.
    + by apply BaseProofs.qeqb_spec in H1.
  - apply endedIn_in; vm_compute; reflexivity.
  - apply upTo_in; vm_compute; reflexivity.
  - apply elem_of_cons. right. apply elem_of_cons. by left.
Qed.

(** ... and when a dependent is spelled differently. In the first pass A.obj is looked up for y; in the second pass a.obj is
    built again, but only the name a.obj is removed from the cache: y counts as up to date, although the file (9)
    is newer than y (6). The file system does not distinguish upper and lower case. *)
Definition spell : mkfile := exMk
  [exBlock "y" ["A.obj"] [exCmd "link" 0];
   exBlock "a.obj" ["force"] [exCmd "cl" 0];
   exBlock "z" ["y"] [exCmd "link2" 0];
   exBlock "force" [] [exCmd "echo" 0]].
Definition spell0 : files := [("y", 6); ("a.obj", 5); ("A.obj", 5); ("z", 7)]%N.
Definition spell1 : files := [("y", 6); ("a.obj", 9); ("A.obj", 9); ("z", 7)]%N.
Definition spellTable : list (files * list (string * N)) :=
  let c := [("y", 6); ("A.obj", 5)]%N in let a := [("a.obj", 5%N)] in
  [(spell0, []); (spell0, []); (spell0, []); (spell0, []); (spell0, a); (spell0, []); (spell0, c); (spell0, c); (spell0, c);
   (spell0, c); (spell0, c); (spell0, app c a); (spell1, c); (spell1, c); (spell1, app c [("z", 7%N)])].
Definition spellPhases : list phase :=
  let S_ := EvStart go in let X := EvExit 0 0 go in
  [Phase S_ spell0 [["force"]; []] spell0; Phase S_ spell0 [] spell0; Phase S_ spell0 [] spell0; Phase X spell0 [] spell0;
   Phase S_ spell0 [["a.obj"; "force"]; []] spell0; Phase S_ spell0 [] spell0; Phase X spell0 [] spell0;
   Phase S_ spell0 [["y"; "A.obj"]; []; []] spell0; Phase S_ spell0 [["force"]; []] spell0; Phase S_ spell0 [] spell0;
   Phase X spell0 [] spell0; Phase S_ spell0 [["a.obj"; "force"]; []] spell0; Phase S_ spell0 [] spell0; Phase X spell0 [] spell1].
Definition ownFile (t : tid) (n : qstr) : bool := qeqb (toLower n) t && qeqb t (s2q "a.obj").
Definition spellState := stateAfter spellTable ownFile spell [s2q "y"; s2q "z"] spell0 [[]] spellPhases.
Definition spellCache := cacheAfter spellTable ownFile spell [s2q "y"; s2q "z"] spell0 [[]] spellPhases.
Definition spellNext := nextState spellTable spellState (EvStart go).
Definition spellNew := newEvents spellState spellNext.
Theorem C38_spelling_refuted : exists w own mk names es s c d e s1 l c1 m name b,
  cachedBuild exXp exPrep exKind w (exOpts false 1) own mk names es s c d
  /\ looksAndStep exXp exPrep exKind w (exOpts false 1) own s c d e s1 l c1 d
  /\ (forall t n, own t n -> toLower n = t) /\ LEnd (s2q "a.obj") false ∈ e_log s /\ e_jobs s = []
  /\ resolveDep mk name = Some (s2q "a.obj")
  /\ LUpToDate (s2q "y") m ∈ l /\ mk_targets m !! s2q "y" = Some b /\ name ∈ b_deps b
  /\ sn_stat (w (mk_tick m)) name = Some 5%N /\ d name = Some 9%N /\ d (b_name b) = Some 6%N.
Proof.
  assert (exists c1, looksAndStep exXp exPrep exKind (tableWorld spellTable) (exOpts false 1) (ownP ownFile)
    spellState spellCache (asDisk spell1) (EvStart go) spellNext spellNew c1 (asDisk spell1)) as [c1 Hs].
  { exists (nextCache spellTable spellState spellCache spell1 [["y"; "A.obj"]; ["z"]; []]).
    apply (replay_one _ _ _ _ _ _ _ spell1 [["y"; "A.obj"]; ["z"]; []]); vm_compute; reflexivity. }
  exists (tableWorld spellTable), (ownP ownFile), spell, [s2q "y"; s2q "z"], (map ph_ev spellPhases), spellState, spellCache, (asDisk spell1),
    (EvStart go), spellNext, spellNew, c1, (upMk (s2q "y") spellNew), (s2q "A.obj"),
    (Block (s2q "y") [s2q "A.obj"] [exCmd "link" 0] [] 0 false ACSEnabled).
  split_and!; try exact Hs; try (vm_compute; reflexivity).
  - apply (replayBuild_sound _ _ _ _ _ spell0 [[]]). vm_compute. reflexivity.
  - intros t n Ho. unfold ownP, ownFile in Ho. apply andb_true_iff in Ho as [H1 H2]. by apply BaseProofs.qeqb_spec in H1.
  - apply endedIn_in; vm_compute; reflexivity.
  - apply upTo_in; vm_compute; reflexivity.
  - apply elem_of_cons. by left.
Qed.

Print Assumptions C38_current_partial.
Print Assumptions C38_decisions_partial.
Print Assumptions C38_second_output_refuted.
Print Assumptions C38_spelling_refuted.
