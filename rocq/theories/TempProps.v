(** C54: what becomes of the files of inline texts. *)
From Coq Require Import Ascii String.
From stdpp Require Import prelude gmap.
From RecordUpdate Require Import RecordSet.
Import RecordSetNotations.
From Verif Require Import Base Data Env Graph Exec ExecEx CmdExec CmdSys Main MainEx OriginProps TempFiles TempSpec TempProofs.
Local Open Scope N_scope.

(** However jom ends, except by exit and abort: every file written by an executor is the one of an inline text with KEEP, or the
    same executor removes it afterwards. *)
Theorem C54_removed_partial o n e p es s d files k i f text : runOf o (sysStart n e p) es s -> d = Returns \/ d = CtrlC ->
  xs_trace s !! k = Some (i, FWrite f text) -> ~ inlineOf es i true text ->
  later (fst (atEnd d files s)) k (i, FRemove f).
Proof.
  intros H Hd Hk Hn. assert (E : atEnd d files s = atEnd Returns files s) by (by destruct Hd as [-> | ->]). rewrite E. clear E Hd.
  destruct (iv_written _ _ (run_inv _ _ _ _ _ _ H) _ _ _ _ Hk) as [K|[K|(x & Hx & Ht)]]; [done| |]; cbn [atEnd];
    destruct (cleanupFrom 0 files (xs_execs s)) as [[r files'] tr] eqn:E; cbn [fst].
  - by apply later_app.
  - apply later_right; [by eapply lookup_lt_Some|]. destruct (cleanupFrom_is _ _ _ _ _ _ E) as (C & _). exact (C i x f Hx Ht).
Qed.

(** And it is not there any more: it was removed before, or it is none of the files left. *)
Theorem C54_gone_partial o n e p es s d files k i f text : runOf o (sysStart n e p) es s -> d = Returns \/ d = CtrlC ->
  xs_trace s !! k = Some (i, FWrite f text) -> ~ inlineOf es i true text ->
  later (xs_trace s) k (i, FRemove f) \/ snd (atEnd d files s) !! f = None.
Proof.
  intros H Hd Hk Hn. assert (E : atEnd d files s = atEnd Returns files s) by (by destruct Hd as [-> | ->]). rewrite E. clear E Hd.
  destruct (iv_written _ _ (run_inv _ _ _ _ _ _ H) _ _ _ _ Hk) as [K|[K|(x & Hx & Ht)]]; [done|by left|right]; cbn [atEnd].
  destruct (cleanupFrom 0 files (xs_execs s)) as [[r files'] tr] eqn:E. cbn [snd]. destruct (cleanupFrom_is _ _ _ _ _ _ E) as (_ & _ & C & _).
  apply C. by exists i, x.
Qed.

(** Nothing but its own files: what an executor removes, during the build or at the end, it has written before, and for an inline text
    without KEEP. *)
Theorem C54_own o n e p es s d files k i f : runOf o (sysStart n e p) es s -> fst (atEnd d files s) !! k = Some (i, FRemove f) ->
  exists text, inlineOf es i false text /\ earlier (fst (atEnd d files s)) k (i, FWrite f text).
Proof.
  intros H. pose proof (run_inv _ _ _ _ _ _ H) as I.
  assert (G : fst (atEnd Returns files s) !! k = Some (i, FRemove f) -> exists text, inlineOf es i false text /\ earlier (fst (atEnd Returns files s)) k (i, FWrite f text)).
  { cbn [atEnd]. destruct (cleanupFrom 0 files (xs_execs s)) as [[r files'] tr] eqn:E. cbn [fst]. intros Hk. apply app_lookup in Hk as [Hk|(j & -> & Hk)].
    - destruct (iv_removed _ _ I _ _ _ Hk) as (c & Hc & Hw). exists c. split; [done|by apply earlier_app].
    - destruct (cleanupFrom_is _ _ _ _ _ _ E) as (_ & C & _). apply elem_of_list_lookup_2, C in Hk as (x & m & [= <-] & _ & Hx & Ht).
      rewrite Nat.sub_0_r in Hx. destruct (iv_own _ _ I _ _ _ Hx Ht) as (c & Hc & Hw). exists c. split; [done|by apply earlier_left]. }
  assert (G' : xs_trace s !! k = Some (i, FRemove f) -> exists text, inlineOf es i false text /\ earlier (xs_trace s) k (i, FWrite f text)) by apply (iv_removed _ _ I).
  destruct d; [exact G|exact G|exact G'|exact G'].
Qed.

(** Every other file is as it was before the end. *)
Theorem C54_others o n e p es s d files f : runOf o (sysStart n e p) es s ->
  (forall i text, inlineOf es i false text -> (i, FWrite f text) ∉ xs_trace s) -> snd (atEnd d files s) !! f = files !! f.
Proof.
  intros H Hn. pose proof (run_inv _ _ _ _ _ _ H) as I.
  assert (G : snd (atEnd Returns files s) !! f = files !! f).
  { cbn [atEnd]. destruct (cleanupFrom 0 files (xs_execs s)) as [[r files'] tr] eqn:E. cbn [snd]. destruct (cleanupFrom_is _ _ _ _ _ _ E) as (_ & _ & _ & C & _).
    apply C. intros j x Hj Ht. destruct (iv_own _ _ I _ _ _ Hj Ht) as (c & Hc & Hw). by apply (Hn j c). }
  by destruct d.
Qed.

(** Not while it may be used: between the writing of a file and its removal the executor has finished with the target. At the end this
    is so if the executor is not in the middle of a target. *)
Theorem C54_in_use o n e p es s d files k k' i f text : runOf o (sysStart n e p) es s ->
  xs_trace s !! k = Some (i, FWrite f text) -> (k < k')%nat -> fst (atEnd d files s) !! k' = Some (i, FRemove f) ->
  (forall x, xs_execs s !! i = Some x -> x_active x = false) \/ (k' < List.length (xs_trace s))%nat ->
  exists failed m, (k < m < k')%nat /\ fst (atEnd d files s) !! m = Some (i, FFinish failed).
Proof.
  intros H Hk Hkk Hk' Ha. pose proof (run_inv _ _ _ _ _ _ H) as I. revert Hk'.
  assert (G : fst (atEnd Returns files s) !! k' = Some (i, FRemove f) -> exists failed m, (k < m < k')%nat /\ fst (atEnd Returns files s) !! m = Some (i, FFinish failed)).
  { cbn [atEnd]. destruct (cleanupFrom 0 files (xs_execs s)) as [[r files'] tr] eqn:E. cbn [fst]. intros Hk'. apply app_lookup in Hk' as [Hk'|(j & -> & Hk')].
    - destruct (iv_used _ _ I _ _ _ _ _ Hk Hkk Hk') as (b & m & Hm & Hf). exists b, m. split; [done|]. by apply lookup_app_l_Some.
    - destruct Ha as [Ha|Ha]; [|lia]. destruct (cleanupFrom_is _ _ _ _ _ _ E) as (_ & C & _). apply elem_of_list_lookup_2, C in Hk' as (x & m & _ & _ & Hx & Ht).
      rewrite Nat.sub_0_r in Hx. destruct (iv_idle _ _ I _ _ _ _ _ Hk Hx (Ha _ Hx)) as (b & q & Hq & Hf). exists b, q. pose proof (lookup_lt_Some _ _ _ Hf).
      split; [lia|]. by apply lookup_app_l_Some. }
  assert (G' : xs_trace s !! k' = Some (i, FRemove f) -> exists failed m, (k < m < k')%nat /\ xs_trace s !! m = Some (i, FFinish failed)).
  { intros Hk'. destruct (iv_used _ _ I _ _ _ _ _ Hk Hkk Hk') as (b & m & Hm & Hf). by exists b, m. }
  destruct d; [exact G|exact G|exact G'|exact G'].
Qed.

(** Two executors. The first one runs two targets with inline texts, the second one a target whose text is to be kept and one whose text
    is not. The trace has, in this order, a file, the end of its target and the removal of the file (C54_in_use), removals of files written
    before (C54_own), a file that is kept (C54_others), and removals at the end (C54_removed_partial). *)
Definition tmpOpts : xopts := Xopts false false false (s2q "cmd.exe") (s2q "C:/") (s2q "C:/t/") (s2q "7") (s2q "C:\Makefile").
Definition tmpWorld : xworld := Xworld (fun _ _ _ => true) Some (fun _ => true) (fun n => [48 + N.of_nat n]).
Definition tmpCmd (line name content : string) (keep : bool) : command := Command (s2q line) [InlineFile keep false (s2q name) (s2q content)] 0 false false.
Definition tmpEvents : list xevent :=
  [XStart 0 (s2q "aa") [tmpCmd "link @<<" "" "one" false]; XStart 1 (s2q "bb") [tmpCmd "link @<<" "b.rsp" "two" true; tmpCmd "lib @<<" "" "three" false];
   XExit 0 0; XStart 0 (s2q "cc") [tmpCmd "link @<<" "c.rsp" "four" false]; XExit 1 0].
Definition filesOf (s : xsys) : gmap qstr qstr := match xs_execs s with x :: _ => x_files x | [] => ∅ end.
Definition tmpSys (o : xopts) (w : xworld) (n : nat) (l : list xevent) : option xsys :=
  foldl (fun s e => match s with Some s => sysEvent o w 9 (filesOf s) e s | None => None end) (Some (sysStart n [] (Penv [] []))) l.
Lemma tmpSys_run o w n l s : tmpSys o w n l = Some s -> runOf o (sysStart n [] (Penv [] [])) l s.
Proof.
  revert s. induction l as [|e l IH] using rev_ind; intros s H; [injection H as <-; constructor|].
  unfold tmpSys in H. rewrite foldl_snoc in H. fold (tmpSys o w n l) in H. destruct (tmpSys o w n l) as [s1|]; [|done].
  econstructor; [by apply IH|exact H].
Qed.
Definition fileEvents (l : list (nat * effect)) : list (nat * effect) :=
  List.filter (fun e => match snd e with FWrite _ _ | FRemove _ | FFinish _ => true | _ => false end) l.
Definition tmpName (t k : string) : qstr := s2q ("C:/t/" ++ t ++ ".7." ++ k ++ ".jom")%string.
Example C54_removed_partial_ex : exists s, runOf tmpOpts (sysStart 2 [] (Penv [] [])) tmpEvents s /\
  fileEvents (fst (atEnd CtrlC (filesOf s) s)) =
    [(0%nat, FWrite (tmpName "aa" "0") (s2q "one")); (1%nat, FWrite (s2q "b.rsp") (s2q "two")); (1%nat, FWrite (tmpName "bb" "1") (s2q "three"));
     (0%nat, FFinish false); (0%nat, FRemove (tmpName "aa" "0")); (0%nat, FWrite (s2q "c.rsp") (s2q "four"));
     (0%nat, FRemove (s2q "c.rsp")); (1%nat, FRemove (tmpName "bb" "1"))] /\
  map_to_list (snd (atEnd CtrlC (filesOf s) s)) = [(s2q "b.rsp", s2q "two")].
Proof.
  assert (H : match tmpSys tmpOpts tmpWorld 2 tmpEvents with Some s => fileEvents (fst (atEnd CtrlC (filesOf s) s)) =
    [(0%nat, FWrite (tmpName "aa" "0") (s2q "one")); (1%nat, FWrite (s2q "b.rsp") (s2q "two")); (1%nat, FWrite (tmpName "bb" "1") (s2q "three"));
     (0%nat, FFinish false); (0%nat, FRemove (tmpName "aa" "0")); (0%nat, FWrite (s2q "c.rsp") (s2q "four"));
     (0%nat, FRemove (s2q "c.rsp")); (1%nat, FRemove (tmpName "bb" "1"))] /\
  map_to_list (snd (atEnd CtrlC (filesOf s) s)) = [(s2q "b.rsp", s2q "two")] | None => False end) by (by vm_compute).
  destruct (tmpSys tmpOpts tmpWorld 2 tmpEvents) as [s|] eqn:E; [|destruct H]. exists s. split; [by eapply tmpSys_run|exact H].
Qed.

(** The text one is of no file with KEEP. *)
Example C54_gone_partial_ex : ~ inlineOf tmpEvents 0 true (s2q "one") /\ inlineOf tmpEvents 1 true (s2q "two").
Proof.
  split.
  - intros (t & cs & c & f & H & Hc & Hf & Hk & Ht). unfold tmpEvents in H. repeat (apply elem_of_cons in H as [H|H]); try (by apply elem_of_nil in H); try done; injection H as -> ->;
      apply elem_of_list_singleton in Hc as ->; apply elem_of_list_singleton in Hf as ->; done.
  - exists (s2q "bb"). eexists _, (tmpCmd "link @<<" "b.rsp" "two" true), _. split_and!; [right; left|left|left|done|done].
Qed.

(** Not so when jom ends by exit or abort. The requested targets are aa, whose command has an inline text without KEEP, and bb, with a
    dependent that does not exist: aa is built, the graph for bb ends jom (dependencygraph.cpp:201), and the file stays. *)
Definition exitMk := ["aa:"; "	link <<"; "text"; "<<"; "bb: cc"]%string.
Definition exitOut : outside := exOut ["aa"; "bb"]%string exitMk.
Definition exitEv : list event := [EvStart go; EvExit 0 0 go; EvStart go].
Definition leftBehind (b : building) (d : TempFiles.ending) : list (qstr * qstr) :=
  match mk_targets (pd_mk (bd_parsed b)) !! (s2q "aa" : tid) with
  | Some bl =>
    match tmpSys (executorOptions exitOut (bd_cl b)) (mo_world (exAt 0)) 1 [XStart 0 (b_name bl) (b_cmds bl); XExit 0 0] with
    | Some s => map_to_list (snd (atEnd d (filesOf s) s))
    | None => []
    end
  | None => []
  end.
Theorem C54_exit_refuted : exists b s, jomRun exitOut 200 2000 exNoFiles exAt exitEv b s /\
  e_end s = Some (EExit 2) /\ map fst (startsOf (e_log s)) = [s2q "aa"] /\
  leftBehind b ExitCalled = [(s2q "c:\t\aa.77.0.jom", s2q "text" ++ [13; 10])] /\ leftBehind b Returns = [].
Proof. apply exJomAt_ex. by vm_compute. Qed.

(** The shell cannot be started: qFatal. *)
Definition deadWorld : xworld := Xworld (fun _ _ _ => false) Some (fun _ => true) (fun n => [48 + N.of_nat n]).
Theorem C54_abort_refuted : exists es s f, runOf tmpOpts (sysStart 1 [] (Penv [] [])) es s /\ (0%nat, FFatal) ∈ xs_trace s /\
  (0%nat, FWrite f (s2q "one")) ∈ xs_trace s /\ ~ inlineOf es 0 true (s2q "one") /\ snd (atEnd Aborted (filesOf s) s) !! f = Some (s2q "one").
Proof.
  set (es := [XStart 0 (s2q "aa") [tmpCmd "link @<<" "" "one" false]]). exists es.
  assert (H : match tmpSys tmpOpts deadWorld 1 es with
    Some s => xs_trace s = [(0%nat, FWrite (tmpName "aa" "0") (s2q "one")); (0%nat, FPrint false ([9] ++ s2q "link @C:\t\aa.7.0.jom" ++ [10])); (0%nat, FFatal)] /\
      snd (atEnd Aborted (filesOf s) s) !! tmpName "aa" "0" = Some (s2q "one") | None => False end) by (by vm_compute).
  destruct (tmpSys tmpOpts deadWorld 1 es) as [s|] eqn:E; [|destruct H]. destruct H as [H1 H2]. exists s, (tmpName "aa" "0"). rewrite H1.
  split_and!; [by eapply tmpSys_run|right; right; left|left| |exact H2].
  intros (t & cs & c & f & H & Hc & Hf & Hk & Ht). apply elem_of_list_singleton in H. injection H as -> ->.
  apply elem_of_list_singleton in Hc as ->. apply elem_of_list_singleton in Hf as ->. done.
Qed.

(** Ctrl-C while an executor is creating files: the handler, in its own thread, does not find a file that has been written but is not
    yet in the list. It is left behind. *)
Theorem C54_ctrl_c_refuted : exists f x, halfCreated tmpOpts tmpWorld 9 (InlineFile false false [] (s2q "one")) (Xst (s2q "aa") [] [] (Penv [] []) [] [] true [] ∅ 0 []) = Some x /\
  FWrite f (s2q "one") ∈ x_out x /\ snd (atEnd CtrlC (x_files x) (Xsys [x] (map (fun e => (0%nat, e)) (x_out x)))) !! f = Some (s2q "one").
Proof.
  exists (tmpName "aa" "0"), (default (Xst [] [] [] (Penv [] []) [] [] true [] ∅ 0 [])
    (halfCreated tmpOpts tmpWorld 9 (InlineFile false false [] (s2q "one")) (Xst (s2q "aa") [] [] (Penv [] []) [] [] true [] ∅ 0 []))).
  split_and!; [by vm_compute|vm_compute; left|by vm_compute].
Qed.

Print Assumptions C54_removed_partial.
Print Assumptions C54_gone_partial.
Print Assumptions C54_own.
Print Assumptions C54_others.
Print Assumptions C54_in_use.
Print Assumptions C54_exit_refuted.
Print Assumptions C54_abort_refuted.
Print Assumptions C54_ctrl_c_refuted.
