(** C37: dry run; C36: inline files, the part of the executor. *)
From Coq Require Import Ascii String.
From stdpp Require Import prelude gmap.
From RecordUpdate Require Import RecordSet.
Import RecordSetNotations.
From Verif Require Import Base Data Infer UpToDate Graph Exec ExecSpec ExecEx Env CmdExec CmdSys CmdExecSpec CmdExecProofs.
Local Open Scope N_scope.

(** ** C37 *)

(** A target is handed to an executor in a dry run: after effects on inline files every command of the
    target is printed, in order, and the target is done; no process, no change of the environment. *)
Theorem C37_printed o w fuel target cs x x' : xo_dryRun o = true -> cs <> [] -> xstart o w fuel target cs x = XOk x' ->
  exists pre cs', List.length cs' = List.length cs /\
    x_out x' = x_out x ++ pre ++ map (fun c => printed (c_line c)) cs' ++ [FFinish false] /\
    startsNone pre /\ x_env x' = x_env x /\
    (Forall (fun c => c_inline c = []) cs -> x_temps x = [] -> pre = [] /\ map c_line cs' = map c_line cs /\ x_files x' = x_files x).
Proof.
  intros Hd Hne H. unfold xstart in H. cbv zeta in H. set (y := x <| x_target := target |> <| x_active := true |>) in *.
  destruct cs as [|c cs]; [done|]. set (l := c :: cs) in *. clearbody l. clear Hne.
  destruct (createTempFiles o w fuel l (cleanupTempFiles y)) as [[cs' z]|z|] eqn:E; [|done|done]. injection H as <-.
  destruct (cleanup_out y) as (l1 & A1 & A2 & A3 & A4 & A5).
  pose proof (create_out o w fuel l (cleanupTempFiles y)) as B. rewrite E in B. destruct B as (l2 & B1 & B2 & B3 & B4).
  set (z' := z <| x_next := [] |> <| x_cwd := [] |>). destruct (run_dry o w cs' z' Hd) as (R1 & R2 & R3 & R4 & R5).
  exists (l1 ++ l2), cs'. split_and!.
  - clear -E. revert E. generalize (cleanupTempFiles y). intros u E. revert u cs' z E. induction l as [|c l IH]; intros u cs' z E; cbn [createTempFiles] in E.
    + by injection E as <- _.
    + destruct (createForCommand _ _ _ _ _ _) as [[line v]|v|]; try done. destruct (createTempFiles o w fuel l v) as [[l2 q]|q|] eqn:E2; try done.
      injection E as <- <-. cbn. f_equal. by eapply IH.
  - rewrite R1. change (x_out z') with (x_out z). rewrite B1, A1. change (x_out y) with (x_out x). by rewrite <- !app_assoc.
  - intros line cwd b Hin. assert (HF : Forall quiet (l1 ++ l2)) by (by apply Forall_app). rewrite Forall_forall in HF. exact (HF _ Hin).
  - rewrite R3. change (x_env z') with (x_env z). by rewrite B4, A4.
  - intros Hi Ht. change (x_temps y) with (x_temps x) in *. rewrite A3, B3 by done.
    destruct (create_plain _ _ _ _ _ _ _ E Hi) as [P1 P2]. split_and!; [done|done|]. rewrite R2. change (x_files z') with (x_files z). rewrite P2.
    unfold cleanupTempFiles. change (x_temps y) with (x_temps x). by rewrite Ht.
Qed.

(** So no executor ever starts a process, in all dry runs. *)
Theorem C37_no_process o n e p s i line cwd b : xo_dryRun o = true -> sysRun o (sysStart n e p) s ->
  (i, FStart line cwd b) ∉ xs_trace s.
Proof.
  intros Hd Hr.
  assert (G : forall s s', sysRun o s s' ->
    Forall (fun f => match snd f with FStart _ _ _ => False | _ => True end) (xs_trace s) ->
    Forall (fun f => match snd f with FStart _ _ _ => False | _ => True end) (xs_trace s')).
  { clear -Hd. induction 1 as [|s w fuel files ev s1 s2 H _ IH]; [done|]. intros Hf. apply IH.
    unfold sysEvent in H. destruct (xs_execs s !! execOf ev) as [x|]; [|done]. set (x0 := x <| x_out := [] |> <| x_files := files |>) in *.
    destruct (execEvent o w fuel ev x0) as [x1|] eqn:E; [|done]. injection H as <-. cbn [xs_trace]. apply Forall_app. split; [done|].
    apply Forall_fmap. apply Forall_impl with (P := fun f => match f with FStart _ _ _ => False | _ => True end); [|done].
    assert (Q : forall l, Forall quiet l -> Forall (fun f => match f with FStart _ _ _ => False | _ => True end) l).
    { intros l Hl. eapply Forall_impl; [exact Hl|]. by intros []. }
    assert (P : forall cs, Forall (fun f => match f with FStart _ _ _ => False | _ => True end) (map (fun c => printed (c_line c)) cs ++ [FFinish false])).
    { intros cs. apply Forall_app. split; [|by repeat constructor]. apply Forall_fmap. by apply Forall_forall. }
    destruct ev as [j t cs|j code]; cbn [execEvent] in E; destruct (x_active x0); try done.
    - destruct (xstart o w fuel t cs x0) as [u|u|] eqn:Es; try done; injection E as <-.
      + destruct cs as [|c cs].
        * cbn in Es. injection Es as <-. cbn. by repeat constructor.
        * unfold xstart in Es. cbv zeta in Es. set (y := x0 <| x_target := t |> <| x_active := true |>) in *.
          destruct (createTempFiles o w fuel (c :: cs) (cleanupTempFiles y)) as [[cs' z]|z|] eqn:E; [|done|done]. injection Es as <-.
          destruct (cleanup_out y) as (l1 & A1 & A2 & _). pose proof (create_out o w fuel (c :: cs) (cleanupTempFiles y)) as B. rewrite E in B.
          destruct B as (l2 & B1 & B2 & _). set (z' := z <| x_next := [] |> <| x_cwd := [] |>).
          destruct (run_dry o w cs' z' Hd) as (-> & _). change (x_out z') with (x_out z). rewrite B1, A1. change (x_out y) with (@nil effect).
          cbn [app]. rewrite !Forall_app. split; [split; by apply Q|]. rewrite <- Forall_app. apply P.
      + unfold xstart in Es. cbv zeta in Es. set (y := x0 <| x_target := t |> <| x_active := true |>) in *. destruct cs as [|c cs]; [done|].
        destruct (createTempFiles o w fuel (c :: cs) (cleanupTempFiles y)) as [[cs' z]|z|] eqn:E; [done| |done]. injection Es as <-.
        destruct (cleanup_out y) as (l1 & A1 & A2 & _). pose proof (create_out o w fuel (c :: cs) (cleanupTempFiles y)) as B. rewrite E in B.
        destruct B as (l2 & B1 & B2 & _). rewrite B1, A1. change (x_out y) with (@nil effect). cbn [app]. apply Forall_app. split; by apply Q.
    - injection E as <-. unfold processFinished. destruct (x_cmds x0) as [|c cs]; [by constructor|].
      destruct (c_max c <? code); [by repeat constructor|]. destruct (run_dry o w cs x0 Hd) as (-> & _). cbn [app]. apply P. }
  intros Hin. pose proof (G _ _ Hr) as H. feed specialize H; [by constructor|].
  rewrite Forall_forall in H. exact (H _ Hin).
Qed.

(** Examples: a target with two commands, one of them silent. *)
Definition dryOpts : xopts := Xopts true false false (s2q "cmd.exe") (s2q "C:/") (s2q "C:/t/") (s2q "7") (s2q "C:\Makefile").
Definition plainWorld : xworld := Xworld (fun _ _ _ => true) Some (fun _ => true) (fun n => [48 + N.of_nat n]).
Definition fresh : xst := Xst [] [] [(s2q "TMP", s2q "C:\")] (Penv [] []) [] [] false [] ∅ 0 [].
Definition inlineCmd (line name content : string) (keep : bool) : command :=
  Command (s2q line) [InlineFile keep false (s2q name) (s2q content)] 0 false false.
Definition outOf (r : xres xst) : option (list effect) := match r with XOk x => Some (x_out x) | _ => None end.
Example C37_printed_ex :
  outOf (xstart dryOpts plainWorld 9 (s2q "t") [Command (s2q "cl a.c") [] 0 true false; Command (s2q "set A=1") [] 0 false false] fresh)
  = Some [printed (s2q "cl a.c"); printed (s2q "set A=1"); FFinish false].
Proof. by vm_compute. Qed.
Example C37_no_process_ex : exists s, sysRun dryOpts (sysStart 1 [] (Penv [] [])) s /\ List.length (xs_trace s) = 2%nat.
Proof.
  eexists. split.
  - apply (sr_step _ _ plainWorld 9 ∅ (XStart 0 (s2q "t") [Command (s2q "cl a.c") [] 0 true false]) (default (sysStart 1 [] (Penv [] []))
      (sysEvent dryOpts plainWorld 9 ∅ (XStart 0 (s2q "t") [Command (s2q "cl a.c") [] 0 true false]) (sysStart 1 [] (Penv [] []))))); [|constructor].
    vm_compute. reflexivity.
  - vm_compute. reflexivity.
Qed.

(** But files are written: inline files are created in a dry run, too. *)
Theorem C37_written_refuted : exists target cs x,
  outOf (xstart dryOpts plainWorld 9 target cs fresh) = Some x /\ FWrite (s2q "a.rsp") (s2q "text") ∈ x.
Proof.
  exists (s2q "t"), [inlineCmd "link @<<" "a.rsp" "text" true], [FWrite (s2q "a.rsp") (s2q "text"); printed (s2q "link @a.rsp"); FFinish false].
  split; [by vm_compute|]. by left.
Qed.

(** And not every command is printed that a real run would execute: nothing is rebuilt, so a target whose
    dependent is only older than it before the build counts as up to date. prog: a.obj / a.obj: a.c, where
    a.c is newer than a.obj and prog is newer than a.obj. *)
Definition dryKind (c : command) : ckind := KBuiltin [0].
Definition progMk : mkfile := exMk
  [exBlock "prog" ["a.obj"]%string [ExecEx.exCmd "link" 0]; exBlock "a.obj" ["a.c"]%string [ExecEx.exCmd "cl" 0]].
Definition filesBefore : list (string * N) := [("a.c", 9); ("a.obj", 3); ("prog", 5)]%string.
Definition filesAfter : list (string * N) := [("a.c", 9); ("a.obj", 12); ("prog", 5)]%string.
Definition dryWorld : world := ExecEx.exWorld filesBefore.
Definition realWorld : world := fun n => if Nat.ltb n 2 then ExecEx.exWorld filesBefore n else ExecEx.exWorld filesAfter n.
Definition progRun (kind : command -> ckind) (w : world) (es : list event) : option est :=
  match apply w (ExecEx.exOpts false 1) progMk [] with
  | Ok s0 => run exXp exPrep kind w (ExecEx.exOpts false 1) s0 es
  | _ => None
  end.
Definition cmdsOf (s : option est) : list (tid * qstr) :=
  match s with
  | Some s => flat_map (fun e => match e with LCmd t c => [(t, c_line c)] | _ => [] end) (e_log s)
  | None => []
  end.
Definition endOf (s : option est) : option ending := match s with Some s => e_end s | None => None end.
Theorem C37_incomplete_refuted : exists esDry esReal,
  let dry := progRun dryKind dryWorld esDry in
  let real := progRun exKind realWorld esReal in
  endOf dry = Some (EExit 0) /\ cmdsOf dry = [(s2q "a.obj", s2q "cl")] /\
  endOf real = Some (EExit 0) /\ cmdsOf real = [(s2q "a.obj", s2q "cl"); (s2q "prog", s2q "link")].
Proof.
  exists [EvStart (Choice 0 [0] true); EvStart go], [EvStart go; EvExit 0 0 go; EvStart go; EvExit 0 0 go; EvStart go].
  by vm_compute.
Qed.

(** ** C36, the executor *)

(** Before the first command runs all inline files of the target are there: [nss] are their names, command
    by command; they are removed at the next clean-up unless they are to be kept. If no name occurs twice
    every file has its content. *)
Theorem C36_created_partial o w fuel target cs x x' : xstart o w fuel target cs x = XOk x' -> cs <> [] ->
  exists nss cs' x1, createdAll o w target cs nss (dom (x_files (cleanupTempFiles x))) /\
    x' = runCommands o w cs' x1 /\
    (forall k c ns t0 ts, cs !! k = Some c -> nss !! k = Some ns -> c_line c = gaps t0 ts ->
       t0 <> [] -> ch "<" ∉ t0 -> Forall (fun t => ch "<" ∉ t) ts -> Forall (fun n => ch "<" ∉ n) ns ->
       List.length ts = List.length (c_inline c) ->
       exists c', cs' !! k = Some c' /\ c_line c' = filled t0 (zip (map written ns) ts)) /\
    x_temps x1 = zip (concat nss) (map if_keep (concat (map c_inline cs))) /\
    (NoDup (concat nss) -> forall n f, (n, f) ∈ zip (concat nss) (concat (map c_inline cs)) -> x_files x1 !! n = Some (if_content f)) /\
    (forall n, n ∉ concat nss -> x_files x1 !! n = x_files (cleanupTempFiles x) !! n).
Proof.
  intros H Hne. unfold xstart in H. cbv zeta in H. set (y := x <| x_target := target |> <| x_active := true |>) in *.
  destruct cs as [|c cs]; [done|]. set (l := c :: cs) in *. clearbody l. clear Hne.
  destruct (createTempFiles o w fuel l (cleanupTempFiles y)) as [[cs' z]|z|] eqn:E; [|done|done]. injection H as <-.
  assert (Ef : x_files (cleanupTempFiles y) = x_files (cleanupTempFiles x)).
  { apply map_eq. intros n. by rewrite !cleanup_files. }
  assert (Et : x_target (cleanupTempFiles y) = target).
  { unfold cleanupTempFiles. change target with (x_target (y <| x_temps := [] |>)).
    induction (x_temps y) as [|t ts IH]; [done|]. cbn [fold_right]. unfold removeTemp at 1. destruct (snd t); [done|]. exact IH. }
  destruct (cleanup_out y) as (_ & _ & _ & _ & _ & E0).
  apply create_created in E as (nss & H1 & H2 & H3 & H4 & _). rewrite Ef, Et, E0 in *. cbn [app] in H4.
  exists nss, cs', (z <| x_next := [] |> <| x_cwd := [] |>).
  assert (Hl : List.length (concat nss) = List.length (concat (map c_inline l))).
  { clear -H1. induction H1 as [|c cs ns nss known Hc _ IH]; [done|]. cbn. rewrite !app_length, IH. by rewrite (created_files _ _ _ _ _ _ Hc). }
  split_and!; try done.
  - intros k c' ns t0 ts Hk Hns Hl' Ht0 Hc0 Hts Hn Hlen.
    assert (Hns' : List.length ns = List.length (c_inline c')).
    { clear -H1 Hk Hns. revert k Hk Hns. induction H1 as [|c cs ms mss known Hc _ IH]; intros [|k] Hk Hns; try done; cbn in *; [|by eapply IH].
      injection Hk as ->. injection Hns as ->. by eapply created_files. }
    assert (Hz : map c_line cs' !! k = Some (putAll (c_line c') ns)).
    { rewrite H2. apply lookup_zip_with_Some. exists (c_line c'), ns. split_and!; [done| |done]. change (map c_line l) with (c_line <$> l).
      by rewrite list_lookup_fmap, Hk. }
    change (map c_line cs') with (c_line <$> cs') in Hz. rewrite list_lookup_fmap in Hz. destruct (cs' !! k) as [d|]; [|done].
    exists d. split; [done|]. injection Hz as ->. rewrite Hl'. apply putAll_gaps; try done. congruence.
  - intros Hd n f Hin. change (x_files _) with (x_files z). rewrite H3. apply writeAll_at; [|done]. by rewrite zip_fst.
  - intros n Hn. change (x_files (z <| x_next := [] |> <| x_cwd := [] |>)) with (x_files z). rewrite H3, writeAll_other; [done|]. by rewrite zip_fst.
Qed.
Definition realOpts : xopts := Xopts false false false (s2q "cmd.exe") (s2q "C:/") (s2q "C:/t/") (s2q "7") (s2q "C:\Makefile").
Example C36_created_partial_ex :
  outOf (xstart realOpts plainWorld 9 (s2q "d\prog.exe")
    [inlineCmd "link @<< /x" "" "a.obj" false; inlineCmd "lib @<<" "my list" "b.obj" true] fresh)
  = Some [FWrite (s2q "C:/t/prog.exe.7.0.jom") (s2q "a.obj"); FWrite (s2q "my list") (s2q "b.obj");
          printed (s2q "link @C:\t\prog.exe.7.0.jom /x");
          FStart (s2q "link @C:\t\prog.exe.7.0.jom /x") [] (s2q "TMP=C:\" ++ [0; 0; 0])] /\
  c_line (inlineCmd "link @<< /x" "" "a.obj" false) = gaps (s2q "link @") [s2q " /x"].
Proof. by vm_compute. Qed.

(** Clean-up, when the executor is used again or destroyed: exactly the files without KEEP are removed. *)
Theorem C36_cleanup x n :
  ((n, false) ∈ x_temps x -> x_files (cleanupTempFiles x) !! n = None /\ FRemove n ∈ x_out (cleanupTempFiles x)) /\
  ((n, false) ∉ x_temps x -> x_files (cleanupTempFiles x) !! n = x_files x !! n) /\
  x_temps (cleanupTempFiles x) = [].
Proof.
  rewrite cleanup_files. split_and!.
  - intros H. rewrite bool_decide_eq_true_2 by done. split; [done|]. destruct (cleanup_removes x n H) as (l1 & l2 & ->).
    rewrite !elem_of_app, elem_of_cons. auto.
  - intros H. by rewrite bool_decide_eq_false_2.
  - by destruct (cleanup_out x) as (_ & _ & _ & _ & _ & E).
Qed.
Example C36_cleanup_ex :
  let x := fresh <| x_temps := [(s2q "a", false); (s2q "b", true)] |> <| x_files := {[s2q "a" := []; s2q "b" := []; s2q "c" := []]} |> in
  map (fun n => bool_decide (is_Some (x_files (cleanupTempFiles x) !! s2q n))) ["a"; "b"; "c"]%string = [false; true; true].
Proof. by vm_compute. Qed.

(** Files of one name: all files are written before the first command, so the first command sees the
    content of the second file. *)
Theorem C36_same_name_refuted : exists cs l,
  cs = [inlineCmd "one @<<" "a.rsp" "first" true; inlineCmd "two @<<" "a.rsp" "second" true] /\
  outOf (xstart realOpts plainWorld 9 (s2q "t") cs fresh) =
    Some ([FWrite (s2q "a.rsp") (s2q "first"); FWrite (s2q "a.rsp") (s2q "second")] ++ l) /\
  exists b, l = [printed (s2q "one @a.rsp"); FStart (s2q "one @a.rsp") [] b].
Proof.
  exists [inlineCmd "one @<<" "a.rsp" "first" true; inlineCmd "two @<<" "a.rsp" "second" true],
    [printed (s2q "one @a.rsp"); FStart (s2q "one @a.rsp") [] (s2q "TMP=C:\" ++ [0; 0; 0])].
  split; [done|]. split; [by vm_compute|]. by eexists.
Qed.

(** A line that begins with << keeps it. *)
Theorem C36_first_column_refuted : exists line, line = s2q "<< x" /\ putName line (s2q "a.rsp") = line.
Proof. eexists. split; [reflexivity|]. by vm_compute. Qed.

(** The names are put into the commands of the target itself. If the target is run again (because another requested target needs it
    and it makes no file), the file of the first run is removed, a new file is written, and the command is run with the
    name of the removed file. *)
Definition firstRun : xres (list command * xst) :=
  createTempFiles realOpts plainWorld 9 [inlineCmd "link @<< /x" "" "a.obj" false] (cleanupTempFiles (fresh <| x_target := s2q "p" |>)).
Definition secondRun : xres xst :=
  match firstRun with XOk (cs, x) => xstart realOpts plainWorld 9 (s2q "p") cs (x <| x_out := [] |>) | XThrow x => XThrow x | XNone => XNone end.
Theorem C36_second_run_refuted : exists cs x1 x2 b,
  firstRun = XOk (cs, x1) /\ x_temps x1 = [(s2q "C:/t/p.7.0.jom", false)] /\
  xstart realOpts plainWorld 9 (s2q "p") cs (x1 <| x_out := [] |>) = XOk x2 /\
  x_files x2 !! s2q "C:/t/p.7.0.jom" = None /\ x_files x2 !! s2q "C:/t/p.7.1.jom" = Some (s2q "a.obj") /\
  x_out x2 = [FRemove (s2q "C:/t/p.7.0.jom"); FWrite (s2q "C:/t/p.7.1.jom") (s2q "a.obj");
    printed (s2q "link @C:\t\p.7.0.jom /x"); FStart (s2q "link @C:\t\p.7.0.jom /x") [] b].
Proof.
  assert (G : match firstRun, secondRun with
    | XOk (_, x1), XOk x2 => x_temps x1 = [(s2q "C:/t/p.7.0.jom", false)] /\ x_files x2 !! s2q "C:/t/p.7.0.jom" = None /\
        x_files x2 !! s2q "C:/t/p.7.1.jom" = Some (s2q "a.obj") /\
        x_out x2 = [FRemove (s2q "C:/t/p.7.0.jom"); FWrite (s2q "C:/t/p.7.1.jom") (s2q "a.obj");
          printed (s2q "link @C:\t\p.7.0.jom /x"); FStart (s2q "link @C:\t\p.7.0.jom /x") [] (s2q "TMP=C:\" ++ [0; 0; 0])]
    | _, _ => False end) by by vm_compute.
  unfold secondRun in G. destruct firstRun as [[cs x1]|x1|]; [|done|done].
  destruct (xstart realOpts plainWorld 9 (s2q "p") cs (x1 <| x_out := [] |>)) as [x2|x2|] eqn:E2; [|done|done].
  destruct G as (G1 & G2 & G3 & G4). exists cs, x1, x2, (s2q "TMP=C:\" ++ [0; 0; 0]). by split_and!.
Qed.

Print Assumptions C36_second_run_refuted.
Print Assumptions C37_printed.
Print Assumptions C37_no_process.
Print Assumptions C37_written_refuted.
Print Assumptions C37_incomplete_refuted.
Print Assumptions C36_created_partial.
Print Assumptions C36_cleanup.
Print Assumptions C36_same_name_refuted.
Print Assumptions C36_first_column_refuted.
