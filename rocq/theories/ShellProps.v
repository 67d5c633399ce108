(** C51: the commands of a target, one after the other, as the shell would run them. *)
From Coq Require Import Ascii String.
From stdpp Require Import prelude gmap.
From RecordUpdate Require Import RecordSet.
Import RecordSetNotations.
From Verif Require Import Base Data Env CmdExec CmdExecSpec CmdExecProofs MacroSpec MkLineSpec ShellSpec ShellProofs.
Local Open Scope N_scope.

(** A command with the names of its inline files. *)
Definition named (c c' : command) : Prop :=
  c_max c' = c_max c /\ c_silent c' = c_silent c /\ c_inline c' = c_inline c /\ (c_inline c = [] -> c_line c' = c_line c).
Lemma create_named o w fuel cs : forall x cs' x', createTempFiles o w fuel cs x = CmdExec.XOk (cs', x') -> Forall2 named cs cs' /\ x_target x' = x_target x.
Proof.
  assert (HF : forall fs line x line' x', createForCommand o w fuel fs line x = CmdExec.XOk (line', x') -> x_target x' = x_target x /\ (fs = [] -> line' = line)).
  { induction fs as [|f fs IH]; intros line x line' x'; cbn [createForCommand]; [by intros [= <- <-]|].
    unfold createTempFile. intros H. split; [|done].
    destruct (match if_name f with [] => _ | _ => _ end) as [[nm tk]|]; [|done]. cbv zeta in H.
    destruct (xw_open w nm); [|done]. apply IH in H as [-> _]. by destruct (xo_dump o). }
  induction cs as [|c cs IH]; intros x cs' x'; cbn [createTempFiles]; [intros [= <- <-]; by split|].
  destruct (createForCommand _ _ _ _ _ _) as [[line y]|y|] eqn:E; try done. destruct (createTempFiles o w fuel cs y) as [[cs2 z]|z|] eqn:E2; try done.
  intros [= <- <-]. apply HF in E as [E1 E3]. apply IH in E2 as [E4 E5]. split; [constructor; [|done]|congruence]. split_and!; try done.
Qed.

(** From the start of a target on, whatever exit codes the processes have: first come effects on inline files, then exactly what the
    story of the commands tells. *)
Theorem C51_story o w fuel target cs x x0 x' : (forall a, xw_path w a <> Some []) -> cs <> [] ->
  xstart o w fuel target cs x = CmdExec.XOk x0 -> life o x0 x' ->
  exists pre cs' l, x_out x' = x_out x ++ pre ++ l /\ Forall quiet pre /\ Forall2 named cs cs' /\ story o target [] cs' l.
Proof.
  intros Hw Hne H HL. unfold xstart in H. cbv zeta in H. set (y := x <| x_target := target |> <| x_active := true |>) in *.
  destruct cs as [|c cs]; [done|]. set (cs0 := c :: cs) in *. clearbody cs0. clear Hne.
  destruct (createTempFiles o w fuel cs0 (cleanupTempFiles y)) as [[cs' z]|z|] eqn:E; [|done|done]. injection H as <-.
  destruct (cleanup_out y) as (l1 & A1 & A2 & _). pose proof (create_out o w fuel cs0 (cleanupTempFiles y)) as B. rewrite E in B.
  destruct B as (l2 & B1 & B2 & _). destruct (create_named _ _ _ _ _ _ _ E) as [N1 N2].
  assert (Ht : x_target (cleanupTempFiles y) = target).
  { unfold cleanupTempFiles. change target with (x_target (y <| x_temps := [] |>)).
    induction (x_temps y) as [|t ts IH]; [done|]. cbn [fold_right]. unfold removeTemp at 1. destruct (snd t); [done|]. exact IH. }
  exists (l1 ++ l2), cs'. set (z' := z <| x_next := [] |> <| x_cwd := [] |>) in *.
  assert (Hz : x_out z' = x_out x ++ l1 ++ l2). { change (x_out z') with (x_out z). rewrite B1, A1. change (x_out y) with (x_out x). by rewrite <- app_assoc. }
  assert (Htz : x_target z' = target) by (change (x_target z') with (x_target z); congruence).
  assert (G : exists l, x_out x' = x_out z' ++ l /\ x_target x' = target /\ story o target [] cs' l /\ gone o target [] cs' l x').
  { clear -Hw HL Htz. induction HL as [|w' code u _ IH Ha Hf Hw'].
    - apply run_story; [done|done|]. done.
    - destruct IH as (l & G1 & G2 & G3 & [G4|[G4|(c & rest & d & G5 & G6 & G7)]]).
      + congruence.
      + exfalso. apply Hf. rewrite G1. apply elem_of_app. by right.
      + unfold processFinished. rewrite G5. destruct (c_max c <? code) eqn:Em.
        * exists (l ++ [failure o target code; FFinish true]). split_and!.
          -- unfold finishExecution, emit, errorText, failure. cbn -[decimalText s2q]. by rewrite G1, G2, <- !app_assoc.
          -- done.
          -- apply (G7 code). left. split; [by apply N.ltb_lt|done].
          -- by left.
        * apply N.ltb_ge in Em. destruct (run_story o w' target rest Hw' u d G2 G6) as (l2 & R1 & R2 & R3 & R4). exists (l ++ l2). split_and!.
          -- by rewrite R1, G1, <- app_assoc.
          -- done.
          -- apply (G7 code). right. by split.
          -- destruct R4 as [R4|[R4|(c' & rest' & d' & S1 & S2 & S3)]]; [by left|right; left; apply elem_of_app; by right|].
             right. right. exists c', rest', d'. split_and!; [done|done|]. intros code' l3 H3. rewrite <- app_assoc. apply (G7 code). right. split; [done|].
             by eapply S3. }
  destruct G as (l & G1 & _ & G3 & _). exists l. split_and!; [by rewrite G1, Hz, <- app_assoc|by apply Forall_app|done|done].
Qed.
Print Assumptions C51_story.

(** So the processes are those of some of the commands, in their order. *)
Definition processes (l : list effect) : list qstr := flat_map (fun f => match f with FStart p _ _ => [p] | _ => [] end) l.
Definition runsAs (o : xopts) (c : command) (p : qstr) : Prop := exists line, percents (c_line c) line /\ startsAs (xo_comspec o) line p.
Theorem C51_order o target d cs l : story o target d cs l -> exists ran, ran `sublist_of` cs /\ Forall2 (runsAs o) ran (processes l).
Proof.
  assert (P0 : forall c l', processes (shown o c ++ l') = processes l') by (intros c l'; unfold shown; by destruct (_ || _)).
  revert d l. induction cs as [|c cs IH]; intros d l H; inversion H as [|? ? ? line l' HP Hk Hs|? ? ? line l' HP Hd Hc Ha]; subst.
  - exists []. by split; [constructor|constructor].
  - destruct (IH _ _ Hs) as (ran & R1 & R2). exists ran. split; [by constructor|]. by rewrite P0.
  - rewrite P0.
    assert (KK : forall d' l', story o target d' cs l' -> exists ran, ran `sublist_of` c :: cs /\ Forall2 (runsAs o) ran (processes l')).
    { intros d' l2 H2. destruct (IH _ _ H2) as (ran & R1 & R2). exists ran. split; [by constructor|done]. }
    assert (K1 : forall p, startsAs (xo_comspec o) line p -> exists ran, ran `sublist_of` c :: cs /\ Forall2 (runsAs o) ran [p]).
    { intros p Hp. exists [c]. split; [constructor; apply sublist_nil_l|]. constructor; [|constructor]. by exists line. }
    assert (K0 : exists ran : list command, ran `sublist_of` c :: cs /\ Forall2 (runsAs o) ran []) by (exists []; split; [apply sublist_nil_l|constructor]).
    destruct Ha as [l2 r _ _ _ Hk|l2 r _ _ _ Hk|w p l2 r a _ _ _ _ _ Hk|w l2 r a _ _ _ _ _ _ Hk|w r a _ _ _ _ _ _|l2 r n v _ _ _ _ Hk|l2 r t _ _ _ _ Hk
      |p b _ Hp|p b code _ Hp _|p b code l2 _ Hp _ Hk|w b p _ _ _].
    + exact (KK _ _ Hk).
    + exact (KK _ _ Hk).
    + exact (KK _ _ Hk).
    + exact (KK _ _ Hk).
    + exact K0.
    + exact (KK _ _ Hk).
    + exact (KK _ _ Hk).
    + exact (K1 p Hp).
    + exact (K1 p Hp).
    + destruct (IH _ _ Hk) as (ran & R1 & R2). exists (c :: ran). split; [by constructor|]. constructor; [by exists line|exact R2].
    + exact K0.
Qed.
Print Assumptions C51_order.

(** The directory changes for the commands behind it, in this target only; %% is %; a shell is used for what needs one. *)
Definition shOpts : xopts := Xopts false false false (s2q "cmd.exe") (s2q "C:/") (s2q "C:/t/") (s2q "7") (s2q "C:\Makefile").
Definition shWorld : xworld := Xworld (fun _ _ _ => true) (fun a => Some (s2q "C:/" ++ a)) (fun _ => true) (fun n => [48 + N.of_nat n]).
Definition shFresh : xst := Xst [] [] [] (Penv [] []) [] [] false [] ∅ 0 [].
Definition shCmd (s : string) : command := Command (s2q s) [] 0 false false.
Definition shAll (cmds : list command) : list effect :=
  match xstart shOpts shWorld 9 (s2q "t") cmds shFresh with
  | CmdExec.XOk x => x_out (processFinished shOpts shWorld 1 (processFinished shOpts shWorld 0 (processFinished shOpts shWorld 0 x)))
  | _ => []
  end.
Example C51_story_ex :
  shAll [shCmd "cl 100%%"; shCmd "cd sub/x"; shCmd "REM no"; shCmd "link ""a b"" > log"; shCmd "cd /d ""y"""; shCmd "echo z"; shCmd "never"] =
  [printed (s2q "cl 100%%"); FStart (s2q "cl 100%") [] [];
   printed (s2q "cd sub/x"); printed (s2q "REM no"); printed (s2q "link ""a b"" > log");
   FStart (s2q "cmd.exe /C ""link ""a b"" > log""") (s2q "C:\sub\x") [];
   printed (s2q "cd /d ""y"""); printed (s2q "echo z"); FStart (s2q "cmd.exe /C echo z") (s2q "C:\y") [];
   failure shOpts (s2q "t") 1; FFinish true].
Proof. by vm_compute. Qed.
Example C51_order_ex : exists ran, ran `sublist_of` [shCmd "cl 100%%"; shCmd "cd sub/x"; shCmd "dir"] /\
  processes (shAll [shCmd "cl 100%%"; shCmd "cd sub/x"; shCmd "dir"]) = map s2q ["cl 100%"; "dir"]%string /\ ran = [shCmd "cl 100%%"; shCmd "dir"].
Proof. eexists. split; [|split; [by vm_compute|reflexivity]]. apply sublist_skip, sublist_cons, sublist_skip, sublist_nil. Qed.

(** A shell would understand two cd commands as a path with two parts, and /data as a name. Here every relative path begins at
    the directory jom was started in, and the name is taken for the option /d with the name ta. *)
Theorem C51_cd_refuted : exists cmds cmds',
  cmds = [shCmd "cd a"; shCmd "cd b"; shCmd "cl"] /\ FStart (s2q "cl") (s2q "C:\b") [] ∈ shAll cmds /\
  cmds' = [shCmd "cd /data"; shCmd "cl"] /\ FStart (s2q "cl") (s2q "C:\ta") [] ∈ shAll cmds'.
Proof.
  eexists _, _. split; [reflexivity|]. split; [|split; [reflexivity|]]; apply elem_of_list_In; vm_compute; tauto.
Qed.
Print Assumptions C51_cd_refuted.
