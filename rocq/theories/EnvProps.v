(** C35: environment variables. *)
From Coq Require Import Ascii String.
From stdpp Require Import prelude gmap.
From RecordUpdate Require Import RecordSet.
Import RecordSetNotations.
From Verif Require Import Base Data SplitCmdSpec Env CmdExec CmdSys EnvSpec EnvProofs.
Local Open Scope N_scope.

(** Variables: after any variable was set, reading with any spelling of it gives the new value; all others
    are as before. *)
Theorem C35_variables m k v k' : sortedEnv m ->
  sortedEnv (envInsert k v m) /\
  (sameVar k k' -> envFind k' (envInsert k v m) = Some v) /\
  (~ sameVar k k' -> envFind k' (envInsert k v m) = envFind k' m).
Proof.
  intros H. split; [by apply insert_sorted|]. rewrite find_insert by done. destruct (decide (sameVar k k')); split; done.
Qed.
Definition exEnv : env := [(s2q "Include", s2q "C:\inc"); (s2q "TMP", s2q "C:\tmp")].
Lemma exEnv_sorted : sortedEnv exEnv.
Proof. repeat constructor. Qed.
Example C35_variables_ex :
  envFind (s2q "include") (envInsert (s2q "INCLUDE") (s2q "D:\") exEnv) = Some (s2q "D:\") /\
  envFind (s2q "tmp") (envInsert (s2q "INCLUDE") (s2q "D:\") exEnv) = Some (s2q "C:\tmp") /\
  List.length (envInsert (s2q "INCLUDE") (s2q "D:\") exEnv) = 2%nat.
Proof. by vm_compute. Qed.

(** The block that a process gets has each variable once, with its value; only Path and SystemRoot are
    added, from jom's own environment, if there is no such variable. There is one way to read it. *)
Theorem C35_block p e : e <> [] -> sortedEnv e -> Forall cleanVar e -> 0 ∉ p_path p -> 0 ∉ p_root p ->
  exists l, reads (createEnvBlock p e) l /\ (forall l', reads (createEnvBlock p e) l' -> l' = l) /\
    NoDup (map (fun kv => foldCase (fst kv)) l) /\
    forall k, valueIn l k =
      match envFind k e with
      | Some v => Some v
      | None =>
        if decide (sameVar (s2q "Path") k) then match p_path p with [] => None | v => Some v end
        else if decide (sameVar (s2q "SystemRoot") k) then match p_root p with [] => None | v => Some v end
        else None
      end.
Proof.
  intros Hn Hs Hc Hp Hr. destruct (block_read p e Hn Hs Hc Hp Hr) as (l & H1 & H2 & H3). exists l. split_and!; [done| |done|done].
  intros l' H'. by eapply reads_det.
Qed.
Lemma exEnv_clean : Forall cleanVar exEnv.
Proof. repeat (constructor; [unfold cleanVar; split_and!; [done|by apply (bool_decide_unpack _)..]|]). constructor. Qed.
Definition exPenv : penv := Penv (s2q "C:\Windows") (s2q "C:\Windows").
Example C35_block_ex : exists l, reads (createEnvBlock exPenv exEnv) l /\ List.length l = 4%nat /\ valueIn l (s2q "PATH") = Some (s2q "C:\Windows").
Proof.
  exists (envCopy exPenv exEnv). split; [|by vm_compute].
  apply (entries_read (envCopy exPenv exEnv) [0]). apply copy_clean; [apply exEnv_clean|by apply (bool_decide_unpack _)..].
Qed.

(** A line that sets a variable is not given to a process: the executor sets the variable and goes on. *)
Theorem C35_set o w c cs x name value : xo_dryRun o = false -> setLine (c_line c) name value ->
  exists x', runCommands o w (c :: cs) x = runCommands o w cs x' /\ x_env x' = envInsert name value (x_env x) /\
    exists l, x_out x' = x_out x ++ l ++ [FSet name value] /\ Forall (fun f => exists b t, f = FPrint b t) l.
Proof. apply run_set. Qed.
Example C35_set_ex : setLine (s2q "SET  Include=a b=%c% ") (s2q "Include") (s2q "a b=%c%").
Proof.
  exists (s2q "SET"), 32, [32], [32]. split_and!; try done; try (by repeat constructor); try (by apply (bool_decide_unpack _)).
  - split; intros c b E.
    + vm_compute in E. injection E as <- _. done.
    + change (s2q "Include" ++ ch "=" :: s2q "a b=%c%") with (s2q "Include=a b=%c" ++ [ch "%"]) in E.
      apply app_inj_tail in E as [_ <-]. done.
  - intros c Hc. assert (HF : Forall (fun c => c ∉ s2q "|<>&") (s2q "SET  Include=a b=%c% ")) by (by apply (bool_decide_unpack _)).
    rewrite Forall_forall in HF. by apply HF.
  - intros a b E. assert (HI : indexOf (s2q "%%") (s2q "SET  Include=a b=%c% ") = None) by done. rewrite E in HI.
    clear -HI. induction a as [|c a IH]; [discriminate HI|]. cbn [app indexOf] in HI.
    destruct (startsWith _ _); [done|]. destruct (indexOf (s2q "%%") (a ++ s2q "%%" ++ b)); [done|]. by apply IH.
Qed.

(** All executors, all orders of starts and ends of processes, all answers of the outside: every process
    started sees each variable with the value that the last set command before it, of whichever target,
    gave to it, and with its first value if there was none; Path and SystemRoot as jom itself had them at first. *)
Theorem C35_visible o n e p s t1 i line cwd b t2 :
  sysRun o (sysStart n e p) s -> e <> [] -> sortedEnv e -> Forall cleanVar e -> 0 ∉ p_path p -> 0 ∉ p_root p ->
  xs_trace s = t1 ++ (i, FStart line cwd b) :: t2 -> cleanSets (map snd t1) ->
  exists l, reads b l /\ NoDup (map (fun kv => foldCase (fst kv)) l) /\
    forall k, valueIn l k =
      match lastSet (map snd t1) k (valueIn e k) with
      | Some v => Some v
      | None =>
        if decide (sameVar (s2q "Path") k) then match p_path p with [] => None | v => Some v end
        else if decide (sameVar (s2q "SystemRoot") k) then match p_root p with [] => None | v => Some v end
        else None
      end.
Proof.
  intros Hr Hne Hs Hc Hp1 Hp2 Ht Hl. pose proof (sysRun_inv _ _ _ p e Hs Hr (sysStart_inv n e p)) as [_ Hg].
  rewrite (Hg (map snd t1) line cwd b (map snd t2)) by (unfold effects; by rewrite Ht, map_app).
  destruct (block_read p (setsOf (map snd t1) e)) as (l & H1 & H2 & H3); [by apply setsOf_nonempty|by apply setsOf_sorted|by apply setsOf_clean|done|done|].
  exists l. split_and!; [done|done|]. intros k. rewrite H3. unfold added. by rewrite setsOf_find, find_valueIn.
Qed.

(** Two executors: the target t1 sets a variable while t2 is running; the next command of t2 sees it. *)
Definition exOpts : xopts := Xopts false false false (s2q "cmd.exe") (s2q "C:/") (s2q "C:/t/") (s2q "7") (s2q "C:\Makefile").
Definition exWorld : xworld := Xworld (fun _ _ _ => true) Some (fun _ => true) (fun n => [48 + N.of_nat n]).
Definition exCmd (t : string) : command := Command (s2q t) [] 0 false false.
Definition exEvents : list xevent :=
  [XStart 0 (s2q "t2") [exCmd "cl a.c"; exCmd "link a.obj"]; XStart 1 (s2q "t1") [exCmd "set TMP=D:\x"; exCmd "cl b.c"]; XExit 0 0].
Definition exSys (l : list xevent) : option xsys :=
  foldl (fun s e => match s with Some s => sysEvent exOpts exWorld 9 ∅ e s | None => None end) (Some (sysStart 2 exEnv exPenv)) l.
Lemma exSys_run l : forall s0 s, foldl (fun s e => match s with Some s => sysEvent exOpts exWorld 9 ∅ e s | None => None end) (Some s0) l = Some s ->
  sysRun exOpts s0 s.
Proof.
  induction l as [|e l IH]; intros s0 s H; cbn in H; [injection H as <-; constructor|].
  destruct (sysEvent exOpts exWorld 9 ∅ e s0) as [s1|] eqn:E.
  - econstructor; [exact E|by apply IH].
  - exfalso. clear -H. induction l as [|? ? IH]; [done|by apply IH].
Qed.
Definition exTrace : list (nat * effect) := default [] (option_map xs_trace (exSys exEvents)).
Definition exBlock : qstr := createEnvBlock exPenv (envInsert (s2q "TMP") (s2q "D:\x") exEnv).
Lemma exTrace_at : exTrace !! 7%nat = Some (0%nat, FStart (s2q "link a.obj") [] exBlock).
Proof. vm_compute. reflexivity. Qed.
Lemma exTrace_sets : Forall (fun f => match f with FSet n v => (n, v) = (s2q "TMP", s2q "D:\x") | _ => True end) (map snd (take 7 exTrace)).
Proof. vm_compute. repeat constructor. Qed.
Lemma exTrace_last : lastSet (map snd (take 7 exTrace)) (s2q "tmp") (valueIn exEnv (s2q "tmp")) = Some (s2q "D:\x") /\
  lastSet (map snd (take 7 exTrace)) (s2q "include") (valueIn exEnv (s2q "include")) = Some (s2q "C:\inc").
Proof. vm_compute. split; reflexivity. Qed.
Lemma exTrace_run : exists s, sysRun exOpts (sysStart 2 exEnv exPenv) s /\ xs_trace s = exTrace.
Proof.
  assert (H : match exSys exEvents with Some _ => true | None => false end = true) by (vm_compute; reflexivity).
  unfold exTrace, exSys in *. destruct (foldl _ _ exEvents) as [s|] eqn:E; [|discriminate H].
  exists s. split; [exact (exSys_run exEvents _ _ E)|reflexivity].
Qed.
Example C35_visible_ex : exists s t1 cwd b t2, 0 ∉ p_path exPenv /\ 0 ∉ p_root exPenv /\ sysRun exOpts (sysStart 2 exEnv exPenv) s /\
  xs_trace s = t1 ++ (0%nat, FStart (s2q "link a.obj") cwd b) :: t2 /\ cleanSets (map snd t1) /\
  lastSet (map snd t1) (s2q "tmp") (valueIn exEnv (s2q "tmp")) = Some (s2q "D:\x") /\
  lastSet (map snd t1) (s2q "include") (valueIn exEnv (s2q "include")) = Some (s2q "C:\inc").
Proof.
  destruct exTrace_run as (s & Hr & Ht). exists s, (take 7 exTrace), [], exBlock, (drop 8 exTrace).
  split; [by apply (bool_decide_unpack _)|]. split; [by apply (bool_decide_unpack _)|]. split; [exact Hr|]. split; [rewrite Ht; symmetry; exact (take_drop_middle _ _ _ exTrace_at)|]. split; [|exact exTrace_last].
  intros n v H. pose proof exTrace_sets as HF. rewrite Forall_forall in HF. specialize (HF _ H). cbv beta iota in HF. rewrite HF.
  unfold cleanVar; split_and!; [done|by apply (bool_decide_unpack _)..].
Qed.

(** Only plain lines: a set command next to other commands is run by a shell of its own, and what it sets is
    lost with it. *)
Theorem C35_compound_refuted : exists line,
  classify false (s2q "cmd.exe") line = AStart None (s2q "cmd.exe /C set A=1 & echo hi") /\ line = s2q "set A=1 & echo hi".
Proof. eexists. split; [|reflexivity]. by vm_compute. Qed.

(** Nor are values what the shell would make of them: references to other variables stay. *)
Theorem C35_reference_refuted : exists line name value,
  line = s2q "set PATH=%PATH%;C:\bin" /\ classify false (s2q "cmd.exe") line = ASet (Some (name, value)) /\ value = s2q "%PATH%;C:\bin".
Proof. do 3 eexists. split; [reflexivity|]. split; by vm_compute. Qed.

(** A set command with nothing before the equals sign makes a variable without a name; its entry reads as
    another one. *)
Theorem C35_nameless_refuted : exists line name value,
  line = s2q "set =A=1" /\ classify false (s2q "cmd.exe") line = ASet (Some (name, value)) /\ name = [] /\ value = s2q "A=1" /\
  ~ cleanVar (name, value).
Proof.
  do 3 eexists. split; [reflexivity|]. split; [by vm_compute|]. split; [by vm_compute|]. split; [by vm_compute|].
  intros [H _]. by vm_compute in H.
Qed.

Print Assumptions C35_variables.
Print Assumptions C35_block.
Print Assumptions C35_set.
Print Assumptions C35_visible.
Print Assumptions C35_compound_refuted.
Print Assumptions C35_reference_refuted.
Print Assumptions C35_nameless_refuted.
