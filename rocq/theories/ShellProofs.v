(** Proofs about the commands of one target in an executor. *)
From Coq Require Import Ascii String.
From stdpp Require Import prelude gmap.
From RecordUpdate Require Import RecordSet.
Import RecordSetNotations.
From Verif Require Import Base Data Env CmdExec CmdExecSpec CmdExecProofs BaseProofs MacroSpec MacroProofs MkLineSpec MkLineProofs PreprocRunProofs EnvProofs InferProofs OptsProofs OptsLineProofs ShellSpec.
Local Open Scope N_scope.

(** *** Lines *)
Lemma word_starts line w r : word (foldCase w) line r -> startsWithCommand line w = true /\ drop (S (List.length w)) line = r.
Proof.
  intros (v & s & -> & Hv & Hs). assert (Lv : List.length v = List.length w) by (rewrite <- (foldCase_length v), Hv; apply foldCase_length).
  unfold startsWithCommand, startsWith_ci. rewrite <- Lv at 1. rewrite drop_app, Hs. cbn [andb].
  rewrite fold_app, Hv. split; [apply startsWith_app|]. rewrite <- Lv. replace (S (List.length v)) with (List.length v + 1)%nat by lia.
  by rewrite <- drop_drop, drop_app.
Qed.
Lemma starts_word line w : startsWithCommand line w = true -> word (foldCase w) line (drop (S (List.length w)) line).
Proof.
  unfold startsWithCommand. destruct (drop (List.length w) line) as [|s r] eqn:E; [done|]. intros [Hs Hp]%andb_true_iff.
  exists (take (List.length w) line), s. assert (El : line = take (List.length w) line ++ s :: r) by (rewrite <- E; symmetry; apply take_drop).
  assert (Lt : List.length (take (List.length w) line) = List.length w).
  { apply take_length_le. apply (f_equal (@List.length _)) in E. rewrite drop_length in E. cbn in E. lia. }
  split_and!; [| |done].
  - rewrite El at 1. f_equal. f_equal. replace (S (List.length w)) with (List.length w + 1)%nat by lia. by rewrite <- drop_drop, E.
  - unfold startsWith_ci in Hp. apply startsWith_true in Hp as [t Hp]. rewrite El, fold_app in Hp.
    apply (f_equal (take (List.length (foldCase w)))) in Hp. rewrite take_app in Hp. rewrite <- Hp. rewrite take_app_alt; [done|].
    rewrite !foldCase_length. done.
Qed.
Lemma starts_word_iff line w : startsWithCommand line w = true <-> exists r, word (foldCase w) line r.
Proof. split; [intros H; eexists; by apply starts_word|intros [r H]; apply word_starts in H as [H _]; exact H]. Qed.
Lemma not_starts line w : startsWithCommand line w = false -> forall r, ~ word (foldCase w) line r.
Proof. intros H r Hr. apply word_starts in Hr as [Hr _]. congruence. Qed.
Lemma comment_iff line : isShellComment line = true <-> isComment line.
Proof.
  unfold isShellComment, isComment. rewrite orb_true_iff, starts_word_iff. change (foldCase (s2q "rem")) with (s2q "rem").
  split; (intros [H|H]; [left|by right]).
  - apply startsWith_true in H as [t ->]. by exists t.
  - destruct H as [r ->]. apply (startsWith_app [58]).
Qed.
Lemma plain_iff line : isSimpleCommandLine line = true <-> plainLine line.
Proof.
  unfold isSimpleCommandLine, plainLine. rewrite negb_true_iff. split.
  - intros H c Hc Hs. apply not_true_iff_false in H. apply H. apply existsb_exists. exists c. split; [by apply elem_of_list_In|].
    apply elem_of_list_In in Hs. vm_compute in Hs. destruct Hs as [<-|[<-|[<-|[<-|[]]]]]; by vm_compute.
  - intros H. apply not_true_iff_false. intros (c & Hc & Hx)%existsb_exists. apply elem_of_list_In in Hc. apply (H c Hc).
    rewrite !orb_true_iff, !N.eqb_eq in Hx. destruct Hx as [[[->| ->]| ->]| ->]; apply elem_of_list_In; vm_compute; tauto.
Qed.
Lemma builtin_iff line : startsWithShellBuiltin line = true <-> shellWord line.
Proof.
  assert (HF : Forall (fun w => foldCase w = w) shellWords).
  { apply (Forall_forall (fun w => foldCase w = w)). intros w Hw. apply elem_of_list_In in Hw. unfold shellWords in Hw. cbn [map] in Hw.
    repeat (destruct Hw as [<-|Hw]; [by vm_compute|]). done. }
  rewrite Forall_forall in HF.
  unfold startsWithShellBuiltin, shellWord. change shellBuiltins with shellWords. rewrite existsb_exists. split.
  - intros (w & Hw & H). apply elem_of_list_In in Hw. exists w. apply starts_word in H. rewrite (HF w Hw) in H. eexists. by split.
  - intros (w & r & Hw & H). exists w. split; [by apply elem_of_list_In|]. rewrite <- (HF w Hw) in H. apply word_starts in H as [H _]. exact H.
Qed.
Lemma quoteChar line : containsChar 34 line = true <-> 34 ∈ line.
Proof.
  unfold containsChar. rewrite existsb_exists. split.
  - intros (c & Hc & <-%N.eqb_eq). by apply elem_of_list_In.
  - intros H. exists 34. split; [by apply elem_of_list_In|done].
Qed.

(** *** The directory *)
Definition dirOf (x : xst) : qstr := match x_next x with [] => x_cwd x | p => p end.
Definition inDir (x : xst) (d : qstr) : Prop := toNative (dirOf x) = toNative d /\ (dirOf x = [] <-> d = []).
Lemma inDir_ext x y d : inDir x d -> dirOf y = dirOf x -> inDir y d.
Proof. unfold inDir. by intros H ->. Qed.
Lemma dir_taken x : dirOf (takeDirectory x) = dirOf x /\ x_next (takeDirectory x) = [] /\ x_cwd (takeDirectory x) = dirOf x /\
  x_out (takeDirectory x) = x_out x /\ x_target (takeDirectory x) = x_target x /\ x_cmds (takeDirectory x) = x_cmds x.
Proof. unfold dirOf, takeDirectory. destruct (x_next x) eqn:E; cbn; rewrite ?E; by split_and!. Qed.
Lemma native_idem s : toNative (toNative s) = toNative s.
Proof. unfold toNative, replaceChar. rewrite map_map. apply map_ext. intros c. by destruct (c =? 47) eqn:E; [|rewrite E]. Qed.
Lemma native_nil s : toNative s = [] <-> s = [].
Proof. unfold toNative, replaceChar. by destruct s. Qed.

Definition gone (o : xopts) (t : qstr) (d : qstr) (cs : list command) (l : list effect) (x : xst) : Prop :=
  x_active x = false \/ FFatal ∈ l \/
  exists c rest d', x_cmds x = c :: rest /\ inDir x d' /\
    forall code l2, ((c_max c < code /\ l2 = [failure o t code; FFinish true]) \/ (code <= c_max c /\ story o t d' rest l2)) -> story o t d cs (l ++ l2).

Lemma cd_argument r : trimmed r <> [] -> cdArgument r (if startsWith_ci (s2q "/d") (trimmed r) then trimmed (drop 3 (trimmed r)) else trimmed r).
Proof.
  intros Hne. exists (trimmed r). split_and!; [apply trimmed_trims|done|]. destruct (startsWith_ci _ _) eqn:E; unfold startsWith_ci in E.
  - left. apply startsWith_true in E as [t E]. exists (take 2 (trimmed r)), (drop 2 (trimmed r)). split_and!.
    + by rewrite take_drop.
    + change (foldCase (s2q "/d")) with (s2q "/d") in E. unfold foldCase in *. rewrite <- firstn_map. by rewrite E.
    + rewrite drop_drop. apply trimmed_trims.
  - right. split; [|done]. intros x y Ex Hx. rewrite Ex, fold_app, Hx in E. change (foldCase (s2q "/d")) with (s2q "/d") in E. by rewrite startsWith_app in E.
Qed.

Lemma starts_direct comspec line : isSimpleCommandLine line = true -> startsWithShellBuiltin line = false -> startsAs comspec line line.
Proof. intros H1 H2. apply sa_direct; [by apply plain_iff|]. rewrite <- builtin_iff. by rewrite H2. Qed.
Lemma starts_shell comspec line (w : xworld) dir b : isSimpleCommandLine line = false \/ startsWithShellBuiltin line = true \/ xw_runs w line dir b = false ->
  startsAs comspec line (shellLine comspec line).
Proof.
  intros H. assert (Hq : (34 ∈ line /\ (if containsChar 34 line then [34] ++ line ++ [34] else line) = [34] ++ line ++ [34]) \/
                         (34 ∉ line /\ (if containsChar 34 line then [34] ++ line ++ [34] else line) = line)).
  { destruct (containsChar 34 line) eqn:E; [left; split; [by apply quoteChar|done]|right]. split; [|done]. rewrite <- quoteChar. by rewrite E. }
  assert (Hn : ~ plainLine line \/ shellWord line \/ xw_runs w line dir b = false).
  { destruct H as [H|[H|H]]; [left|right; left; by apply builtin_iff|by right; right]. rewrite <- plain_iff. by rewrite H. }
  pose proof (sa_shell comspec line w dir b _ Hn Hq) as HS. unfold shellLine. by destruct comspec.
Qed.

(** *** The commands *)
Lemma run_story o w t cs : (forall a, xw_path w a <> Some []) -> forall x d, x_target x = t -> inDir x d ->
  exists l, x_out (runCommands o w cs x) = x_out x ++ l /\ x_target (runCommands o w cs x) = t /\ story o t d cs l /\ gone o t d cs l (runCommands o w cs x).
Proof.
  intros Hw. induction cs as [|c cs IH]; intros x d Ht Hd.
  { exists [FFinish false]. split_and!; [done|done|constructor|by left]. }
  cbn [runCommands]. set (y := echo o c (x <| x_cmds := c :: cs |>)).
  assert (Ey : x_out y = x_out x ++ shown o c /\ x_target y = t /\ dirOf y = dirOf x /\ x_cmds y = c :: cs).
  { unfold y, echo, shown, printed. destruct (_ || _); cbn; [done|]. by rewrite app_nil_r. }
  destruct Ey as (E1 & E2 & E3 & E4). clearbody y. apply (inDir_ext _ y) in Hd; [|done].
  assert (HP : percents (c_line c) (replaceAll (s2q "%%") (s2q "%") (c_line c))) by apply substituted_ok.
  unfold classify. cbv zeta. set (line := replaceAll _ _ (c_line c)) in *. clearbody line.
  (* what a continuation gives *)
  assert (K : forall (m : list effect) z d', x_out z = x_out y ++ m -> x_target z = t -> inDir z d' ->
    (forall l, story o t d' cs l -> story o t d (c :: cs) (shown o c ++ m ++ l)) ->
    exists l, x_out (runCommands o w cs z) = x_out x ++ l /\ x_target (runCommands o w cs z) = t /\ story o t d (c :: cs) l /\ gone o t d (c :: cs) l (runCommands o w cs z)).
  { intros m z d' Z1 Z2 Z3 Z4. destruct (IH z d' Z2 Z3) as (l & L1 & L2 & L3 & L4). exists (shown o c ++ m ++ l).
    split_and!; [by rewrite L1, Z1, E1, <- !app_assoc|done|by apply Z4|].
    destruct L4 as [L4|[L4|(c' & rest & d2 & G1 & G2 & G3)]]; [by left|right; left; rewrite !elem_of_app; auto|].
    right. right. exists c', rest, d2. split_and!; [done|done|]. intros code l2 H2. rewrite <- !app_assoc. apply Z4. by eapply G3. }
  destruct (xo_dryRun o || isShellComment line) eqn:Ec.
  { apply (K [] y d); [by rewrite app_nil_r|done|done|]. intros l Hl. eapply s_skip; [exact HP| |exact Hl].
    apply orb_true_iff in Ec as [?|?]; [by left|right; by apply comment_iff]. }
  apply orb_false_iff in Ec as [Edry Ec]. assert (Hc : ~ isComment line) by (rewrite <- comment_iff; by rewrite Ec).
  assert (KA : forall l, acts o t (fun d' l' => story o t d' cs l') d c line l -> story o t d (c :: cs) (shown o c ++ l)).
  { intros l Hl. by eapply s_act. }
  destruct (dir_taken y) as (T1 & T2 & T3 & T4 & T5 & T6). assert (HdT : inDir (takeDirectory y) d) by by eapply inDir_ext.
  set (z := takeDirectory y) in *. clearbody z. rewrite E2 in T5. rewrite E4 in T6.
  (* a process *)
  assert (HPr : forall direct, isProcess line ->
    (direct = Some line /\ isSimpleCommandLine line = true /\ startsWithShellBuiltin line = false) \/
    (direct = None /\ (isSimpleCommandLine line = false \/ startsWithShellBuiltin line = true)) ->
    let r := startProcess w direct (shellLine (xo_comspec o) line) z in
    exists l, x_out r = x_out x ++ l /\ x_target r = t /\ story o t d (c :: cs) l /\ gone o t d (c :: cs) l r).
  { intros direct Hpr Hdir. cbv zeta.
    assert (HS : forall p b (q : xst), startsAs (xo_comspec o) line p -> x_out q = x_out z ++ [FStart p (toNative d) b] -> x_target q = t -> x_cmds q = c :: cs -> inDir q d ->
      exists l, x_out q = x_out x ++ l /\ x_target q = t /\ story o t d (c :: cs) l /\ gone o t d (c :: cs) l q).
    { intros p b q Hp Q1 Q2 Q3 Q4. exists (shown o c ++ [FStart p (toNative d) b]). split_and!; [by rewrite Q1, T4, E1, <- app_assoc|done| |].
      - apply KA. by apply a_runs.
      - right. right. exists c, cs, d. split_and!; [done|done|]. intros code l2 [[H1 ->]|[H1 H2]]; rewrite <- app_assoc; apply KA.
        + by apply a_fails.
        + by eapply a_ends. }
    assert (Edir : toNative (x_cwd z) = toNative d) by (rewrite T3; apply Hd).
    unfold startProcess. cbv zeta. rewrite Edir. set (b := createEnvBlock _ _).
    assert (Hin : inDir (z <| x_cwd := toNative d |>) d).
    { unfold inDir, dirOf. cbn. rewrite T2. split; [apply native_idem|apply native_nil]. }
    destruct Hdir as [(-> & H1 & H2)|(-> & H1)].
    - destruct (xw_runs w line (toNative d) b) eqn:Er.
      + apply (HS line b); try done. by apply starts_direct.
      + assert (Hss : startsAs (xo_comspec o) line (shellLine (xo_comspec o) line)) by (eapply starts_shell; right; right; exact Er).
        destruct (xw_runs w (shellLine _ _) (toNative d) b) eqn:Er2; [by apply (HS (shellLine (xo_comspec o) line) b)|].
        exists (shown o c ++ [FFatal]). cbn. split_and!; [by rewrite T4, E1, <- app_assoc|done|apply KA; by eapply a_fatal|].
        right. left. rewrite elem_of_app, elem_of_list_singleton. by right.
    - assert (Hss : startsAs (xo_comspec o) line (shellLine (xo_comspec o) line)).
      { apply (starts_shell _ _ w [] []). destruct H1; auto. }
      destruct (xw_runs w (shellLine _ _) (toNative d) b) eqn:Er2; [by apply (HS (shellLine (xo_comspec o) line) b)|].
      exists (shown o c ++ [FFatal]). cbn. split_and!; [by rewrite T4, E1, <- app_assoc|done|apply KA; by eapply a_fatal|].
      right. left. rewrite elem_of_app, elem_of_list_singleton. by right. }
  destruct (isSimpleCommandLine line) eqn:Es.
  2: { apply HPr; [|right; auto]. intros Hpl. apply plain_iff in Hpl. congruence. }
  assert (Hpl : plainLine line) by by apply plain_iff.
  destruct (startsWithCommand line (s2q "cd")) eqn:Ecd.
  { apply starts_word in Ecd. change (foldCase (s2q "cd")) with (s2q "cd") in Ecd. change (S (List.length (s2q "cd"))) with 3%nat in Ecd.
    unfold exec_cd. set (r := drop 3 line) in *. cbv zeta. destruct (trimmed r) as [|a0 ar] eqn:Etr.
    - apply (K [FPrint false (toNative (if decide (d = []) then xo_cwd o else d)); FPrint false [10]] _ d).
      + cbn. rewrite <- app_assoc. cbn. rewrite T4. f_equal. f_equal. f_equal.
        destruct Hd as [D1 D2]. rewrite T3. destruct (decide (d = [])) as [Hn|Hn].
        * by rewrite (proj2 D2 Hn).
        * destruct (dirOf y) eqn:Ed; [by destruct Hn; apply D2|]. by rewrite D1.
      + exact T5.
      + eapply inDir_ext; [exact HdT|]. done.
      + intros l Hl. apply KA. eapply a_show; [done|exact Ecd| |exact Hl]. pose proof (trimmed_trims r) as Hr. rewrite Etr in Hr. exact Hr.
    - assert (Hne : trimmed r <> []) by by rewrite Etr. pose proof (cd_argument r Hne) as Harg. rewrite Etr in Harg.
      set (a2 := if startsWith_ci _ _ then _ else _) in *. destruct a2 as [|b0 br] eqn:Ea2.
      + apply (K [] z d); [by rewrite app_nil_r|done|done|]. intros l Hl. apply KA. by eapply a_stay.
      + rewrite <- Ea2 in *. assert (Ha2 : a2 <> []) by by rewrite Ea2. clear Ea2. destruct (xw_path w (removeDoubleQuotes a2)) as [p|] eqn:Ep.
        * apply (K [] _ p); [by rewrite app_nil_r|done| |].
          -- unfold inDir, dirOf. cbn. destruct p; [by destruct (Hw _ Ep)|done].
          -- intros l Hl. apply KA. by eapply a_go.
        * destruct (c_max c <? 1) eqn:Em.
          -- exists (shown o c ++ [noSuchDir (removeDoubleQuotes a2); failure o t 1; FFinish true]). split_and!.
             ++ cbn. rewrite T4, E1, <- !app_assoc. cbn. unfold errorText. cbn. by rewrite T5.
             ++ exact T5.
             ++ apply KA. eapply a_nodirFails; try done. by apply N.ltb_lt.
             ++ by left.
          -- apply (K [noSuchDir (removeDoubleQuotes a2)] _ d); [by cbn; rewrite T4|done|by eapply inDir_ext|]. intros l Hl. apply KA. eapply a_nodir; try done.
             by apply N.ltb_ge. }
  destruct (startsWithCommand line (s2q "set")) eqn:Eset.
  { apply starts_word in Eset. change (foldCase (s2q "set")) with (s2q "set") in Eset. change (S (List.length (s2q "set"))) with 4%nat in Eset.
    unfold assignment. set (r := drop 4 line) in *. cbv zeta. destruct (indexOfChar (ch "=") (trimmed r)) as [i|] eqn:Ei.
    - apply (K [FSet (take i (trimmed r)) (drop (S i) (trimmed r))] _ d); [by cbn; rewrite T4|done|by eapply inDir_ext|].
      intros l Hl. apply KA. apply (a_set _ _ _ _ _ _ _ r); try done.
      + pose proof (trimmed_trims r) as Hr. rewrite (proj1 (indexOfChar_some _ _ _ Ei)) in Hr. exact Hr.
      + exact (proj2 (indexOfChar_some _ _ _ Ei)).
    - apply (K [] _ d); [by rewrite app_nil_r|done|done|]. intros l Hl. apply KA. eapply a_setNone; try done; [apply trimmed_trims|].
      exact (indexOfChar_none _ _ Ei). }
  apply HPr.
  - intros _ r. split; [exact (not_starts _ (s2q "cd") Ecd r)|exact (not_starts _ (s2q "set") Eset r)].
  - destruct (startsWithShellBuiltin line) eqn:Eb; [right|left]; auto.
Qed.
