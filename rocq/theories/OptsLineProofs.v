(** Lemmas about reading the command line: all arguments. *)
From Coq Require Import Ascii String.
From stdpp Require Import prelude gmap.
From RecordUpdate Require Import RecordSet.
Import RecordSetNotations.
From Verif Require Import Base Macro SplitCmd SplitCmdSpec SplitCmdProofs Opts OptsSpec OptsProofs OptsWordProofs.
Local Open Scope N_scope.

(** ** Settings *)

(** The options after [is] when they were [o] before. *)
Definition mix (is : list item) (o : copts) : copts := {|
  o_buildAll := o_buildAll o || has (ch "A") is;
  o_buildIfEqual := o_buildIfEqual o || has (ch "B") is;
  o_showLogo := o_showLogo o && negb (has (ch "L") is || hasLong LNologo is || hasLong LDump is || hasLong LDumpDot is);
  o_suppressMessages := o_suppressMessages o || has (ch "C") is;
  o_overrideEnv := o_overrideEnv o || has (ch "E") is;
  o_displayIncludes := o_displayIncludes o || has (ch "G") is;
  o_dryRun := o_dryRun o || has (ch "N") is;
  o_stopOnErrors := o_stopOnErrors o && negb (has (ch "I") is);
  o_keepGoing := o_keepGoing o || has (ch "K") is;
  o_checkOnly := o_checkOnly o || has (ch "Q") is;
  o_touch := o_touch o || has (ch "T") is;
  o_ignorePredefined := o_ignorePredefined o || has (ch "R") is;
  o_suppressCommands := o_suppressCommands o || has (ch "S") is;
  o_printDir := o_printDir o || has (ch "W") is;
  o_batch := o_batch o && negb (has (ch "Y") is);
  o_dumpInline := o_dumpInline o || has (ch "U") is;
  o_dumpGraph := o_dumpGraph o || (hasLong LDump is || hasLong LDumpDot is);
  o_dumpDot := o_dumpDot o || hasLong LDumpDot is;
  o_displayMakeInfo := o_displayMakeInfo o || has (ch "P") is;
  o_usage := o_usage o || (has (ch "H") is || has (ch "?") is);
  o_buildInfo := o_buildInfo o || has (ch "D") is;
  o_debug := o_debug o || hasLong LDebug is;
  o_version := o_version o || hasLong LVersion is;
  o_stderr := lastOf stderrOf is (o_stderr o);
  o_jobs := lastOf jobsOf is (o_jobs o);
  o_jobsSet := o_jobsSet o || existsb (fun i => match i with IJobs _ _ _ => true | _ => false end) is
|}.

Lemma has_flag l c is : 65 <= l -> l <= 90 -> has l (IFlag c :: is) = (upLatin1 c =? l) || has l is.
Proof. intros. cbn [has existsb]. by rewrite isLet_up. Qed.
Lemma has_q c is : has (ch "?") (IFlag c :: is) = (upLatin1 c =? ch "?") || has (ch "?") is.
Proof. cbn [has existsb]. by rewrite isLet_q. Qed.

Lemma mix_nil o : mix [] o = o.
Proof. unfold mix. cbn. destruct o. cbn. by rewrite ?orb_false_r, ?andb_true_r. Qed.

Lemma orb_swap a b c : a || (b || c) = a || b || c.
Proof. by destruct a, b, c. Qed.

Lemma mix_flag c is o : mix (IFlag c :: is) o = mix is (default o (simpleOption (upLatin1 c) o)).
Proof.
  unfold mix.
  rewrite has_q, !has_flag by (vm_compute; done).
  change (hasLong ?l (IFlag c :: is)) with (hasLong l is).
  cbn [lastOf stderrOf jobsOf default existsb].
  generalize (upLatin1 c). clear c. intros u.
  generalize (has (ch "A") is) (has (ch "B") is) (has (ch "C") is) (has (ch "D") is) (has (ch "E") is) (has (ch "G") is)
    (has (ch "H") is) (has (ch "?") is) (has (ch "I") is) (has (ch "K") is) (has (ch "L") is) (has (ch "N") is) (has (ch "P") is)
    (has (ch "Q") is) (has (ch "R") is) (has (ch "S") is) (has (ch "T") is) (has (ch "U") is) (has (ch "W") is) (has (ch "Y") is)
    (hasLong LNologo is) (hasLong LDump is) (hasLong LDumpDot is) (hasLong LDebug is) (hasLong LVersion is). intros.
  unfold simpleOption.
  repeat match goal with
  | |- context [if u =? ch ?x then _ else _] =>
    destruct (u =? ch x) eqn:?E; [rewrite N.eqb_eq in *; subst u; cbn; rewrite ?orb_true_r, ?andb_false_r; reflexivity|]
  | |- context [if (u =? ch ?x) || (u =? ch ?y) then _ else _] =>
    destruct (u =? ch x) eqn:?E; [rewrite N.eqb_eq in *; subst u; cbn; rewrite ?orb_true_r, ?andb_false_r; reflexivity|];
    destruct (u =? ch y) eqn:?E; [rewrite N.eqb_eq in *; subst u; cbn; rewrite ?orb_true_r, ?andb_false_r; reflexivity|]
  end.
  reflexivity.
Qed.

Lemma mix_cons i is o : mix (i :: is) o = mix is (optAfter i o).
Proof.
  destruct i as [c|l|c s n|f|f].
  - apply mix_flag.
  - unfold mix. change (has ?l (ILong _ :: is)) with (has l is). cbn [lastOf stderrOf jobsOf default existsb optAfter orb].
    destruct o, l; cbn; rewrite ?orb_true_r, ?andb_false_r, ?orb_true_r; reflexivity.
  - unfold mix. change (has ?l (IJobs _ _ _ :: is)) with (has l is). destruct o. cbn. by rewrite orb_true_r.
  - unfold mix. change (has ?l (IFile _ :: is)) with (has l is). destruct o. reflexivity.
  - unfold mix. change (has ?l (IStderr _ :: is)) with (has l is). destruct o. reflexivity.
Qed.

Lemma doItems_opts is st : s_opts (doItems is st) = mix is (s_opts st).
Proof.
  revert st. induction is as [|i is IH]; intros st; [by rewrite mix_nil|].
  cbn [doItems fold_left]. change (fold_left _ is ?x) with (doItems is x). rewrite IH, mix_cons. done.
Qed.

(** options.cpp:128-129. *)
Definition fixIK (o : copts) : copts :=
  if negb (o_stopOnErrors o) && o_keepGoing o then o <| o_keepGoing := false |> else o.

Lemma mix_settings cpus is : fixIK (mix is (defaultOpts cpus)) = settings cpus is.
Proof.
  unfold fixIK, mix, settings, defaultOpts. cbn -[ch has].
  destruct (has (ch "I") is), (has (ch "K") is); reflexivity.
Qed.

Lemma doItems_makefile is st : s_makefile (doItems is st) = lastOf fileOf is (s_makefile st).
Proof. revert st. induction is as [|i is IH]; intros st; [done|]. cbn. rewrite IH. by destruct i. Qed.

Lemma doItems_flags is st : s_flags (doItems is st) = fold_left flagsAfter is (s_flags st).
Proof. revert st. induction is as [|i is IH]; intros st; [done|]. cbn. rewrite IH. by destruct i. Qed.

(** ** Targets and macros *)

Lemma qeqb_iff a b : qeqb a b = true <-> a = b.
Proof.
  revert b. induction a as [|x a IH]; intros [|y b]; cbn; try done.
  rewrite andb_true_iff, N.eqb_eq, IH. split; [by intros [-> ->]|by intros E; injection E].
Qed.
Lemma containsStr_iff x l : containsStr x l = bool_decide (x ∈ l).
Proof.
  unfold containsStr. apply eq_bool_prop_intro. rewrite !Is_true_true, bool_decide_eq_true, existsb_exists. split.
  - intros (y & Hy & E). apply qeqb_iff in E as ->. by apply elem_of_list_In.
  - intros H. exists x. split; [by apply elem_of_list_In|by apply qeqb_iff].
Qed.

Definition addTarget (ts : list qstr) (t : qstr) : list qstr := if bool_decide (t ∈ ts) then ts else ts ++ [t].

Lemma addTargets_firsts ts acc :
  fold_left addTarget ts acc = acc ++ filter (fun y => y ∉ acc) (firsts ts).
Proof.
  revert acc. induction ts as [|t ts IH]; intros acc; [by rewrite app_nil_r|].
  cbn [fold_left firsts]. rewrite IH. unfold addTarget. case_bool_decide as Hin.
  - rewrite filter_cons_False by (intros []; done). f_equal.
    rewrite list_filter_filter. apply list_filter_iff. intros y. split; [|tauto].
    intros Hy. split; [done|]. intros ->. done.
  - rewrite filter_cons_True by done. rewrite <- app_assoc. cbn [app]. f_equal. f_equal.
    rewrite list_filter_filter. apply list_filter_iff. intros y. rewrite elem_of_app, elem_of_list_singleton. tauto.
Qed.

Lemma definitions_ext s s' ms : (forall x, x ∈ s <-> x ∈ s') -> definitions s ms = definitions s' ms.
Proof.
  revert s s'. induction ms as [|[n v] ms IH]; intros s s' H; [done|]. cbn [definitions].
  assert (H' : forall x, x ∈ n :: s <-> x ∈ n :: s') by (intros x; rewrite !elem_of_cons, H; done).
  rewrite (IH _ _ H'). rewrite (bool_decide_ext _ _ (H n)), (bool_decide_ext _ _ (H' (toUpper n))). done.
Qed.

Definition macroState (n v : qstr) (st : rstate) (t : mtable) : rstate :=
  Rstate (r_o st) (r_targets st) t (if bool_decide (n ∈ r_explicit st) then r_explicit st else n :: r_explicit st).

Lemma macroState_explicit n v st t x : x ∈ r_explicit (macroState n v st t) <-> x ∈ n :: r_explicit st.
Proof.
  cbn [macroState r_explicit]. case_bool_decide; [|done]. rewrite elem_of_cons. split; [tauto|intros [->|]; done].
Qed.

Lemma macroArgument_ok n v st st' : isMacroNameValid n = true ->
  macroArgument n v st = COk st' <->
  exists t, defined (r_macros st) (definitions (r_explicit st) [(n, v)]) t /\ st' = macroState n v st t.
Proof.
  intros Hv. unfold macroArgument. rewrite Hv. cbv zeta. rewrite !(containsStr_iff n). cbn [definitions]. rewrite app_nil_r.
  assert (Hup : (negb (qeqb (toUpper n) n) &&
      negb (containsStr (toUpper n) (if bool_decide (n ∈ r_explicit st) then r_explicit st else n :: r_explicit st)))
    = negb (bool_decide (toUpper n ∈ n :: r_explicit st))).
  { rewrite containsStr_iff, (bool_decide_ext _ _ (macroState_explicit n v st (r_macros st) (toUpper n))).
    destruct (qeqb (toUpper n) n) eqn:E; cbn [negb andb]; [|done].
    apply qeqb_iff in E. rewrite E. rewrite bool_decide_eq_true_2; [done|by left]. }
  rewrite Hup. unfold macroState.
  destruct (bool_decide (n ∈ r_explicit st)), (bool_decide (toUpper n ∈ n :: r_explicit st)); cbn [negb app].
  - split.
    + intros E. injection E as <-. eexists. split; [constructor|done].
    + intros (t & Hd & ->). inversion Hd; subst. done.
  - destruct (defineCommandLine (toUpper n) v SrcCommandLineImplicit (r_macros st)) as [t2|] eqn:E2; split.
    + intros E. injection E as <-. exists t2. split; [|done]. econstructor; [done|constructor].
    + intros (t & Hd & ->). inversion Hd as [|? ? ? ? ? ? ? H1 H2]; subst. inversion H2; subst. congruence.
    + done.
    + intros (t & Hd & ->). inversion Hd as [|? ? ? ? ? ? ? H1 H2]; subst. congruence.
  - destruct (defineCommandLine n v SrcCommandLine (r_macros st)) as [t2|] eqn:E2; split.
    + intros E. injection E as <-. exists t2. split; [|done]. econstructor; [done|constructor].
    + intros (t & Hd & ->). inversion Hd as [|? ? ? ? ? ? ? H1 H2]; subst. inversion H2; subst. congruence.
    + done.
    + intros (t & Hd & ->). inversion Hd as [|? ? ? ? ? ? ? H1 H2]; subst. congruence.
  - destruct (defineCommandLine n v SrcCommandLine (r_macros st)) as [t1|] eqn:E1.
    2:{ split; [done|]. intros (t & Hd & ->). inversion Hd as [|? ? ? ? ? ? ? H1 H2]; subst. congruence. }
    destruct (defineCommandLine (toUpper n) v SrcCommandLineImplicit t1) as [t2|] eqn:E2; split.
    + intros E. injection E as <-. exists t2. split; [|done]. econstructor; [done|]. econstructor; [done|constructor].
    + intros (t & Hd & ->). inversion Hd as [|? ? ? ? ? ? ? H1 H2]; subst.
      inversion H2 as [|? ? ? ? ? ? ? H3 H4]; subst. inversion H4; subst. congruence.
    + done.
    + intros (t & Hd & ->). inversion Hd as [|? ? ? ? ? ? ? H1 H2]; subst.
      inversion H2 as [|? ? ? ? ? ? ? H3 H4]; subst. congruence.
Qed.

Lemma defined_app t ds1 ds2 t2 : defined t (ds1 ++ ds2) t2 <-> exists t1, defined t ds1 t1 /\ defined t1 ds2 t2.
Proof.
  revert t. induction ds1 as [|[[n v] s] ds1 IH]; intros t.
  - split; [intros H; exists t; split; [constructor|done]|]. intros (t1 & H1 & H2). inversion H1; by subst.
  - cbn [app]. split.
    + intros H. inversion H as [|? ? ? ? t' ? ? H1 H2]; subst. apply IH in H2 as (t1 & ? & ?).
      exists t1. split; [|done]. by econstructor.
    + intros (t1 & H1 & H2). inversion H1 as [|? ? ? ? t' ? ? H3 H4]; subst. econstructor; [done|]. apply IH. eauto.
Qed.

Lemma definitions_one seen n v ms :
  definitions seen ((n, v) :: ms) = definitions seen [(n, v)] ++ definitions (n :: seen) ms.
Proof. cbn [definitions]. by rewrite app_nil_r, <- app_assoc. Qed.

(** ** The arguments *)

Lemma indexOfChar_some c s i : indexOfChar c s = Some i ->
  s = firstn i s ++ c :: drop (S i) s /\ c ∉ firstn i s.
Proof.
  revert i. induction s as [|x s IH]; intros i E; [done|]. cbn in E. destruct (x =? c) eqn:Ex.
  - injection E as <-. apply N.eqb_eq in Ex as ->. split; [done|]. cbn. apply not_elem_of_nil.
  - destruct (indexOfChar c s) as [k|]; [|done]. injection E as <-. destruct (IH k eq_refl) as [H1 H2].
    apply N.eqb_neq in Ex. split.
    + cbn [firstn app drop]. by f_equal.
    + cbn [firstn]. rewrite elem_of_cons. intros [->|?]; done.
Qed.
Lemma indexOfChar_none c s : indexOfChar c s = None -> c ∉ s.
Proof.
  induction s as [|x s IH]; intros E; [apply not_elem_of_nil|]. cbn in E. destruct (x =? c) eqn:Ex; [done|].
  destruct (indexOfChar c s); [done|]. apply N.eqb_neq in Ex. rewrite elem_of_cons. intros [->|H]; [done|]. by apply IH.
Qed.
Lemma indexOfChar_at c a b : c ∉ a -> indexOfChar c (a ++ c :: b) = Some (List.length a).
Proof.
  induction a as [|x a IH]; intros H; cbn.
  - by rewrite N.eqb_refl.
  - rewrite elem_of_cons in H. rewrite (proj2 (N.eqb_neq x c)) by (intros ->; tauto). rewrite IH by tauto. done.
Qed.
Lemma indexOfChar_notin c s : c ∉ s -> indexOfChar c s = None.
Proof.
  induction s as [|x s IH]; intros H; [done|]. cbn. rewrite elem_of_cons in H.
  rewrite (proj2 (N.eqb_neq x c)) by (intros ->; tauto). by rewrite IH by tauto.
Qed.

Lemma not_signed c w : ((c =? ch "-") || (c =? ch "/")) = false -> ~ signed (c :: w).
Proof.
  rewrite orb_false_iff, !N.eqb_neq. intros [H1 H2] (c' & w' & E & H). injection E as <- <-. tauto.
Qed.
Lemma not_signed' c w : ~ signed (c :: w) -> ((c =? ch "-") || (c =? ch "/")) = false.
Proof.
  intros H. apply orb_false_iff. rewrite !N.eqb_neq. split; intros ->; apply H; eexists _, _; eauto.
Qed.

Lemma optionWord_rest w r is r' : optionWord w r is r' -> (List.length r' <= List.length r)%nat.
Proof.
  induction 1 as [r|c s r i s' r' is r'' Hn Hi _ IH|l w r Hl|l w c s r i s' r' is r'' Hl Hi _ IH]; try lia;
    (assert (List.length r' <= List.length r)%nat; [destruct Hi; cbn; lia|lia]).
Qed.

Lemma arguments_complete args is ms ts : commandLine args is ms ts -> forall n st t,
  (List.length args <= n)%nat -> s_rest (r_o st) = args -> flagsInv (s_flags (r_o st)) ->
  defined (r_macros st) (definitions (r_explicit st) ms) t ->
  exists ex, argumentLoop n st =
    COk (Rstate (withRest [] (doItems is (r_o st))) (fold_left addTarget ts (r_targets st)) t ex).
Proof.
  induction 1 as [|c w r is r' is' ms ts Hc Hw _ IH|n v r is ms ts Hs Hn Hv _ IH|t0 r is ms ts Hs Hn _ IH];
    intros n0 st t Hlen Hr Hf Hd.
  - inversion Hd; subst. exists (r_explicit st).
    destruct st as [[o r m f] ts' mt ex]. cbn in *. subst. by destruct n0.
  - destruct n0 as [|n0]; [cbn in Hlen; lia|]. cbn [argumentLoop]. rewrite Hr.
    cbn [oneArgument]. assert (((c =? ch "-") || (c =? ch "/")) = true) as ->.
    { apply orb_true_iff. rewrite !N.eqb_eq. done. }
    cbn [r_o]. set (o1 := r_o st <| s_rest := r |>).
    destruct (word_complete _ _ _ _ Hw (List.length (trimmed w)) o1) as [E Hf2]; [lia|done|done|].
    unfold handleOption. rewrite E. apply optionWord_rest in Hw. cbn in Hlen.
    destruct (IH n0 (Rstate (withRest r' (doItems is o1)) (r_targets st) (r_macros st) (r_explicit st)) t)
      as [ex E2]; [lia|done|done|done|].
    exists ex. cbn [r_targets r_macros r_explicit]. rewrite E2. cbn [r_o r_targets].
    rewrite doItems_app, doItems_rest. f_equal. f_equal.
    unfold o1. change (r_o st <| s_rest := r |>) with (withRest r (r_o st)). rewrite !doItems_rest. done.
  - destruct n0 as [|n0]; [cbn in Hlen; lia|]. cbn [argumentLoop]. rewrite Hr.
    rewrite definitions_one in Hd. apply defined_app in Hd as (t1 & Hd1 & Hd2).
    set (st1 := Rstate (r_o st <| s_rest := r |>) (r_targets st) (r_macros st) (r_explicit st)).
    assert (E1 : oneArgument (n ++ ch "=" :: v) st1 = COk (macroState (trimmed n) (trimLeft v) st1 t1)).
    { unfold oneArgument. destruct (n ++ ch "=" :: v) as [|x y] eqn:Exy; [by destruct n|].
      rewrite (not_signed' x y) by done. rewrite <- Exy. change 61 with (ch "="). rewrite indexOfChar_at by done.
      unfold qleft. rewrite take_app.
      replace (drop (S (List.length n)) (n ++ ch "=" :: v)) with v.
      2:{ symmetry. replace (S (List.length n)) with (List.length (n ++ [ch "="])) by (rewrite app_length; cbn; lia).
          change (ch "=" :: v) with ([ch "="] ++ v). rewrite app_assoc. apply drop_app. }
      apply macroArgument_ok; [done|]. eauto. }
    rewrite E1. cbn in Hlen.
    destruct (IH n0 (macroState (trimmed n) (trimLeft v) st1 t1) t) as [ex E2]; [lia|done|done| |].
    { rewrite (definitions_ext _ (trimmed n :: r_explicit st)); [done|]. intros x.
      exact (macroState_explicit (trimmed n) (trimLeft v) st1 t1 x). }
    exists ex. rewrite E2. cbn [macroState r_o r_targets st1]. f_equal. f_equal.
    change (r_o st <| s_rest := r |>) with (withRest r (r_o st)). by rewrite !doItems_rest.
  - destruct n0 as [|n0]; [cbn in Hlen; lia|]. cbn [argumentLoop]. rewrite Hr.
    set (st1 := Rstate (r_o st <| s_rest := r |>) (r_targets st) (r_macros st) (r_explicit st)).
    assert (E1 : oneArgument t0 st1 = COk (Rstate (r_o st1) (addTarget (r_targets st) (trimmed t0)) (r_macros st) (r_explicit st))).
    { unfold oneArgument, addTarget. destruct t0 as [|x y].
      - by rewrite containsStr_iff.
      - rewrite (not_signed' x y) by done. change 61 with (ch "="). rewrite indexOfChar_notin by done.
        by rewrite containsStr_iff. }
    rewrite E1. cbn in Hlen.
    destruct (IH n0 (Rstate (r_o st1) (addTarget (r_targets st) (trimmed t0)) (r_macros st) (r_explicit st)) t)
      as [ex E2]; [lia|done|done|done|].
    exists ex. rewrite E2. cbn [r_o r_targets st1 fold_left]. f_equal. f_equal.
    change (r_o st <| s_rest := r |>) with (withRest r (r_o st)). by rewrite !doItems_rest.
Qed.

Lemma arguments_sound n : forall st st', argumentLoop n st = COk st' -> flagsInv (s_flags (r_o st)) ->
  exists is ms ts, commandLine (s_rest (r_o st)) is ms ts /\
    defined (r_macros st) (definitions (r_explicit st) ms) (r_macros st').
Proof.
  induction n as [|n IH]; intros st st' E Hf.
  { cbn in E. destruct (s_rest (r_o st)); [|done]. injection E as <-. exists [], [], []. split; constructor. }
  cbn [argumentLoop] in E. destruct (s_rest (r_o st)) as [|a r].
  { injection E as <-. exists [], [], []. split; constructor. }
  set (st1 := Rstate (r_o st <| s_rest := r |>) (r_targets st) (r_macros st) (r_explicit st)) in *.
  destruct (oneArgument a st1) as [st2| | |] eqn:E1; try done.
  assert (Target : forall t0, ~ signed t0 -> ch "=" ∉ t0 -> a = t0 ->
    st2 = Rstate (r_o st1) (addTarget (r_targets st) (trimmed t0)) (r_macros st) (r_explicit st) ->
    exists is ms ts, commandLine (a :: r) is ms ts /\
      defined (r_macros st) (definitions (r_explicit st) ms) (r_macros st')).
  { intros t0 H1 H2 <- ->. destruct (IH _ _ E Hf) as (is & ms & ts & Hc & Hd). exists is, ms, (trimmed a :: ts).
    split; [by constructor|done]. }
  destruct a as [|c w].
  { apply (Target []); [intros (? & ? & ? & _); done|apply not_elem_of_nil|done|].
    unfold oneArgument in E1. rewrite containsStr_iff in E1. injection E1 as <-. done. }
  unfold oneArgument in E1. destruct ((c =? ch "-") || (c =? ch "/")) eqn:Es.
  - cbn [r_o st1] in E1. destruct (handleOption (trimmed w) (r_o st <| s_rest := r |>)) as [o|] eqn:Eo; [|done].
    injection E1 as <-. destruct (word_sound _ _ _ Eo Hf) as (is & r' & Hw & -> & Hf').
    destruct (IH _ _ E Hf') as (is' & ms & ts & Hc & Hd). exists (is ++ is'), ms, ts.
    split; [|done]. eapply cl_option; [|exact Hw|exact Hc]. apply orb_true_iff in Es. by rewrite !N.eqb_eq in Es.
  - change 61 with (ch "=") in E1. destruct (indexOfChar (ch "=") (c :: w)) as [i|] eqn:Ei.
    + destruct (indexOfChar_some _ _ _ Ei) as [Ea Hn]. unfold qleft in E1.
      set (nm := firstn i (c :: w)) in *. set (v := drop (S i) (c :: w)) in *.
      destruct (isMacroNameValid (trimmed nm)) eqn:Ev.
      2:{ unfold macroArgument in E1. by rewrite Ev in E1. }
      apply macroArgument_ok in E1 as (t & Hd1 & ->); [|done].
      destruct (IH _ _ E Hf) as (is & ms & ts & Hc & Hd2). exists is, ((trimmed nm, trimLeft v) :: ms), ts.
      rewrite Ea. split.
      * constructor; [|done|done|done]. rewrite <- Ea. by apply not_signed.
      * rewrite definitions_one. apply defined_app. exists t. split; [done|].
        rewrite (definitions_ext _ (r_explicit (macroState (trimmed nm) (trimLeft v) st1 t))); [done|].
        intros x. by rewrite macroState_explicit.
    + apply (Target (c :: w)); [by apply not_signed|by apply indexOfChar_none|done|].
      rewrite containsStr_iff in E1. injection E1 as <-. done.
Qed.

(** ** Command files *)

Lemma startsWith_at a : startsWith [64] a = true <-> atSign a.
Proof.
  destruct a as [|c a]; cbn; [split; [done|intros (? & ?); done]|]. rewrite andb_true_r, N.eqb_eq. split.
  - intros <-. by exists a.
  - intros (f & E). injection E as -> _. done.
Qed.

Global Instance atSign_dec a : Decision (atSign a).
Proof.
  destruct (startsWith [64] a) eqn:E; [left; by apply startsWith_at|right].
  intros H. apply startsWith_at in H. congruence.
Qed.

Lemma filename_iff a f : atSign a ->
  (if startsWith [34] (drop 1 a) && endsWith [34] a then drop 2 (qchop 1 a) else drop 1 a) = f <-> commandFileName a f.
Proof.
  intros (g & ->). change (drop 1 (ch "@" :: g)) with g. unfold commandFileName. change (ch """") with 34.
  assert (Hq : endsWith [34] (ch "@" :: g) = true <-> exists q, g = q ++ [34]).
  { unfold endsWith. cbn [rev app]. destruct (rev g) as [|x y] eqn:E.
    - apply (f_equal (@rev _)) in E. rewrite rev_involutive in E. cbn in E. subst g. cbn. split; [done|].
      intros (q & E2). by destruct q.
    - apply (f_equal (@rev _)) in E. rewrite rev_involutive in E. cbn in E. subst g. cbn [app startsWith].
      rewrite andb_true_r, N.eqb_eq. split; [intros <-; eauto|].
      intros (q & E2). apply app_inj_tail in E2 as [_ ->]. done. }
  assert (Hb : startsWith [34] g = true <-> exists q, g = 34 :: q).
  { destruct g as [|x y]; cbn; [split; [done|intros (? & ?); done]|]. rewrite andb_true_r, N.eqb_eq. split.
    - intros <-. eauto.
    - intros (q & E). by injection E as -> _. }
  destruct (startsWith [34] g) eqn:Eb; [|cbn [andb]].
  - destruct (proj1 Hb eq_refl) as [q ->]. destruct (endsWith [34] (ch "@" :: 34 :: q)) eqn:Ee; cbn [andb].
    + destruct (proj1 Hq eq_refl) as [u Eu].
      destruct u as [|x u]; cbn in Eu.
      * injection Eu as ->. change (drop 2 (qchop 1 [ch "@"; 34])) with (@nil N). split.
        -- intros <-. right. right. done.
        -- intros [(q & E & E2)|[(E & _ & E2)|(_ & ->)]]; [| |done].
           ++ injection E as <-. by destruct f.
           ++ injection E as <-. done.
      * injection Eu as <- ->.
        assert (drop 2 (qchop 1 (ch "@" :: 34 :: u ++ [34])) = u) as ->.
        { change (ch "@" :: 34 :: u ++ [34]) with ((ch "@" :: 34 :: u) ++ [34]). by rewrite qchop_snoc. }
        split.
        -- intros <-. left. eauto.
        -- intros [(q & E & E2)|[(E & E2 & _)|(E & _)]].
           ++ injection E as <-. by apply app_inj_tail in E2 as [-> _].
           ++ exfalso. injection E as <-. apply E2. eauto.
           ++ by destruct u.
    + split.
      * intros <-. right. left. split; [done|]. split.
        -- intros (u & E). assert (false = true) by (apply Hq; exists (34 :: u); cbn; done); discriminate.
        -- intros E. injection E as ->. assert (false = true) by (apply Hq; by exists []); discriminate.
      * intros [(u & E & E2)|[(E & E2 & _)|(E & _)]].
        -- injection E as <-. exfalso. assert (false = true) by (apply Hq; exists (34 :: f); cbn; by rewrite E2); discriminate.
        -- by injection E as <-.
        -- exfalso. injection E as ->. assert (false = true) by (apply Hq; by exists []); discriminate.
  - split.
    + intros <-. right. left. split; [done|]. split.
      * intros (u & E). assert (false = true) by (apply Hb; eauto); discriminate.
      * intros E. assert (false = true) by (apply Hb; eauto); discriminate.
    + intros [(u & E & E2)|[(E & E2 & _)|(E & _)]].
      * injection E as ->. exfalso. assert (false = true) by (apply Hb; eauto); discriminate.
      * by injection E as <-.
      * injection E as ->. exfalso. assert (false = true) by (apply Hb; eauto); discriminate.
Qed.

Lemma filter_at_twice (l : list qstr) :
  filter (fun a => startsWith [64] a = false) (filter (fun a => startsWith [64] a = false) l)
  = filter (fun a => startsWith [64] a = false) l.
Proof. rewrite list_filter_filter. apply list_filter_iff. tauto. Qed.

Lemma commandFiles_iff fs args : forall acc keep new',
  commandFiles fs args acc = Some (keep, new') <->
  exists new, withFiles fs args keep new /\
    (new' = if bool_decide (Exists atSign args) then filter (fun a => startsWith [64] a = false) (acc ++ new) else acc).
Proof.
  induction args as [|a args IH]; intros acc keep new'; cbn [commandFiles].
  - rewrite bool_decide_eq_false_2 by (intros H; inversion H). split.
    + intros E. injection E as <- <-. exists []. split; [constructor|done].
    + intros (new & H & ->). by inversion H.
  - destruct (startsWith [64] a) eqn:Ea.
    + apply startsWith_at in Ea as Ha. rewrite bool_decide_eq_true_2 by (by constructor).
      set (f := if startsWith [34] (drop 1 a) && endsWith [34] a then drop 2 (qchop 1 a) else drop 1 a).
      destruct (fs f) as [ls|] eqn:Ef.
      * rewrite IH. split.
        -- intros (new & H & ->). exists (concat (map splitCommandLine ls) ++ new). split.
           { eapply wf_file; [|exact Ef|done]. by apply filename_iff. }
           case_bool_decide as He.
           ++ by rewrite app_assoc, !filter_app, !filter_at_twice.
           ++ assert (new = []) as ->; [|by rewrite app_nil_r].
              clear -H He. induction H as [| |? ? ? ? ? ? Hc]; [done| |].
              ** apply IHwithFiles. intros Hx. apply He. by apply Exists_cons_tl.
              ** exfalso. apply He. apply Exists_cons_hd. destruct Hc as [(q & -> & _)|[(-> & _)|(-> & _)]]; eexists; done.
        -- intros (new & H & ->). inversion H as [|? ? ? ? Hn|? f' ls' ? ? new2 Hfn Hfs Hw]; subst; [done|].
           assert (f = f') as E by (by apply filename_iff). rewrite <- E, Ef in Hfs. injection Hfs as <-.
           exists new2. split; [done|]. case_bool_decide as He.
           ++ by rewrite app_assoc, !filter_app, !filter_at_twice.
           ++ assert (new2 = []) as ->; [|by rewrite app_nil_r].
              clear -Hw He. induction Hw as [| |? ? ? ? ? ? Hc]; [done| |].
              ** apply IHHw. intros Hx. apply He. by apply Exists_cons_tl.
              ** exfalso. apply He. apply Exists_cons_hd. destruct Hc as [(q & -> & _)|[(-> & _)|(-> & _)]]; eexists; done.
      * split; [done|]. intros (new & H & _). inversion H as [|? ? ? ? Hn|? f' ls' ? ? new2 Hfn Hfs Hw]; subst; [done|].
        assert (f = f') as E by (by apply filename_iff). rewrite <- E, Ef in Hfs. done.
    + assert (Hn : ~ atSign a) by (intros H; apply startsWith_at in H; congruence).
      assert (HE : bool_decide (Exists atSign (a :: args)) = bool_decide (Exists atSign args)).
      { apply bool_decide_ext. rewrite Exists_cons. tauto. }
      rewrite HE. destruct (commandFiles fs args acc) as [[k1 n1]|] eqn:Ec.
      * apply IH in Ec as (new & Hw & En). split.
        -- intros E. injection E as <- <-. exists new. split; [by constructor|done].
        -- intros (new2 & Hw2 & ->). inversion Hw2 as [|? ? k2 ? Hn2 Hw3|? ? ? ? ? ? Hfn]; subst.
           ++ assert (commandFiles fs args acc = Some (k2, if bool_decide (Exists atSign args) then filter (fun a => startsWith [64] a = false) (acc ++ new2) else acc)) as E2 by (apply IH; eauto).
              assert (commandFiles fs args acc = Some (k1, if bool_decide (Exists atSign args) then filter (fun a => startsWith [64] a = false) (acc ++ new) else acc)) as E3 by (apply IH; eauto).
              congruence.
           ++ exfalso. apply Hn. destruct Hfn as [(q & -> & _)|[(-> & _)|(-> & _)]]; eexists; done.
      * split; [done|]. intros (new2 & Hw2 & ->). inversion Hw2 as [|? ? k2 ? Hn2 Hw3|? ? ? ? ? ? Hfn]; subst.
        -- assert (commandFiles fs args acc = Some (k2, if bool_decide (Exists atSign args) then filter (fun a => startsWith [64] a = false) (acc ++ new2) else acc)) as E2 by (apply IH; eauto).
           congruence.
        -- exfalso. apply Hn. destruct Hfn as [(q & -> & _)|[(-> & _)|(-> & _)]]; eexists; done.
Qed.

Lemma withFiles_none fs args keep new : withFiles fs args keep new -> ~ Exists atSign args -> new = [].
Proof.
  intros H He. induction H as [| |? ? ? ? ? ? Hc]; [done| |].
  - apply IHwithFiles. intros Hx. apply He. by apply Exists_cons_tl.
  - exfalso. apply He. apply Exists_cons_hd. destruct Hc as [(q & -> & _)|[(-> & _)|(-> & _)]]; eexists; done.
Qed.

Lemma expandCommandFiles_iff fs args args' : expandCommandFiles fs args = Some args' <-> expandsArgs fs args args'.
Proof.
  unfold expandCommandFiles, expandsArgs. split.
  - destruct (commandFiles fs args []) as [[keep new]|] eqn:E; [|done]. intros E2. injection E2 as <-.
    apply commandFiles_iff in E as (n2 & Hw & ->). exists keep, n2. split; [done|].
    case_bool_decide as He; [done|]. by rewrite (withFiles_none _ _ _ _ Hw He).
  - intros (keep & new & Hw & ->).
    assert (commandFiles fs args [] = Some (keep, filter (fun a => startsWith [64] a = false) new)) as ->; [|done].
    apply commandFiles_iff. exists new. split; [done|]. case_bool_decide as He; [done|].
    by rewrite (withFiles_none _ _ _ _ Hw He).
Qed.
