(** Lemmas about reading the command line: option words. *)
From Coq Require Import Ascii String.
From stdpp Require Import prelude gmap.
From RecordUpdate Require Import RecordSet.
Import RecordSetNotations.
From Verif Require Import Base Macro SplitCmd SplitCmdSpec SplitCmdProofs Opts OptsSpec OptsProofs.
Local Open Scope N_scope.

(** ** What one item does *)

Definition optAfter (i : item) (o : copts) : copts :=
  match i with
  | IFlag c => default o (simpleOption (upLatin1 c) o)
  | ILong l => s_opts (doLong l (Ostate o [] None []))
  | IJobs _ _ n => o <| o_jobs := n |> <| o_jobsSet := true |>
  | IFile _ => o
  | IStderr f => o <| o_stderr := Some f |>
  end.
Definition fileAfter (i : item) (f : option qstr) : option qstr :=
  match i with IFile a => Some a | _ => f end.
Definition doItem (i : item) (st : ostate) : ostate :=
  Ostate (optAfter i (s_opts st)) (s_rest st) (fileAfter i (s_makefile st)) (flagsAfter (s_flags st) i).
Definition withRest (r : list qstr) (st : ostate) : ostate := st <| s_rest := r |>.

(** MAKEFLAGS never has F or X, and a J is followed by its number. *)
Definition flagsInv (f : qstr) : Prop :=
  Forall (fun c => isLet (ch "F") c = false /\ isLet (ch "X") c = false) f /\
  isLet (ch "J") (List.last f 0) = false.

Lemma last_snoc {A} (l : list A) a d : List.last (l ++ [a]) d = a.
Proof. apply last_last. Qed.

Lemma flag_letter_cases l : l ∈ flagLetters <->
  l = ch "A" \/ l = ch "B" \/ l = ch "C" \/ l = ch "D" \/ l = ch "E" \/ l = ch "G" \/ l = ch "H" \/ l = ch "?" \/
  l = ch "I" \/ l = ch "K" \/ l = ch "L" \/ l = ch "N" \/ l = ch "P" \/ l = ch "Q" \/ l = ch "R" \/ l = ch "S" \/
  l = ch "T" \/ l = ch "U" \/ l = ch "W" \/ l = ch "Y".
Proof. unfold flagLetters. cbn [s2q]. unfold ch. rewrite !elem_of_cons, elem_of_nil. tauto. Qed.

Lemma flag_range l : l ∈ flagLetters -> l <> ch "?" -> 65 <= l /\ l <= 90.
Proof.
  intros Hl Hq. apply flag_letter_cases in Hl.
  repeat destruct Hl as [->|Hl]; subst; try (by destruct Hq); vm_compute; done.
Qed.

Lemma flagChar_simple c o : flagChar c <-> exists o', simpleOption (upLatin1 c) o = Some o'.
Proof.
  assert (H : flagChar c <-> upLatin1 c ∈ flagLetters).
  { unfold flagChar. split.
    - intros (l & Hl & E). assert (upLatin1 c = l) as ->; [|done].
      apply N.eqb_eq. rewrite <- E.
      destruct (decide (l = ch "?")) as [->|Hq]; [by rewrite isLet_q|].
      destruct (flag_range l Hl Hq). by rewrite isLet_up.
    - intros Hl. exists (upLatin1 c). split; [done|].
      destruct (decide (upLatin1 c = ch "?")) as [E|Hq].
      + rewrite E, isLet_q, E. reflexivity.
      + destruct (flag_range _ Hl Hq). rewrite isLet_up by done. apply N.eqb_refl. }
  rewrite H, flag_letter_cases. generalize (upLatin1 c). clear. intros l. unfold simpleOption.
  split.
  - intros Hl. repeat destruct Hl as [->|Hl]; [..|subst]; eexists; reflexivity.
  - intros (o' & E).
    repeat match type of E with
    | (if ?b then _ else _) = _ => destruct b eqn:?; [rewrite ?orb_true_iff, !N.eqb_eq in *; tauto|]
    end. done.
Qed.

Lemma isLet_flag l c : 65 <= l -> l <= 90 -> l ∉ flagLetters -> flagChar c -> isLet l c = false.
Proof.
  intros H1 H2 Hl (k & Hk & E). destruct (isLet l c) eqn:E2; [|done]. exfalso. apply Hl.
  rewrite isLet_up in E2 by done. apply N.eqb_eq in E2.
  assert (k = l) as <-; [|done]. destruct (decide (k = ch "?")) as [->|Hq].
  - rewrite isLet_q in E. apply N.eqb_eq in E. congruence.
  - destruct (flag_range _ Hk Hq). rewrite isLet_up in E by done. apply N.eqb_eq in E. congruence.
Qed.

Lemma containsChar_iff c f : containsChar c f = bool_decide (c ∈ f).
Proof.
  unfold containsChar. apply eq_bool_prop_intro. rewrite !Is_true_true, bool_decide_eq_true, existsb_exists.
  split.
  - intros (x & Hx & E). apply N.eqb_eq in E as ->. by apply elem_of_list_In.
  - intros H. exists c. split; [by apply elem_of_list_In|apply N.eqb_refl].
Qed.

Lemma notin_flags l c f : 65 <= l -> l <= 90 -> isLet l c = true ->
  Forall (fun c => isLet l c = false) f -> containsChar c f = false.
Proof.
  intros H1 H2 Hl Hf. rewrite containsChar_iff. apply bool_decide_eq_false. intros Hin.
  rewrite Forall_forall in Hf. apply Hf in Hin. congruence.
Qed.

Lemma isLet_neq l k c : 65 <= l <= 90 -> 65 <= k <= 90 -> l <> k -> isLet l c = true -> isLet k c = false.
Proof.
  intros Hl Hk Hn E. rewrite isLet_up in * by lia. apply N.eqb_eq in E. apply N.eqb_neq. congruence.
Qed.

Lemma up_eqb l c : 65 <= l -> l <= 90 -> (upLatin1 c =? l) = isLet l c.
Proof. intros. by rewrite isLet_up. Qed.

Lemma qchop_snoc (f : qstr) c : qchop 1 (f ++ [c]) = f.
Proof.
  unfold qchop. rewrite app_length. cbn. replace (List.length f + 1 - 1)%nat with (List.length f) by lia.
  by rewrite take_app.
Qed.

(** The state behind appending the letter. *)
Definition noted (c : qchar) (st : ostate) : ostate :=
  if containsChar c (s_flags st) then st else st <| s_flags ::= fun f => f ++ [c] |>.

Lemma noted_flags c st : s_flags (noted c st) = setOnce c (s_flags st).
Proof. unfold noted, setOnce. rewrite containsChar_iff. by case_bool_decide. Qed.
Lemma noted_rest c st : s_rest (noted c st) = s_rest st.
Proof. unfold noted. by destruct (containsChar _ _). Qed.
Lemma noted_opts c st : s_opts (noted c st) = s_opts st.
Proof. unfold noted. by destruct (containsChar _ _). Qed.
Lemma noted_makefile c st : s_makefile (noted c st) = s_makefile st.
Proof. unfold noted. by destruct (containsChar _ _). Qed.
Lemma noted_eq c st : noted c st = Ostate (s_opts st) (s_rest st) (s_makefile st) (setOnce c (s_flags st)).
Proof. rewrite <- noted_flags, <- (noted_rest c), <- (noted_opts c), <- (noted_makefile c). by destruct (noted c st). Qed.

Lemma jobText_last a n : jobText a n -> a <> [] /\ isLet (ch "J") (List.last a 0) = false /\
  Forall (fun c => isLet (ch "F") c = false /\ isLet (ch "X") c = false) a.
Proof.
  intros (b1 & p & d & b2 & -> & Hp & H1 & H2 & Hd & _). apply decimal_digits in Hd as (Hn & Hd & _).
  assert (S : forall l c, 65 <= l <= 90 -> isSpace c = true \/ isDigit c = true -> isLet l c = false).
  { intros l c Hl Hc. destruct (isLet l c) eqn:E; [|done]. exfalso. unfold isLet in E.
    unfold isSpace, isDigit in Hc.
    rewrite !orb_true_iff, !andb_true_iff, !N.leb_le, !N.eqb_eq in *. lia. }
  split; [by destruct b1, p, d|]. split.
  - destruct (decide (b2 = [])) as [->|Hb].
    + rewrite app_nil_r. destruct (exists_last Hn) as (d' & x & ->). rewrite !app_assoc, last_snoc.
      apply Forall_app in Hd as [_ Hx]. rewrite Forall_singleton in Hx. apply S; [done|by right].
    + destruct (exists_last Hb) as (b' & x & ->). rewrite !app_assoc, last_snoc.
      apply Forall_app in H2 as [_ Hx]. rewrite Forall_singleton in Hx. apply S; [done|by left].
  - rewrite !Forall_app. split_and!.
    + eapply Forall_impl; [exact H1|]. intros c Hc. split; apply S; auto; done.
    + destruct Hp as [->| ->]; [constructor|]. constructor; [|constructor]. done.
    + eapply Forall_impl; [exact Hd|]. intros c Hc. split; apply S; auto; done.
    + eapply Forall_impl; [exact H2|]. intros c Hc. split; apply S; auto; done.
Qed.

Lemma last_app_ne {A} (f s : list A) d : s <> [] -> List.last (f ++ s) d = List.last s d.
Proof. intros Hs. destruct (exists_last Hs) as (s' & x & ->). by rewrite app_assoc, !last_snoc. Qed.

Lemma jobNumber_text d n : jobNumber d n -> jobText d n.
Proof.
  intros Hn. exists [], [], d, []. split_and!; [by rewrite app_nil_r|by left|constructor|constructor|done..].
Qed.

(** ** One letter *)

Lemma letter_complete c s i s' r' st : flagsInv (s_flags st) -> letterItem c s (s_rest st) i s' r' ->
  letterOption c s st = Some (s', doItem i (withRest r' st)) /\ flagsInv (flagsAfter (s_flags st) i).
Proof.
  intros [Hfx HJ] H. unfold letterOption. cbv zeta. change (if containsChar c (s_flags st) then st else _) with (noted c st).
  rewrite !noted_rest. cbn [s_rest].
  rewrite !up_eqb by (vm_compute; done).
  assert (HF : Forall (fun c => isLet (ch "F") c = false) (s_flags st)) by (eapply Forall_impl; [exact Hfx|naive_solver]).
  assert (HX : Forall (fun c => isLet (ch "X") c = false) (s_flags st)) by (eapply Forall_impl; [exact Hfx|naive_solver]).
  remember (s_rest st) as r eqn:Er.
  assert (JF : forall c, isLet (ch "J") c = true -> isLet (ch "F") c = false) by (intros; eapply isLet_neq; [| | |done]; vm_compute; done).
  assert (JX : forall c, isLet (ch "J") c = true -> isLet (ch "X") c = false) by (intros; eapply isLet_neq; [| | |done]; vm_compute; done).
  assert (XF : forall c, isLet (ch "X") c = true -> isLet (ch "F") c = false) by (intros; eapply isLet_neq; [| | |done]; vm_compute; done).
  assert (Jobs : forall a n r1 (s1 : qstr), isLet (ch "J") c = true -> jobText a n ->
    Some (s1, if upLatin1 (List.last (s_flags (noted c st <| s_rest := r1 |> <| s_opts; o_jobs := n |> <| s_opts; o_jobsSet := true |>)) 0) =? ch "J"
       then noted c st <| s_rest := r1 |> <| s_opts; o_jobs := n |> <| s_opts; o_jobsSet := true |> <| s_flags ::= fun f => f ++ a |>
       else noted c st <| s_rest := r1 |> <| s_opts; o_jobs := n |> <| s_opts; o_jobsSet := true |>)
    = Some (s1, doItem (IJobs c a n) (withRest r1 st)) /\ flagsInv (flagsAfter (s_flags st) (IJobs c a n))).
  { intros a n r1 s1 Hc Ha. rewrite up_eqb by (vm_compute; done).
    rewrite noted_eq. cbn [s_flags set]. unfold doItem, withRest.
    cbn [flagsAfter optAfter fileAfter s_flags s_opts s_rest s_makefile set].
    unfold setOnce. destruct (jobText_last a n Ha) as (Hne & Hl & Hfa). case_bool_decide as Hin.
    - rewrite HJ. split; [done|]. split; done.
    - rewrite last_snoc, Hc. split.
      { unfold set. cbn. by rewrite <- app_assoc. }
      split.
      + apply Forall_app. split; [done|]. constructor; [|done]. auto.
      + rewrite last_app_ne by done. replace (List.last (c :: a) 0) with (List.last a 0) by (by destruct a). done. }
  destruct H as [s r Hc|d s r n Hc Hd Hs|a r n Hc Ha|f r Hc Hn|a r Hc|f r Hc Hn|a r Hc].
  - rewrite (isLet_flag (ch "F")), (isLet_flag (ch "X")), (isLet_flag (ch "J"));
      try done; try (vm_compute; done); try (by apply (bool_decide_unpack _)).
    destruct (proj1 (flagChar_simple c (s_opts (noted c st))) Hc) as [o' Eo]. rewrite Eo.
    split.
    + f_equal. f_equal. rewrite noted_opts in Eo. rewrite noted_eq. unfold doItem, withRest. cbn. by rewrite Eo, Er.
    + cbn [flagsAfter]. unfold setOnce. case_bool_decide; [done|]. split.
      * apply Forall_app. split; [done|]. constructor; [|constructor].
        split; apply isLet_flag; try done; try (vm_compute; done); by apply (bool_decide_unpack _).
      * rewrite last_snoc. apply isLet_flag; try done; try (vm_compute; done); by apply (bool_decide_unpack _).
  - rewrite (JF c Hc), (JX c Hc), Hc. pose proof Hd as Hd'. destruct Hd' as [Hdd _].
    apply decimal_digits in Hdd as (Hdn & Hdd & _).
    rewrite (leadingDigits_app d s Hdd Hs), drop_app.
    destruct (d ++ s) as [|x y] eqn:E; [by destruct d|].
    rewrite (proj2 (jobCount_digits d n Hdd) Hd).
    destruct (Jobs d n (s_rest st) s Hc (jobNumber_text d n Hd)) as [J1 J2].
    split; [|done]. rewrite <- Er in J1.
    assert (En : noted c st <| s_rest := r |> = noted c st) by (rewrite Er, noted_eq; done).
    rewrite En in J1. exact J1.
  - rewrite (JF c Hc), (JX c Hc), Hc. rewrite (proj2 (jobCount_text a n) Ha).
    exact (Jobs a n r [] Hc Ha).
  - rewrite Hc. destruct f as [|x f]; [done|]. split; [|done].
    rewrite noted_eq. unfold setOnce. rewrite <- containsChar_iff, (notin_flags (ch "F")) by (done || vm_compute; done).
    unfold set. cbn -[qchop]. rewrite qchop_snoc. unfold doItem, withRest. cbn. by rewrite Er.
  - rewrite Hc. cbn [s_rest set]. unfold set. cbn -[qchop].
    rewrite noted_eq, <- Er. split; [|done].
    unfold setOnce. rewrite <- containsChar_iff, (notin_flags (ch "F")) by (done || vm_compute; done).
    unfold set. cbn -[qchop]. by rewrite qchop_snoc.
  - rewrite (XF c Hc), Hc. destruct f as [|x f]; [done|]. split; [|done].
    rewrite noted_eq. unfold setOnce. rewrite <- containsChar_iff, (notin_flags (ch "X")) by (done || vm_compute; done).
    unfold set. cbn -[qchop]. rewrite qchop_snoc. unfold doItem, withRest. cbn. by rewrite Er.
  - rewrite (XF c Hc), Hc. cbn [s_rest set]. unfold set. cbn -[qchop].
    rewrite noted_eq, <- Er. split; [|done].
    unfold setOnce. rewrite <- containsChar_iff, (notin_flags (ch "X")) by (done || vm_compute; done).
    unfold set. cbn -[qchop]. by rewrite qchop_snoc.
Qed.

Lemma letter_exists c s st s' st' : letterOption c s st = Some (s', st') ->
  exists i r', letterItem c s (s_rest st) i s' r'.
Proof.
  unfold letterOption. cbv zeta. change (if containsChar c (s_flags st) then st else _) with (noted c st).
  rewrite !noted_rest. cbn [s_rest].
  rewrite !up_eqb by (vm_compute; done).
  destruct (isLet (ch "F") c) eqn:EF.
  { destruct s as [|x s].
    - cbn. rewrite noted_rest. destruct (s_rest st) as [|a r]; [done|]. intros E. injection E as <- <-.
      eexists _, _. by apply li_file_next.
    - intros E. injection E as <- <-. eexists _, _. by apply li_file. }
  destruct (isLet (ch "X") c) eqn:EX.
  { destruct s as [|x s].
    - cbn. rewrite noted_rest. destruct (s_rest st) as [|a r]; [done|]. intros E. injection E as <- <-.
      eexists _, _. by apply li_stderr_next.
    - intros E. injection E as <- <-. eexists _, _. by apply li_stderr. }
  destruct (isLet (ch "J") c) eqn:EJ.
  { destruct s as [|x s].
    - destruct (s_rest st) as [|a r]; [done|].
      destruct (jobCount a) as [n|] eqn:En; [|done]. intros E. injection E as <- _.
      eexists _, _. apply li_jobs_next; [done|]. by apply jobCount_text.
    - destruct (leadingDigits_split (x :: s)) as (r & E1 & E2 & E3 & E4). rewrite E4.
      destruct (jobCount (leadingDigits (x :: s))) as [n|] eqn:En; [|done]. intros E. injection E as <- _.
      exists (IJobs c (leadingDigits (x :: s)) n), (s_rest st). rewrite E1 at 1.
      apply li_jobs; [done| |done]. by apply jobCount_digits. }
  destruct (simpleOption (upLatin1 c) (s_opts (noted c st))) as [o|] eqn:Eo; [|done].
  intros E. injection E as <- _. eexists _, _. apply li_flag. apply (flagChar_simple c (s_opts (noted c st))). eauto.
Qed.

Lemma letter_sound c s st s' st' : flagsInv (s_flags st) -> letterOption c s st = Some (s', st') ->
  exists i r', letterItem c s (s_rest st) i s' r' /\ st' = doItem i (withRest r' st) /\ flagsInv (flagsAfter (s_flags st) i).
Proof.
  intros Hf E. destruct (letter_exists _ _ _ _ _ E) as (i & r' & Hi).
  destruct (letter_complete _ _ _ _ _ _ Hf Hi) as [E2 Hf2]. exists i, r'. split; [done|].
  rewrite E in E2. injection E2 as ->. done.
Qed.

Lemma letterItem_shorter c s r i s' r' : letterItem c s r i s' r' -> (List.length s' <= List.length s)%nat.
Proof. destruct 1; cbn; try lia. rewrite app_length. lia. Qed.

(** ** Words *)

Definition doItems (is : list item) (st : ostate) : ostate := fold_left (fun st i => doItem i st) is st.

Lemma doItem_rest i r st : doItem i (withRest r st) = withRest r (doItem i st).
Proof. done. Qed.
Lemma doItems_rest is r st : doItems is (withRest r st) = withRest r (doItems is st).
Proof. revert st. induction is as [|i is IH]; intros st; [done|]. cbn. rewrite <- IH. done. Qed.
Lemma doItems_app is is' st : doItems (is ++ is') st = doItems is' (doItems is st).
Proof. apply fold_left_app. Qed.
Lemma withRest_twice r r' st : withRest r (withRest r' st) = withRest r st.
Proof. done. Qed.

Lemma doLong_item l st : doLong l st = doItem (ILong l) st.
Proof. destruct st, l; reflexivity. Qed.

Lemma flagsInv_long l f : flagsInv f -> flagsInv (flagsAfter f (ILong l)).
Proof.
  intros H. destruct l; try exact H. cbn. destruct H as [H1 H2]. split.
  - apply Forall_app. split; [done|]. by constructor.
  - by rewrite last_snoc.
Qed.

Lemma word_complete w r is r' : optionWord w r is r' -> forall n st, (List.length w <= n)%nat ->
  s_rest st = r -> flagsInv (s_flags st) ->
  optionLoop n w st = Some (withRest r' (doItems is st)) /\ flagsInv (s_flags (doItems is st)).
Proof.
  induction 1 as [r|c s r i s' r' is r'' Hn Hi _ IH|l w r Hl|l w c s r i s' r' is r'' Hl Hi _ IH]; intros n st Hlen Hr Hf.
  - destruct st. cbn in *. subst. by destruct n.
  - destruct n as [|n]; [cbn in Hlen; lia|]. cbn [optionLoop]. rewrite (longOption_none _ _ Hn).
    rewrite <- Hr in Hi. destruct (letter_complete _ _ _ _ _ _ Hf Hi) as [E Hf'].
    rewrite E. apply letterItem_shorter in Hi. cbn in Hlen.
    destruct (IH n (doItem i (withRest r' st))) as [E2 Hf2]; [lia|done|done|].
    rewrite E2, doItem_rest, doItems_rest, withRest_twice in *. split; [done|]. exact Hf2.
  - destruct Hl as [(p & -> & Hp) Hd].
    assert (Hlw : longAt l (p ++ []) []) by (split; [eauto|done]).
    destruct (p ++ []) as [|c w] eqn:Ew.
    { apply spells_length in Hp. rewrite app_nil_r in Ew. subst p. by destruct l. }
    destruct n as [|n]; [cbn in Hlen; lia|]. cbn [optionLoop]. rewrite (longOption_some _ _ _ _ Hlw).
    rewrite doLong_item. split; [|by apply flagsInv_long]. cbn [doItems fold_left]. f_equal. destruct st. cbn in *. by subst.
  - destruct Hl as [(p & -> & Hp) Hd].
    assert (Hlw : longAt l (p ++ c :: s) (c :: s)) by (split; [eauto|done]).
    destruct n as [|n]; [destruct p; cbn in Hlen; lia|].
    assert (exists x y, p ++ c :: s = x :: y) as (x & y & Exy) by (destruct p; cbn; eauto).
    assert (optionLoop (S n) (p ++ c :: s) st =
      (let (arg, st) := longOption (p ++ c :: s) st in
       match arg with [] => Some st | c :: arg => match letterOption c arg st with None => None | Some (arg, st) => optionLoop n arg st end end)) as ->.
    { rewrite Exy. done. }
    rewrite (longOption_some _ _ _ _ Hlw), doLong_item.
    assert (Hf1 : flagsInv (s_flags (doItem (ILong l) st))) by (by apply flagsInv_long).
    assert (Hi' : letterItem c s (s_rest (doItem (ILong l) st)) i s' r') by (cbn; by rewrite Hr).
    destruct (letter_complete _ _ _ _ _ _ Hf1 Hi') as [E Hf'].
    rewrite E. apply letterItem_shorter in Hi. rewrite app_length in Hlen. cbn in Hlen.
    destruct (IH n (doItem i (withRest r' (doItem (ILong l) st)))) as [E2 Hf2]; [lia|done|done|].
    rewrite E2, doItem_rest, doItems_rest, withRest_twice in *. split; [done|]. exact Hf2.
Qed.

Lemma word_exists n : forall w st st', optionLoop n w st = Some st' -> flagsInv (s_flags st) ->
  exists is r', optionWord w (s_rest st) is r'.
Proof.
  induction n as [|n IH]; intros w st st' E Hf.
  { destruct w; [|done]. eexists _, _. constructor. }
  destruct w as [|x w]; [eexists _, _; constructor|].
  cbn [optionLoop] in E. destruct (long_cases (x :: w)) as [Hn|(l & s & Hl)].
  - rewrite (longOption_none _ _ Hn) in E. destruct (letterOption x w st) as [[s1 st1]|] eqn:El; [|done].
    destruct (letter_sound _ _ _ _ _ Hf El) as (i & r' & Hi & -> & Hf').
    apply IH in E as (is & r2 & Hw); [|done]. eexists _, _. by eapply ow_letter.
  - rewrite (longOption_some _ _ _ _ Hl), doLong_item in E. destruct s as [|c s].
    { eexists _, _. by apply ow_long. }
    destruct (letterOption c s _) as [[s1 st1]|] eqn:El; [|done].
    assert (Hf1 : flagsInv (s_flags (doItem (ILong l) st))) by exact (flagsInv_long l _ Hf).
    destruct (letter_sound _ _ _ _ _ Hf1 El) as (i & r' & Hi & -> & Hf').
    apply IH in E as (is & r2 & Hw); [|done]. eexists _, _. by eapply ow_long_letter.
Qed.

Lemma word_sound w st st' : handleOption w st = Some st' -> flagsInv (s_flags st) ->
  exists is r', optionWord w (s_rest st) is r' /\ st' = withRest r' (doItems is st) /\ flagsInv (s_flags st').
Proof.
  intros E Hf. destruct (word_exists _ _ _ _ E Hf) as (is & r' & Hw).
  destruct (word_complete _ _ _ _ Hw (List.length w) st) as [E2 Hf2]; [lia|done|done|].
  exists is, r'. unfold handleOption in E. rewrite E in E2. injection E2 as ->. done.
Qed.
