(** Lemmas about reading the command line: unambiguity, macros, MAKEFLAGS. *)
From Coq Require Import Ascii String.
From stdpp Require Import prelude gmap.
From RecordUpdate Require Import RecordSet.
Import RecordSetNotations.
From Verif Require Import Base Macro MacroSpec MacroProofs SplitCmd SplitCmdSpec SplitCmdProofs Opts OptsSpec OptsProofs OptsWordProofs OptsLineProofs.
Local Open Scope N_scope.

(** ** The whole of readCommandLine *)

Lemma flagsInv_nil : flagsInv [].
Proof. split; [constructor|]. reflexivity. Qed.

Lemma filter_all (l : list qstr) : filter (fun x => x ∉ []) l = l.
Proof. induction l as [|x l IH]; [done|]. rewrite filter_cons_True by (apply not_elem_of_nil). by f_equal. Qed.

Lemma read_value fs cpus mt args args' is ms ts t t2 : expandsArgs fs args args' -> commandLine args' is ms ts ->
  defined mt (definitions [] ms) t -> setMacroValue (s2q "MAKEFLAGS") (flagsOf is) t = MOk t2 ->
  readCommandLine fs cpus mt args =
  COk (Cmdline (settings cpus is) (default (s2q "Makefile") (lastOf fileOf is None)) (firsts ts) t2 (flagsOf is)).
Proof.
  intros Ha Hc Hd Hm. unfold readCommandLine. apply expandCommandFiles_iff in Ha. rewrite Ha.
  destruct (arguments_complete _ _ _ _ Hc (List.length args')
    (Rstate (Ostate (defaultOpts cpus) args' None []) [] mt []) t) as [ex E2]; [lia|done|apply flagsInv_nil|done|].
  rewrite E2. cbn [r_o r_targets r_macros].
  set (st := Ostate (defaultOpts cpus) args' None []).
  change (s_flags (withRest [] (doItems is st))) with (s_flags (doItems is st)).
  change (s_makefile (withRest [] (doItems is st))) with (s_makefile (doItems is st)).
  change (s_opts (withRest [] (doItems is st))) with (s_opts (doItems is st)).
  rewrite doItems_flags, doItems_makefile, doItems_opts.
  change (fold_left flagsAfter is (s_flags st)) with (flagsOf is). rewrite Hm.
  change (s_opts st) with (defaultOpts cpus). cbv zeta.
  rewrite <- (mix_settings cpus is). f_equal. f_equal.
  rewrite addTargets_firsts. cbn [app]. apply filter_all.
Qed.

Lemma readCommandLine_iff fs cpus mt args r :
  readCommandLine fs cpus mt args = COk r <->
  exists args' is ms ts t,
    expandsArgs fs args args' /\ commandLine args' is ms ts /\ defined mt (definitions [] ms) t /\
    setMacroValue (s2q "MAKEFLAGS") (flagsOf is) t = MOk (c_macros r) /\
    c_opts r = settings cpus is /\ c_makefile r = default (s2q "Makefile") (lastOf fileOf is None) /\
    c_targets r = firsts ts /\ c_flags r = flagsOf is.
Proof.
  split.
  - intros H. assert (G := H). unfold readCommandLine in G.
    destruct (expandCommandFiles fs args) as [args'|] eqn:Ea; [|done].
    destruct (argumentLoop _ _) as [st| | |] eqn:El; try done.
    destruct (arguments_sound _ _ _ El flagsInv_nil) as (is & ms & ts & Hc & Hd). cbn in Hc, Hd.
    apply expandCommandFiles_iff in Ea.
    destruct (arguments_complete _ _ _ _ Hc (List.length args')
      (Rstate (Ostate (defaultOpts cpus) args' None []) [] mt []) (r_macros st)) as [ex E2]; [lia|done|apply flagsInv_nil|done|].
    rewrite E2 in El. injection El as El.
    assert (Ef : s_flags (r_o st) = flagsOf is).
    { rewrite <- El. cbn [r_o]. set (s0 := Ostate (defaultOpts cpus) args' None []).
      change (s_flags (withRest [] (doItems is s0))) with (s_flags (doItems is s0)). by rewrite doItems_flags. }
    cbv zeta in G. rewrite Ef in G.
    destruct (setMacroValue _ _ _) as [t2|] eqn:Em; [|done].
    rewrite (read_value fs cpus mt args args' is ms ts _ t2 Ea Hc Hd Em) in H. injection H as <-.
    exists args', is, ms, ts, (r_macros st). cbn. split_and!; try done.
  - intros (args' & is & ms & ts & t & Ha & Hc & Hd & Hm & Ho & Hf & Ht & Hfl).
    rewrite (read_value fs cpus mt args args' is ms ts _ _ Ha Hc Hd Hm). destruct r as [o f tg mm fl]. cbn in *. by subst.
Qed.

(** ** One reading only *)

Lemma decimal_det d n n' : decimal d n -> decimal d n' -> n = n'.
Proof. intros H1 H2. apply decimal_digits in H1 as (_ & _ & <-). by apply decimal_digits in H2 as (_ & _ & <-). Qed.

Lemma jobText_det a n n' : jobText a n -> jobText a n' -> n = n'.
Proof. rewrite <- !jobCount_text. congruence. Qed.

Lemma letterItem_det c s r i1 s1 r1 i2 s2 r2 m :
  letterItem c s r i1 s1 r1 -> letterItem c s (r ++ m) i2 s2 r2 -> i1 = i2 /\ s1 = s2 /\ r2 = r1 ++ m.
Proof.
  assert (Hf : forall c, flagChar c -> isLet (ch "J") c = false /\ isLet (ch "F") c = false /\ isLet (ch "X") c = false).
  { intros x Hx. split_and!; (apply isLet_flag; [vm_compute; done|vm_compute; done|by apply (bool_decide_unpack _)|done]). }
  assert (HJ : forall c, isLet (ch "J") c = true -> isLet (ch "F") c = false /\ isLet (ch "X") c = false).
  { intros x Hx. split; (eapply isLet_neq; [| | |exact Hx]; vm_compute; done). }
  assert (HF : forall c, isLet (ch "F") c = true -> isLet (ch "X") c = false).
  { intros x Hx. eapply isLet_neq; [| | |exact Hx]; vm_compute; done. }
  intros H1 H2.
  destruct H1 as [s r Hc|d s r n Hc Hd Hs|a r n Hc Ha|f r Hc Hn|a r Hc|f r Hc Hn|a r Hc];
    inversion H2 as [? ? Hc2|d2 ? ? n2 Hc2 Hd2 Hs2 E|? ? n2 Hc2 Ha2|? ? Hc2 Hn2|? ? Hc2|? ? Hc2 Hn2|? ? Hc2]; subst; clear H2;
    try (apply Hf in Hc as (? & ? & ?); congruence);
    try (apply Hf in Hc2 as (? & ? & ?); congruence);
    try (apply HJ in Hc as (? & ?); congruence);
    try (apply HJ in Hc2 as (? & ?); congruence);
    try (apply HF in Hc; congruence);
    try (apply HF in Hc2; congruence);
    try done.
  - pose proof (proj1 (proj2 (decimal_digits _ _ (proj1 Hd)))) as D1.
    pose proof (proj1 (proj2 (decimal_digits _ _ (proj1 Hd2)))) as D2.
    assert (d = d2) as <-.
    { rewrite <- (leadingDigits_app d s D1 Hs). rewrite <- (leadingDigits_app d2 s2 D2 Hs2). by f_equal. }
    apply app_inv_head in E as ->. split_and!; [|done|done]. f_equal.
    eapply decimal_det; [exact (proj1 Hd)|exact (proj1 Hd2)].
  - exfalso. destruct Hd as [Hd _]. apply decimal_digits in Hd as (Hne & _). destruct d; done.
  - exfalso. destruct Hd2 as [Hd _]. apply decimal_digits in Hd as (Hne & _). destruct d2; done.
  - split_and!; [|done|done]. f_equal. by eapply jobText_det.
Qed.

Lemma longAt_det l1 l2 w s1 s2 : longAt l1 w s1 -> longAt l2 w s2 -> l1 = l2 /\ s1 = s2.
Proof.
  intros H1 H2. pose proof (longOption_some _ _ _ (Ostate (defaultOpts 0) [] None []) H1) as E1.
  pose proof (longOption_some _ _ _ (Ostate (defaultOpts 0) [] None []) H2) as E2.
  rewrite E1 in E2. injection E2 as -> E. split; [|done].
  destruct H1 as [(p & Ep & Hp) Hd1], H2 as [(q & Eq & Hq) Hd2].
  destruct (names_differ _ _ _ _ _ _ _ Ep Eq Hp Hq) as [->|[[-> ->]|[-> ->]]]; [done|..].
  - by apply Hd1 in Eq.
  - by apply Hd2 in Ep.
Qed.

Lemma noLong_longAt l w s : noLong w -> longAt l w s -> False.
Proof. intros Hn [(p & E & Hp) _]. exact (Hn l p s E Hp). Qed.

Lemma optionWord_det w r is r1 : optionWord w r is r1 -> forall m is' r2, optionWord w (r ++ m) is' r2 ->
  is = is' /\ r2 = r1 ++ m.
Proof.
  induction 1 as [r|c s r i s' r' is r'' Hn Hi _ IH|l w r Hl|l w c s r i s' r' is r'' Hl Hi _ IH]; intros m is' r2 H2.
  - inversion H2 as [| |? ? ? Hl|? ? ? ? ? ? ? ? ? ? Hl]; subst; [done| |].
    + destruct Hl as [(p & E & Hp) _]. apply spells_length in Hp. destruct p; [by destruct l|done].
    + destruct Hl as [(p & E & Hp) _]. apply spells_length in Hp. destruct p; [by destruct l|done].
  - inversion H2 as [|? ? ? ? ? ? ? ? Hn2 Hi2 Hw2|? ? ? Hl|? ? ? ? ? ? ? ? ? ? Hl]; subst.
    + destruct (letterItem_det _ _ _ _ _ _ _ _ _ _ Hi Hi2) as (-> & -> & ->).
      destruct (IH _ _ _ Hw2) as [-> ->]. done.
    + exfalso. by eapply noLong_longAt.
    + exfalso. by eapply noLong_longAt.
  - inversion H2 as [|? ? ? ? ? ? ? ? Hn2 Hi2 Hw2|? ? ? Hl2|? ? ? ? ? ? ? ? ? ? Hl2]; subst.
    + destruct Hl as [(p & E & Hp) _]. apply spells_length in Hp. destruct p; [by destruct l|done].
    + exfalso. by eapply noLong_longAt.
    + by destruct (longAt_det _ _ _ _ _ Hl Hl2) as [-> _].
    + by destruct (longAt_det _ _ _ _ _ Hl Hl2) as [-> ?].
  - inversion H2 as [|? ? ? ? ? ? ? ? Hn2 Hi2 Hw2|? ? ? Hl2|? ? ? ? ? ? ? ? ? ? Hl2 Hi2 Hw2]; subst.
    + destruct Hl as [(p & E & Hp) _]. apply spells_length in Hp. destruct p; [by destruct l|done].
    + exfalso. by eapply noLong_longAt.
    + by destruct (longAt_det _ _ _ _ _ Hl Hl2) as [-> ?].
    + destruct (longAt_det _ _ _ _ _ Hl Hl2) as [-> E]. injection E as <- <-.
      destruct (letterItem_det _ _ _ _ _ _ _ _ _ _ Hi Hi2) as (-> & -> & ->).
      destruct (IH _ _ _ Hw2) as [-> ->]. done.
Qed.

Lemma eq_split (n v n' v' : qstr) : ch "=" ∉ n -> ch "=" ∉ n' -> n ++ ch "=" :: v = n' ++ ch "=" :: v' -> n = n' /\ v = v'.
Proof.
  revert n'. induction n as [|x n IH]; intros [|y n'] H1 H2 E; cbn in E.
  - by injection E.
  - injection E as <- _. exfalso. apply H2. by left.
  - injection E as -> _. exfalso. apply H1. by left.
  - injection E as <- E. destruct (IH n') as [-> ->]; [..|done|done]; intros H; [apply H1|apply H2]; by right.
Qed.

(** A reading of the first arguments is part of every reading of all. *)
Lemma commandLine_prefix a is ms ts : commandLine a is ms ts -> forall b is' ms' ts',
  commandLine (a ++ b) is' ms' ts' ->
  exists is2 ms2 ts2, commandLine b is2 ms2 ts2 /\ is' = is ++ is2 /\ ms' = ms ++ ms2 /\ ts' = ts ++ ts2.
Proof.
  induction 1 as [|c w r is r' is1 ms ts Hc Hw _ IH|n v r is ms ts Hs Hn Hv _ IH|t0 r is ms ts Hs Hn _ IH];
    intros b is' ms' ts' H.
  - eauto 10.
  - cbn in H. inversion H as [|? ? ? is3 ? ? ? ? Hc2 Hw2 Hr2 E|? ? ? ? ? ? Hs2 Hn2 Hv2 Hr2 E|? ? ? ? ? Hs2 Hn2 Hr2 E]; subst.
    + destruct (optionWord_det _ _ _ _ Hw _ _ _ Hw2) as [<- ->].
      destruct (IH _ _ _ _ Hr2) as (is2 & ms2 & ts2 & Hb & -> & -> & ->).
      exists is2, ms2, ts2. by rewrite app_assoc.
    + exfalso. apply Hs2. eexists c, w. split; [first [exact E|symmetry; exact E]|done].
    + exfalso. apply Hs2. eexists _, _. eauto.
  - cbn in H. inversion H as [|? ? ? is3 ? ? ? ? Hc2 Hw2 Hr2 E|? ? ? ? ? ? Hs2 Hn2 Hv2 Hr2 E|? ? ? ? ? Hs2 Hn2 Hr2 E]; subst.
    + exfalso. apply Hs. eexists _, _. split; [first [exact E|symmetry; exact E]|done].
    + apply eq_split in E as [-> ->]; [|done|done].
      destruct (IH _ _ _ _ Hr2) as (is2 & ms2 & ts2 & Hb & -> & -> & ->). exists is2, ms2, ts2. done.
    + exfalso. apply Hn2. rewrite elem_of_app. right. left.
  - cbn in H. inversion H as [|? ? ? is3 ? ? ? ? Hc2 Hw2 Hr2 E|? ? ? ? ? ? Hs2 Hn2 Hv2 Hr2 E|? ? ? ? ? Hs2 Hn2 Hr2 E]; subst.
    + exfalso. apply Hs. eexists _, _. eauto.
    + exfalso. apply Hn. rewrite elem_of_app. right. left.
    + destruct (IH _ _ _ _ Hr2) as (is2 & ms2 & ts2 & Hb & -> & -> & ->). exists is2, ms2, ts2. done.
Qed.

Lemma commandLine_det a is ms ts is' ms' ts' :
  commandLine a is ms ts -> commandLine a is' ms' ts' -> is = is' /\ ms = ms' /\ ts = ts'.
Proof.
  intros H1 H2. assert (H3 : commandLine (a ++ []) is' ms' ts') by (by rewrite app_nil_r).
  destruct (commandLine_prefix _ _ _ _ H1 _ _ _ _ H3) as (i2 & m2 & t2 & Hb & -> & -> & ->).
  inversion Hb; subst. by rewrite !app_nil_r.
Qed.

(** ** Macros *)

Lemma replace_nodollar n w v : 36 ∉ v -> replaceLazy (invocationOf n) w v = v.
Proof.
  intros H. unfold replaceLazy, invocationOf. cbn [app replaceAll].
  assert (G : forall b, replaceGo (36 :: b) w 0 v = v); [|apply G]. intros b.
  induction v as [|c v IH]; [done|]. cbn [replaceGo startsWith].
  rewrite elem_of_cons in H. assert (36 <> c) as Hc by tauto. apply N.eqb_neq in Hc. rewrite Hc. cbn [andb]. f_equal. apply IH. tauto.
Qed.

Lemma define_value n v src t t1 k : isMacroNameValid n = true -> 36 ∉ v ->
  defineCommandLine n v src t = MOk t1 ->
  macroValue (mt_macros t1) k = if bool_decide (k = n) then v else macroValue (mt_macros t) k.
Proof.
  intros Hn Hv H. unfold defineCommandLine, internalSet in H.
  rewrite expand_plain in H by (by apply valid_plain). rewrite Hn in H. cbv zeta in H.
  rewrite replace_nodollar in H by done. cbn [orb] in H.
  rewrite expand_plain in H by done. injection H as <-. unfold macroValue. cbn [setEnv setRo setSource mt_macros].
  case_bool_decide as E.
  - subst k. rewrite !lookup_alter, lookup_insert. done.
  - rewrite !lookup_alter_ne by done. by rewrite lookup_insert_ne.
Qed.

(** What a list of definitions makes of a name. *)
Fixpoint lastValue (ds : list (qstr * qstr * msource)) (k : qstr) (old : qstr) : qstr :=
  match ds with
  | [] => old
  | (n, v, _) :: ds' => lastValue ds' k (if bool_decide (k = n) then v else old)
  end.

Lemma defined_value t ds t1 k : defined t ds t1 ->
  Forall (fun d => isMacroNameValid (fst (fst d)) = true /\ 36 ∉ snd (fst d)) ds ->
  macroValue (mt_macros t1) k = lastValue ds k (macroValue (mt_macros t) k).
Proof.
  induction 1 as [|t n v src t1 ds t2 H _ IH]; intros Hf; [done|]. inversion Hf as [|? ? [H1 H2] H3]; subst.
  rewrite (IH H3). cbn [lastValue fst snd] in *. by rewrite (define_value n v src t t1 k H1 H2 H).
Qed.

Lemma lastValue_app ds1 ds2 k old : lastValue (ds1 ++ ds2) k old = lastValue ds2 k (lastValue ds1 k old).
Proof. revert old. induction ds1 as [|[[n v] s] ds1 IH]; intros old; [done|]. cbn. apply IH. Qed.

Lemma definitions_value ms : forall seen k old,
  lastValue (definitions seen ms) k old =
  (if bool_decide (k ∈ seen) then old
   else match given ms k with Some v => v | None => default old (implied ms k None) end).
Proof.
  assert (Himp : forall ms k (o : option qstr) (old : qstr), default old (implied ms k o) = default (default old o) (implied ms k None)).
  { induction ms0 as [|[n v] ms0 IH]; intros k o old; [done|]. cbn [implied]. case_bool_decide; [|apply IH].
    rewrite IH. by rewrite (IH k (Some v) (default old o)). }
  induction ms as [|[n v] ms IH]; intros seen k old.
  { cbn. by case_bool_decide. }
  cbn [definitions given implied]. rewrite !lastValue_app, IH.
  destruct (decide (n = k)) as [->|Hnk].
  - rewrite (bool_decide_eq_true_2 (k = k)) by done.
    rewrite (bool_decide_eq_true_2 (k ∈ k :: seen)) by (by left).
    assert (Hx : forall x, lastValue (if bool_decide (toUpper k ∈ k :: seen) then [] else [(toUpper k, v, SrcCommandLineImplicit)]) k x = x).
    { intros x. case_bool_decide as E; [done|]. cbn. rewrite bool_decide_eq_false_2; [done|].
      intros E2. apply E. rewrite <- E2. by left. }
    rewrite Hx. destruct (bool_decide (k ∈ seen)); [done|]. cbn. by rewrite bool_decide_eq_true_2.
  - rewrite (bool_decide_eq_false_2 (n = k)) by done.
    assert (Hx : forall x, lastValue (if bool_decide (n ∈ seen) then [] else [(n, v, SrcCommandLine)]) k x = x).
    { intros x. case_bool_decide as E; [done|]. cbn. rewrite bool_decide_eq_false_2; [done|congruence]. }
    rewrite Hx.
    rewrite (bool_decide_ext (k ∈ n :: seen) (k ∈ seen)) by (rewrite elem_of_cons; naive_solver).
    destruct (decide (k ∈ seen)) as [Hin|Hin].
    + rewrite !(bool_decide_eq_true_2 (k ∈ seen)) by done.
      destruct (bool_decide (toUpper n ∈ n :: seen)) eqn:E; [done|]. apply bool_decide_eq_false in E. cbn.
      rewrite bool_decide_eq_false_2; [done|]. intros ->. apply E. by right.
    + rewrite !(bool_decide_eq_false_2 (k ∈ seen)) by done. destruct (given ms k); [done|].
      destruct (decide (toUpper n = k)) as [<-|Hu].
      * rewrite (bool_decide_eq_true_2 (toUpper n = toUpper n)) by done.
        rewrite bool_decide_eq_false_2 by (rewrite elem_of_cons; naive_solver).
        cbn [lastValue]. rewrite bool_decide_eq_true_2 by done. by rewrite (Himp ms (toUpper n) (Some v) old).
      * rewrite (bool_decide_eq_false_2 (toUpper n = k)) by done. f_equal.
        destruct (bool_decide (toUpper n ∈ n :: seen)); [done|]. cbn.
        rewrite bool_decide_eq_false_2; [done|congruence].
Qed.

Lemma definitions_valid ms : Forall (fun m => isMacroNameValid (fst m) = true /\ isMacroNameValid (toUpper (fst m)) = true /\ 36 ∉ snd m) ms ->
  forall seen, Forall (fun d => isMacroNameValid (fst (fst d)) = true /\ 36 ∉ snd (fst d)) (definitions seen ms).
Proof.
  induction 1 as [|[n v] ms (H1 & H2 & H3) _ IH]; intros seen; [constructor|]. cbn [definitions fst snd] in *.
  rewrite !Forall_app. split_and!.
  - case_bool_decide; [constructor|]. by constructor.
  - case_bool_decide; [constructor|]. by constructor.
  - apply IH.
Qed.

(** MAKEFLAGS can always be set. *)
Lemma setMakeflags t f : exists t', setMacroValue (s2q "MAKEFLAGS") f t = MOk t' /\ mt_env t' = mt_env t /\
  (forall k, k <> s2q "MAKEFLAGS" -> macroValue (mt_macros t') k = macroValue (mt_macros t) k) /\
  (md_ro (default newMacro (mt_macros t !! s2q "MAKEFLAGS")) = false -> 36 ∉ f -> macroValue (mt_macros t') (s2q "MAKEFLAGS") = f).
Proof.
  unfold setMacroValue, setMacroImpl, internalSet.
  rewrite expand_plain by (by apply (bool_decide_unpack _)).
  change (isMacroNameValid (s2q "MAKEFLAGS")) with true. cbv iota zeta. cbn [srcEqb].
  eexists. split; [reflexivity|]. split; [done|]. split.
  - intros k Hk. unfold macroValue. cbn [setSource mt_macros]. by rewrite lookup_alter_ne, lookup_insert_ne.
  - intros Hro Hf. rewrite Hro. unfold macroValue at 1. cbn [setSource mt_macros].
    rewrite replace_nodollar by done. by rewrite lookup_alter, lookup_insert.
Qed.

Lemma define_lookup n v src t t1 k : isMacroNameValid n = true -> k <> n ->
  defineCommandLine n v src t = MOk t1 -> mt_macros t1 !! k = mt_macros t !! k.
Proof.
  intros Hn Hk H. unfold defineCommandLine, internalSet in H.
  rewrite expand_plain in H by (by apply valid_plain). rewrite Hn in H. cbv zeta in H.
  destruct (expandMacros _ _ _); [|done..]. injection H as <-. cbn [setEnv setRo setSource mt_macros].
  rewrite !lookup_alter_ne by done. by rewrite lookup_insert_ne.
Qed.

Lemma define_invalid n v src t t1 k : 36 ∉ n -> k <> n ->
  defineCommandLine n v src t = MOk t1 -> mt_macros t1 !! k = mt_macros t !! k.
Proof.
  intros Hn Hk H. destruct (isMacroNameValid n) eqn:E; [by eapply define_lookup|].
  unfold defineCommandLine, internalSet in H. rewrite expand_plain in H by done. rewrite E in H.
  destruct (expandMacros _ _ _); [|done..]. by injection H as <-.
Qed.

Lemma defined_lookup t ds t1 k : defined t ds t1 -> Forall (fun d => 36 ∉ fst (fst d) /\ k <> fst (fst d)) ds ->
  mt_macros t1 !! k = mt_macros t !! k.
Proof.
  induction 1 as [|t n v src t1 ds t2 H _ IH]; intros Hf; [done|]. inversion Hf as [|? ? [H1 H2] H3]; subst.
  rewrite (IH H3). by eapply define_invalid.
Qed.

Lemma definitions_names ms k : Forall (fun m => isMacroNameValid (fst m) = true /\ k <> fst m /\ k <> toUpper (fst m)) ms ->
  forall seen, Forall (fun d => 36 ∉ fst (fst d) /\ k <> fst (fst d)) (definitions seen ms).
Proof.
  induction 1 as [|[n v] ms (H1 & H2 & H3) _ IH]; intros seen; [constructor|]. cbn [definitions fst snd] in *.
  apply valid_plain in H1. rewrite !Forall_app. split_and!.
  - case_bool_decide; [constructor|]. by constructor.
  - case_bool_decide; [constructor|]. constructor; [|constructor]. cbn. split; [by apply upper_no_dollar|done].
  - apply IH.
Qed.

Lemma commandLine_names args is ms ts : commandLine args is ms ts -> Forall (fun m => isMacroNameValid (fst m) = true) ms.
Proof. induction 1; try done; by constructor. Qed.

(** ** MAKEFLAGS *)

Definition render (i : item) : qstr :=
  match i with IFlag c => [c] | IJobs c s _ => c :: s | _ => [] end.
Definition renderAll (is : list item) : qstr := concat (map render is).

Definition inherits (i : item) : Prop :=
  match i with
  | IFlag c => flagChar c
  | IJobs c s n => isLet (ch "J") c = true /\ jobNumber s n
  | _ => False
  end.

Definition inheritStep (acc : list item) (i : item) : list item :=
  match i with
  | IFlag c => if bool_decide (c ∈ renderAll acc) then acc else acc ++ [IFlag c]
  | ILong LNologo => acc ++ [IFlag (ch "L")]
  | IJobs c s n => if bool_decide (c ∈ renderAll acc) then acc else acc ++ [IJobs c s n]
  | _ => acc
  end.

Lemma renderAll_app a b : renderAll (a ++ b) = renderAll a ++ renderAll b.
Proof. unfold renderAll. by rewrite map_app, concat_app. Qed.

Lemma render_flags is acc : renderAll (fold_left inheritStep is acc) = fold_left flagsAfter is (renderAll acc).
Proof.
  revert acc. induction is as [|i is IH]; intros acc; [done|]. cbn [fold_left]. rewrite IH. f_equal.
  destruct i as [c|l|c s n|f|f]; cbn [inheritStep flagsAfter]; try done.
  - unfold setOnce. case_bool_decide; [done|]. by rewrite renderAll_app.
  - destruct l; try done. by rewrite renderAll_app.
  - case_bool_decide; [done|]. rewrite renderAll_app. unfold renderAll at 2. cbn. by rewrite app_nil_r.
Qed.

Definition goodItem (i : item) : Prop :=
  match i with
  | IFlag c => flagChar c
  | IJobs c s n => isLet (ch "J") c = true /\ jobNumber s n
  | _ => True
  end.

Lemma flagChar_L : flagChar (ch "L").
Proof. exists (ch "L"). split; [by apply (bool_decide_unpack _)|reflexivity]. Qed.

Lemma inherit_good is : forall acc, Forall goodItem is -> Forall inherits acc -> Forall inherits (fold_left inheritStep is acc).
Proof.
  induction is as [|i is IH]; intros acc Hg Ha; [done|]. inversion Hg as [|? ? Hi Hg']; subst. cbn [fold_left].
  apply IH; [done|]. destruct i as [c|l|c s n|f|f]; cbn [inheritStep]; try done.
  - case_bool_decide; [done|]. apply Forall_app. split; [done|]. by constructor.
  - destruct l; try done. apply Forall_app. split; [done|]. constructor; [apply flagChar_L|constructor].
  - case_bool_decide; [done|]. apply Forall_app. split; [done|]. by constructor.
Qed.

Lemma digit_notlet l c : 63 <= l -> isDigit c = true -> isLet l c = false.
Proof.
  unfold isDigit. rewrite andb_true_iff, !N.leb_le. intros H1 [H2 H3]. unfold isLet.
  rewrite (proj2 (N.eqb_neq c l)), (proj2 (N.eqb_neq c (l + 32))) by lia. by rewrite andb_false_r.
Qed.

Lemma flagChar_notdigit c : flagChar c -> isDigit c = false.
Proof.
  intros (l & Hl & E). destruct (isDigit c) eqn:Ed; [|done].
  rewrite (digit_notlet l c) in E; [done| |done].
  destruct (decide (l = ch "?")) as [->|Hq]; [vm_compute; done|]. destruct (flag_range l Hl Hq). lia.
Qed.

Lemma renderAll_in c is : Forall inherits is -> c ∈ renderAll is -> flagChar c -> IFlag c ∈ is.
Proof.
  induction 1 as [|i is Hi _ IH]; intros Hin Hc; [by apply not_elem_of_nil in Hin|].
  unfold renderAll in Hin. cbn [map concat] in Hin. apply elem_of_app in Hin as [Hin|Hin].
  - destruct i as [c'|l|c' s n|f|f]; cbn [render] in Hin; try (by apply not_elem_of_nil in Hin).
    + apply elem_of_list_singleton in Hin as ->. by left.
    + exfalso. destruct Hi as [HJ Hd]. apply elem_of_cons in Hin as [->|Hin].
      * rewrite (isLet_flag (ch "J")) in HJ; [done|vm_compute; done|vm_compute; done|by apply (bool_decide_unpack _)|done].
      * apply proj1, decimal_digits in Hd as (_ & Hd & _). rewrite Forall_forall in Hd. apply Hd in Hin.
        rewrite flagChar_notdigit in Hin; done.
  - right. by apply IH.
Qed.

Lemma has_in l c is : IFlag c ∈ is -> isLet l c = true -> has l is = true.
Proof.
  intros Hin Hl. unfold has. apply existsb_exists. exists (IFlag c). split; [by apply elem_of_list_In|done].
Qed.
Lemma has_app l a b : has l (a ++ b) = has l a || has l b.
Proof. apply existsb_app. Qed.

Lemma inherit_has l is : forall acc, Forall goodItem is -> Forall inherits acc ->
  has l (fold_left inheritStep is acc) = has l acc || has l is || (isLet l (ch "L") && hasLong LNologo is).
Proof.
  induction is as [|i is IH]; intros acc Hg Ha.
  { cbn. by rewrite andb_false_r, !orb_false_r. }
  inversion Hg as [|? ? Hi Hg']; subst. cbn [fold_left].
  assert (Ha' : Forall inherits (inheritStep acc i)) by (apply (inherit_good [i]); [by constructor|done]).
  rewrite (IH _ Hg' Ha').
  destruct i as [c|ln|c s n|f|f]; cbn [inheritStep].
  - change (has l (IFlag c :: is)) with (isLet l c || has l is). change (hasLong LNologo (IFlag c :: is)) with (hasLong LNologo is).
    case_bool_decide as Hin.
    + apply renderAll_in in Hin; [|done|done]. destruct (isLet l c) eqn:El; [|done].
      rewrite (has_in l c acc Hin El). by rewrite !orb_true_l.
    + rewrite has_app. change (has l [IFlag c]) with (isLet l c || false). rewrite orb_false_r. by rewrite !orb_assoc.
  - change (has l (ILong ln :: is)) with (has l is). destruct ln; try done.
    rewrite has_app. change (has l [IFlag (ch "L")]) with (isLet l (ch "L") || false).
    change (hasLong LNologo (ILong LNologo :: is)) with true. rewrite orb_false_r.
    destruct (has l acc), (isLet l (ch "L")), (has l is), (hasLong LNologo is); reflexivity.
  - change (has l (IJobs c s n :: is)) with (has l is). change (hasLong LNologo (IJobs c s n :: is)) with (hasLong LNologo is).
    case_bool_decide; [done|]. rewrite has_app. change (has l [IJobs c s n]) with false. by rewrite orb_false_r.
  - done.
  - done.
Qed.

Lemma lastOf_app {A B} (f : A -> option B) a b d : lastOf f (a ++ b) d = lastOf f b (lastOf f a d).
Proof. revert d. induction a as [|x a IH]; intros d; [done|]. cbn. apply IH. Qed.

Lemma inherit_jobs is : forall acc cpus, Forall goodItem is -> Forall inherits acc ->
  (List.length (filter (fun i => isJobs i = true) (acc ++ is)) <= 1)%nat ->
  lastOf jobsOf (fold_left inheritStep is acc) cpus = lastOf jobsOf is (lastOf jobsOf acc cpus) /\
  existsb isJobs (fold_left inheritStep is acc) = existsb isJobs acc || existsb isJobs is /\
  hasLong LDump (fold_left inheritStep is acc) = hasLong LDump acc.
Proof.
  induction is as [|i is IH]; intros acc cpus Hg Ha Hn.
  { cbn. by rewrite orb_false_r. }
  inversion Hg as [|? ? Hi Hg']; subst. cbn [fold_left].
  assert (Ha' : Forall inherits (inheritStep acc i)) by (apply (inherit_good [i]); [by constructor|done]).
  assert (Hlen : (List.length (filter (fun i => isJobs i = true) (inheritStep acc i ++ is)) <= 1)%nat).
  { etransitivity; [|exact Hn]. rewrite !filter_app, !app_length.
    destruct i as [c|ln|c s n|f|f]; cbn [inheritStep];
      try (rewrite filter_cons_False by done; lia).
    - rewrite filter_cons_False by done. case_bool_decide; [lia|]. rewrite filter_app, app_length, filter_cons_False by done. cbn. lia.
    - rewrite filter_cons_False by done. destruct ln; try lia. rewrite filter_app, app_length, filter_cons_False by done. cbn. lia.
    - rewrite filter_cons_True by done. cbn [List.length]. case_bool_decide; [lia|].
      rewrite filter_app, app_length, filter_cons_True by done. cbn. lia. }
  destruct (IH _ cpus Hg' Ha' Hlen) as (E1 & E2 & E3). rewrite E1, E2, E3. clear E1 E2 E3.
  destruct i as [c|ln|c s n|f|f]; cbn [inheritStep].
  - case_bool_decide; [done|]. rewrite lastOf_app, existsb_app. unfold hasLong. rewrite existsb_app. cbn.
    by rewrite !orb_false_r.
  - destruct ln; try done. rewrite lastOf_app, existsb_app. unfold hasLong. rewrite existsb_app. cbn. by rewrite !orb_false_r.
  - case_bool_decide as Hin.
    + exfalso. rewrite filter_app, app_length, filter_cons_True in Hn by done. cbn [List.length] in Hn.
      assert (Hz : filter (fun i => isJobs i = true) acc = []) by (destruct (filter _ acc); [done|cbn in Hn; lia]).
      clear -Ha Hin Hz Hi. destruct Hi as [HJ _].
      induction Ha as [|i acc Hi _ IH]; [by apply not_elem_of_nil in Hin|].
      unfold renderAll in Hin. cbn [map concat] in Hin. apply elem_of_app in Hin as [Hin|Hin].
      * destruct i as [c'|l|c' s' n'|f|f]; cbn [render] in Hin; try (by apply not_elem_of_nil in Hin).
        -- apply elem_of_list_singleton in Hin as ->.
           rewrite (isLet_flag (ch "J")) in HJ; [done|vm_compute; done|vm_compute; done|by apply (bool_decide_unpack _)|done].
        -- by rewrite filter_cons_True in Hz.
      * apply IH; [done|]. destruct (isJobs i) eqn:Ei; [by rewrite filter_cons_True in Hz|].
        rewrite filter_cons_False in Hz; [done|congruence].
    + rewrite lastOf_app, existsb_app. unfold hasLong. rewrite existsb_app. cbn. rewrite !orb_false_r. by destruct (existsb isJobs acc).
  - done.
  - done.
Qed.

Lemma inherit_long l is : forall acc, hasLong l acc = false -> hasLong l (fold_left inheritStep is acc) = false.
Proof.
  induction is as [|i is IH]; intros acc H; [done|]. cbn [fold_left]. apply IH.
  destruct i as [c|ln|c s n|f|f]; cbn [inheritStep]; try done.
  - case_bool_decide; [done|]. unfold hasLong in *. rewrite existsb_app, H. by destruct l.
  - destruct ln; try done. unfold hasLong in *. rewrite existsb_app, H. by destruct l.
  - case_bool_decide; [done|]. unfold hasLong in *. rewrite existsb_app, H. by destruct l.
Qed.
Lemma inherit_stderr is : forall acc, lastOf stderrOf acc None = None -> lastOf stderrOf (fold_left inheritStep is acc) None = None.
Proof.
  induction is as [|i is IH]; intros acc H; [done|]. cbn [fold_left]. apply IH.
  destruct i as [c|ln|c s n|f|f]; cbn [inheritStep]; try done.
  - case_bool_decide; [done|]. by rewrite lastOf_app, H.
  - destruct ln; try done. by rewrite lastOf_app, H.
  - case_bool_decide; [done|]. by rewrite lastOf_app, H.
Qed.

(** Reading flags back. *)
Lemma inherits_chars is : Forall inherits is ->
  Forall (fun c => flagChar c \/ isLet (ch "J") c = true \/ isDigit c = true) (renderAll is).
Proof.
  induction 1 as [|i is Hi _ IH]; [constructor|]. unfold renderAll. cbn [map concat]. apply Forall_app. split; [|done].
  destruct i as [c|l|c s n|f|f]; cbn [render] in *; try constructor; try done; auto.
  - right. left. apply Hi.
  - destruct Hi as [_ [Hd _]]. apply decimal_digits in Hd as (_ & Hd & _). eapply Forall_impl; [exact Hd|]. auto.
Qed.

Lemma notflag_letter l c : 65 <= l <= 90 -> l ∉ flagLetters -> l <> ch "J" ->
  flagChar c \/ isLet (ch "J") c = true \/ isDigit c = true -> isLet l c = false.
Proof.
  intros Hl Hn HJ [H|[H|H]].
  - destruct Hl. by apply isLet_flag.
  - eapply isLet_neq; [| | |exact H]; [vm_compute; done|done|congruence].
  - apply digit_notlet; [lia|done].
Qed.

Lemma noLong_chars w : Forall (fun c => flagChar c \/ isLet (ch "J") c = true \/ isDigit c = true) w ->
  (forall p s, w = p ++ s -> ~ spells (nameOf LDebug) p) -> noLong w.
Proof.
  intros Hw Hd l p s E Hp.
  assert (G : forall i k, nameOf l !! i = Some k -> 65 <= k <= 90 -> k ∉ flagLetters -> k <> ch "J" -> False).
  { intros i k Hk H1 H2 H3. destruct (Forall2_lookup_l _ _ _ _ _ Hp Hk) as (x & Hx & El).
    rewrite (notflag_letter k x H1 H2 H3) in El; [done|].
    rewrite Forall_forall in Hw. apply Hw. rewrite E. apply elem_of_app. left. by eapply elem_of_list_lookup_2. }
  destruct l.
  - eapply (G 1%nat); [reflexivity|vm_compute; done|by apply (bool_decide_unpack _)|done].
  - eapply (G 2%nat); [reflexivity|vm_compute; done|by apply (bool_decide_unpack _)|done].
  - eapply (G 2%nat); [reflexivity|vm_compute; done|by apply (bool_decide_unpack _)|done].
  - exact (Hd p s E Hp).
  - eapply (G 3%nat); [reflexivity|vm_compute; done|by apply (bool_decide_unpack _)|done].
  - eapply (G 0%nat); [reflexivity|vm_compute; done|by apply (bool_decide_unpack _)|done].
Qed.

Lemma render_word is : Forall inherits is -> noDebug (renderAll is) -> optionWord (renderAll is) [] is [].
Proof.
  induction 1 as [|i is Hi His IH]; intros Hd; [constructor|].
  unfold renderAll in *. cbn [map concat] in *. fold (renderAll is) in *.
  assert (Hd' : noDebug (renderAll is)).
  { intros a p s E. apply (Hd (render i ++ a) p s). by rewrite E, <- app_assoc. }
  specialize (IH Hd').
  assert (Hch : Forall (fun c => flagChar c \/ isLet (ch "J") c = true \/ isDigit c = true) (render i ++ renderAll is)).
  { exact (inherits_chars (i :: is) (Forall_cons_2 _ _ _ Hi His)). }
  assert (Hn : noLong (render i ++ renderAll is)).
  { apply noLong_chars; [done|]. intros p s E. by apply (Hd [] p s). }
  destruct i as [c|l|c s n|f|f]; cbn [render app] in *; try done.
  - eapply ow_letter; [done|by apply li_flag|done].
  - destruct Hi as [HJ Hnum]. eapply ow_letter; [done|apply li_jobs; [done|done|]|done].
    intros x s' E. destruct is as [|i2 is]; [done|]. inversion His as [|? ? Hi2]; subst.
    unfold renderAll in E. cbn [map concat] in E.
    destruct i2 as [c2|l2|c2 s2 n2|f2|f2]; cbn [render app] in E; try done; injection E as <- _.
    + by apply flagChar_notdigit.
    + destruct Hi2 as [HJ2 _]. destruct (isDigit c2) eqn:Ed; [|done].
      rewrite (digit_notlet (ch "J")) in HJ2; [done|vm_compute; done|done].
Qed.

Lemma flag_notspace c : flagChar c \/ isLet (ch "J") c = true \/ isDigit c = true -> isSpace c = false.
Proof.
  intros [H|[H|H]].
  - destruct H as (l & Hl & E). destruct (decide (l = ch "?")) as [->|Hq].
    + unfold isLet in E. cbn [N.leb N.compare Pos.compare Pos.compare_cont andb] in E. change (65 <=? ch "?") with false in E.
      cbn [andb] in E. rewrite orb_false_r in E. apply N.eqb_eq in E as ->. reflexivity.
    + destruct (flag_range l Hl Hq). unfold isLet in E. rewrite orb_true_iff, !andb_true_iff, !N.eqb_eq in E.
      assert (65 <= c <= 122) by lia. unfold isSpace.
      repeat match goal with |- context [c =? ?b] => rewrite (proj2 (N.eqb_neq c b)) by lia end.
      rewrite (proj2 (N.leb_gt c 13)) by lia. rewrite (proj2 (N.leb_gt 8192 c)) by lia. by rewrite andb_false_r.
  - rewrite isLet_up in H by (vm_compute; done). unfold upLatin1 in H.
    assert (65 <= c <= 122).
    { change (ch "J") with 74 in H. destruct ((97 <=? c) && (c <=? 122)) eqn:E; rewrite N.eqb_eq in H.
      - rewrite andb_true_iff, !N.leb_le in E. lia.
      - lia. }
    unfold isSpace.
    repeat match goal with |- context [c =? ?b] => rewrite (proj2 (N.eqb_neq c b)) by lia end.
    rewrite (proj2 (N.leb_gt c 13)) by lia. rewrite (proj2 (N.leb_gt 8192 c)) by lia. by rewrite andb_false_r.
  - by apply digit_notspace.
Qed.

Lemma trimmed_flags w : Forall (fun c => isSpace c = false) w -> trimmed w = w.
Proof.
  intros H. apply tight_trimmed. split.
  - intros c b ->. by inversion H.
  - intros c b ->. apply Forall_app in H as [_ H]. by rewrite Forall_singleton in H.
Qed.

Definition textItem (i : item) : Prop :=
  match i with IFlag c => flagChar c | IJobs c s n => isLet (ch "J") c = true /\ jobText s n | _ => True end.

Lemma commandLine_good args is ms ts : commandLine args is ms ts -> Forall textItem is.
Proof.
  assert (L : forall c s r i s' r', letterItem c s r i s' r' -> textItem i).
  { destruct 1; first [done|split; [done|by apply jobNumber_text]]. }
  assert (W : forall w r is r', optionWord w r is r' -> Forall textItem is).
  { induction 1; repeat first [apply Forall_nil_2|apply Forall_cons_2]; try done; by eapply L. }
  induction 1; try done. apply Forall_app. split; [by eapply W|done].
Qed.

(** A second instance reads the flags as the first one read its options. *)
Lemma flags_read_back args cpus is ms ts : commandLine args is ms ts ->
  (List.length (filter (fun i => isJobs i = true) is) <= 1)%nat ->
  Forall (fun i => match i with IJobs _ s _ => Forall (fun c => isDigit c = true) s | _ => True end) is ->
  hasLong LDump is = false -> hasLong LDumpDot is = false -> noDebug (flagsOf is) ->
  exists is', optionWord (trimmed (flagsOf is)) [] is' [] /\ settings cpus is' = inherited (settings cpus is) /\
    lastOf fileOf is' None = None.
Proof.
  intros Hc Hj Hd Hd1 Hd2 Hnd.
  assert (Hg : Forall goodItem is).
  { apply commandLine_good in Hc. rewrite Forall_forall in *. intros i Hi. specialize (Hc i Hi). specialize (Hd i Hi).
    destruct i; try done. destruct Hc as [HJ Ht]. split; [done|]. by apply (jobCount_digits _ _ Hd), jobCount_text. }
  set (is' := fold_left inheritStep is []).
  assert (Hi : Forall inherits is') by (apply inherit_good; [done|constructor]).
  assert (Hr : renderAll is' = flagsOf is) by (unfold is'; rewrite render_flags; done).
  exists is'. split_and!.
  - rewrite <- Hr in *. rewrite trimmed_flags; [by apply render_word|].
    eapply Forall_impl; [apply (inherits_chars is' Hi)|]. intros c H. by apply flag_notspace.
  - pose proof (fun l => inherit_has l is [] Hg (Forall_nil_2 _)) as Hh. fold is' in Hh.
    destruct (inherit_jobs is [] cpus Hg (Forall_nil_2 _) Hj) as (J1 & J2 & J3). fold is' in J1, J2, J3.
    pose proof (fun l => inherit_long l is [] eq_refl) as Hl. fold is' in Hl.
    unfold settings, inherited, set. cbn -[ch has hasLong lastOf existsb].
    rewrite !Hh, !Hl, J1, Hd1, Hd2. change (existsb _ is') with (existsb isJobs is'). rewrite J2.
    change (lastOf stderrOf is' None) with (lastOf stderrOf (fold_left inheritStep is []) None).
    rewrite inherit_stderr by done.
    change (has ?l []) with false. change (existsb isJobs []) with false. cbn [orb].
    rewrite !orb_false_r.
    reflexivity.
  - assert (G : forall l, Forall inherits l -> lastOf fileOf l None = None); [|by apply G].
    induction 1 as [|i l Hi' _ IH]; [done|]. by destruct i.
Qed.

(** Flags never contain a dollar sign. *)
Lemma flags_nodollar is : Forall textItem is -> 36 ∉ flagsOf is.
Proof.
  assert (G : forall f, Forall textItem is -> 36 ∉ f -> 36 ∉ fold_left flagsAfter is f);
    [|intros H; apply G; [done|apply not_elem_of_nil]].
  assert (Hfl : forall l c, 65 <= l <= 90 -> isLet l c = true -> 36 <> c).
  { intros l c Hl E <-. unfold isLet in E. rewrite orb_true_iff, !andb_true_iff, !N.eqb_eq in E. lia. }
  assert (Hfc : forall c, flagChar c -> 36 <> c).
  { intros c (l & Hl & E). destruct (decide (l = ch "?")) as [->|Hq]; [intros <-; discriminate E|].
    eapply Hfl; [|done]. destruct (flag_range l Hl Hq). lia. }
  induction is as [|i is IH]; intros f Hg Hf; [done|]. inversion Hg as [|? ? Hi Hg']; subst. cbn [fold_left].
  apply IH; [done|]. destruct i as [c|l|c s n|g|g]; cbn [flagsAfter]; try done.
  - unfold setOnce. case_bool_decide; [done|]. rewrite elem_of_app, elem_of_list_singleton. intros [?|E]; [done|].
    by apply (Hfc c).
  - destruct l; try done. rewrite elem_of_app, elem_of_list_singleton. intros [?|E]; done.
  - case_bool_decide; [done|]. rewrite elem_of_app, elem_of_cons. intros [?|[E|Hin]]; [done|..].
    + destruct Hi as [HJ _]. eapply (Hfl (ch "J") c); [vm_compute; done|done|done].
    + destruct Hi as [_ (b1 & p & d & b2 & -> & Hp & H1 & H2 & H3)].
      apply proj1, decimal_digits in H3 as (_ & H3 & _).
      rewrite !elem_of_app in Hin. rewrite Forall_forall in H1, H2, H3.
      destruct Hin as [Hin|[Hin|[Hin|Hin]]].
      * apply H1 in Hin. discriminate Hin.
      * destruct Hp as [->| ->]; [by apply not_elem_of_nil in Hin|]. apply elem_of_list_singleton in Hin. discriminate Hin.
      * apply H3 in Hin. discriminate Hin.
      * apply H2 in Hin. discriminate Hin.
Qed.
