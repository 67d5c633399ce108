(** C31 and C32: the command line, and MAKEFLAGS for other instances. *)
From Coq Require Import Ascii String.
From stdpp Require Import prelude gmap.
From RecordUpdate Require Import RecordSet.
Import RecordSetNotations.
From Verif Require Import Base Macro MacroSpec MacroProofs SplitCmd SplitCmdSpec SplitCmdProofs Opts OptsSpec OptsProofs OptsWordProofs OptsLineProofs OptsFlagsProofs.
Local Open Scope N_scope.

(** ** C31 *)

(** Whatever the arguments, the program accepts them exactly if they are a command line of the grammar of
    OptsSpec.v whose macro definitions can be made, and then it has the settings, the makefile, the
    targets and the macros that this command line stands for. *)
Theorem C31_read fs cpus mt args r :
  readCommandLine fs cpus mt args = COk r <->
  exists args' is ms ts t,
    expandsArgs fs args args' /\ commandLine args' is ms ts /\ defined mt (definitions [] ms) t /\
    setMacroValue (s2q "MAKEFLAGS") (flagsOf is) t = MOk (c_macros r) /\
    c_opts r = settings cpus is /\ c_makefile r = default (s2q "Makefile") (lastOf fileOf is None) /\
    c_targets r = firsts ts /\ c_flags r = flagsOf is.
Proof. apply readCommandLine_iff. Qed.

(** The grammar gives every argument list one meaning at most. *)
Theorem C31_unambiguous args is ms ts is' ms' ts' :
  commandLine args is ms ts -> commandLine args is' ms' ts' -> is = is' /\ ms = ms' /\ ts = ts'.
Proof. apply commandLine_det. Qed.

Lemma expands_one fs args a b : expandsArgs fs args a -> expandsArgs fs args b -> a = b.
Proof. rewrite <- !expandCommandFiles_iff. congruence. Qed.

Lemma optionWord_flags f w r is r' : Forall flagChar f ->
  (forall a b, f = a ++ b -> noLong (b ++ w)) ->
  optionWord (f ++ w) r is r' -> exists is2, optionWord w r is2 r'.
Proof.
  induction f as [|c f IH] in is |- *; intros Hf Hl H; [eauto|].
  inversion Hf as [|? ? Hc Hf']; subst. pose proof (Hl [] (c :: f) eq_refl) as Hn. cbn [app] in H, Hn.
  inversion H as [|? ? ? i s' r1 is1 ? Hn2 Hi Hw|? ? ? Hx|? ? ? ? ? ? ? ? ? ? Hx]; subst;
    [|exfalso; by eapply noLong_longAt|exfalso; by eapply noLong_longAt].
  destruct (letterItem_det _ _ _ _ _ _ i s' r1 [] (li_flag c (f ++ w) r Hc)) as (_ & <- & ->).
  { by rewrite app_nil_r. }
  rewrite app_nil_r in Hw.
  eapply IH; [done| |done]. intros a b ->. by apply (Hl (c :: a) b).
Qed.

(** Unknown options are rejected: wherever the option stands, alone or combined with others. *)
Theorem C31_unknown_rejected fs cpus mt args pre is ms ts sign f c s post r :
  commandLine pre is ms ts -> sign = ch "-" \/ sign = ch "/" ->
  trimmed (f ++ c :: s) = f ++ c :: s ->
  Forall flagChar f -> (forall a b, f = a ++ b -> noLong (b ++ c :: s)) ->
  ~ flagChar c -> isLet (ch "J") c = false -> isLet (ch "F") c = false -> isLet (ch "X") c = false ->
  expandsArgs fs args (pre ++ (sign :: f ++ c :: s) :: post) ->
  readCommandLine fs cpus mt args <> COk r.
Proof.
  intros Hp Hs Ht Hf Hl H1 H2 H3 H4 Ha H. apply C31_read in H as (args' & is' & ms' & ts' & t & Ha' & Hc & _).
  rewrite (expands_one _ _ _ _ Ha' Ha) in Hc.
  destruct (commandLine_prefix _ _ _ _ Hp _ _ _ _ Hc) as (is2 & ms2 & ts2 & Hb & _). clear Hc.
  inversion Hb as [|? ? ? is3 ? ? ? ? Hc2 Hw2 Hr2 E|? ? ? ? ? ? Hs2 Hn2 Hv2 Hr2 E|? ? ? ? ? Hs2 Hn2 Hr2 E]; subst.
  - rewrite Ht in Hw2. destruct (optionWord_flags _ _ _ _ _ Hf Hl Hw2) as [is4 Hw].
    inversion Hw as [|? ? ? i s' r1 is1 ? Hn2 Hi _|? ? ? Hx|? ? ? ? ? ? ? ? ? ? Hx]; subst.
    + destruct Hi; congruence.
    + eapply noLong_longAt; [|done]. by apply (Hl f []); rewrite app_nil_r.
    + eapply noLong_longAt; [|done]. by apply (Hl f []); rewrite app_nil_r.
  - apply Hs2. eexists _, _. split; [first [exact E|symmetry; exact E]|done].
  - apply Hs2. eexists _, _. split; [reflexivity|done].
Qed.

(** A job count has to be a number from 1 on: behind the letter, or in the next argument. *)
Theorem C31_jobs_rejected fs cpus mt args pre is ms ts sign f c d s post r :
  commandLine pre is ms ts -> sign = ch "-" \/ sign = ch "/" ->
  trimmed (f ++ c :: d ++ s) = f ++ c :: d ++ s ->
  Forall flagChar f -> (forall a b, f = a ++ b -> noLong (b ++ c :: d ++ s)) ->
  isLet (ch "J") c = true -> Forall (fun x => isDigit x = true) d ->
  (forall x s', s = x :: s' -> isDigit x = false) ->
  (forall n, ~ jobNumber d n) ->
  (d ++ s = [] -> forall a post' n, post = a :: post' -> ~ jobText a n) ->
  expandsArgs fs args (pre ++ (sign :: f ++ c :: d ++ s) :: post) ->
  readCommandLine fs cpus mt args <> COk r.
Proof.
  intros Hp Hs Ht Hf Hl H1 Hd Hds H2 H3 Ha H. apply C31_read in H as (args' & is' & ms' & ts' & t & Ha' & Hc & _).
  rewrite (expands_one _ _ _ _ Ha' Ha) in Hc.
  destruct (commandLine_prefix _ _ _ _ Hp _ _ _ _ Hc) as (is2 & ms2 & ts2 & Hb & _). clear Hc.
  inversion Hb as [|? ? ? is3 ? ? ? ? Hc2 Hw2 Hr2 E|? ? ? ? ? ? Hs2 Hn2 Hv2 Hr2 E|? ? ? ? ? Hs2 Hn2 Hr2 E]; subst.
  - rewrite Ht in Hw2. destruct (optionWord_flags _ _ _ _ _ Hf Hl Hw2) as [is4 Hw].
    inversion Hw as [|? ? ? i s' r1 is1 ? Hn2 Hi _|? ? ? Hx|? ? ? ? ? ? ? ? ? ? Hx]; subst.
    + assert (Hfx : flagChar c -> isLet (ch "J") c = false).
      { intros Hfc. apply isLet_flag; [vm_compute; done|vm_compute; done|by apply (bool_decide_unpack _)|done]. }
      assert (HFX : isLet (ch "F") c = false /\ isLet (ch "X") c = false).
      { split; (eapply isLet_neq; [| | |exact H1]; vm_compute; done). }
      destruct HFX. inversion Hi as [? ? Hx|d2 ? ? n2 Hx Hd2 Hs2 E|? ? n2 Hx Hj E|? ? Hx|? ? Hx|? ? Hx|? ? Hx]; subst;
        try congruence.
      * apply Hfx in Hx. congruence.
      * pose proof (proj1 (proj2 (decimal_digits _ _ (proj1 Hd2)))) as D2.
        apply (H2 n2). assert (d = d2) as ->; [|done].
        rewrite <- (leadingDigits_app d s Hd Hds). rewrite <- (leadingDigits_app d2 s' D2 Hs2). by f_equal.
      * by eapply H3.
    + eapply noLong_longAt; [|done]. by apply (Hl f []); rewrite app_nil_r.
    + eapply noLong_longAt; [|done]. by apply (Hl f []); rewrite app_nil_r.
  - apply Hs2. eexists _, _. split; [first [exact E|symmetry; exact E]|done].
  - apply Hs2. eexists _, _. split; [reflexivity|done].
Qed.

(** Macro arguments: of several definitions of a name the first one counts; a name in capitals that is
    not given itself gets the last value of the names that read like it. (Values with a dollar sign and
    names whose capitals are no name are left out here; C31_read covers them.) *)
Theorem C31_macro_values fs cpus mt args args' is ms ts r k :
  expandsArgs fs args args' -> commandLine args' is ms ts -> readCommandLine fs cpus mt args = COk r ->
  Forall (fun m => isMacroNameValid (toUpper (fst m)) = true /\ 36 ∉ snd m) ms -> k <> s2q "MAKEFLAGS" ->
  macroValue (mt_macros (c_macros r)) k =
    match given ms k with Some v => v | None => default (macroValue (mt_macros mt) k) (implied ms k None) end.
Proof.
  intros Ha Hc H Hv Hk. apply C31_read in H as (args2 & is2 & ms2 & ts2 & t & Ha2 & Hc2 & Hd & Hm & _).
  rewrite <- (expands_one _ _ _ _ Ha Ha2) in Hc2. destruct (commandLine_det _ _ _ _ _ _ _ Hc Hc2) as (<- & <- & <-).
  destruct (setMakeflags t (flagsOf is)) as (t' & E & _ & Hoth & _). rewrite E in Hm. injection Hm as <-.
  rewrite (Hoth k Hk).
  assert (Hall : Forall (fun m => isMacroNameValid (fst m) = true /\ isMacroNameValid (toUpper (fst m)) = true /\ 36 ∉ snd m) ms).
  { clear -Hc Hv. induction Hc; try done; [auto|..].
    - inversion Hv as [|? ? [Hv1 Hv2] Hv3]; subst. constructor; [done|auto].
    - auto. }
  rewrite (defined_value _ _ _ k Hd); [|by apply definitions_valid]. rewrite definitions_value.
  by rewrite bool_decide_eq_false_2 by (apply not_elem_of_nil).
Qed.

Definition exFiles : cfiles := fun f => if qeqb f (s2q "more.txt") then Some [s2q "-s ""Z=B 1"" all"; s2q "/Kx err.txt"] else None.
Definition exTable : mtable := Mtable ∅ ∅.
Definition optsOf (r : cres cmdline) : option copts := match r with COk c => Some (c_opts c) | _ => None end.

(** One command line with a bit of everything. *)
Example C31_case :
  let args := map s2q ["/NoLogoK"; "all"; "-iSJ3e"; "name=some value"; "-f"; "my make.mak"; "@more.txt"; "all"; "Name=other"; "/j"; " +12"]%string in
  match readCommandLine exFiles 4 exTable args with
  | COk r =>
    c_targets r = [s2q "all"] /\ c_makefile r = s2q "my make.mak" /\ c_flags r = s2q "LKiSJ3ej +12s"
    /\ c_opts r = settings 4 [IFlag (ch "I"); IFlag (ch "K"); IFlag (ch "L"); IFlag (ch "S"); IFlag (ch "E"); IJobs 74 [] 12; IStderr (s2q "err.txt")]
    /\ o_keepGoing (c_opts r) = false
    /\ macroValue (mt_macros (c_macros r)) (s2q "name") = s2q "some value"
    /\ macroValue (mt_macros (c_macros r)) (s2q "NAME") = s2q "other"
  | _ => False
  end.
Proof. vm_compute. split_and!; reflexivity. Qed.

(** Rejected ones: unknown letters, no or wrong job counts, names that are none. *)
Example C31_case_rejected :
  let rd args := readCommandLine exFiles 4 exTable (map s2q args) in
  rd ["all"; "/z"]%string = CFalse /\ rd ["-sz"]%string = CFalse /\ rd ["/J"]%string = CFalse
  /\ rd ["/J0"]%string = CFalse /\ rd ["/J"; "abc"]%string = CFalse /\ rd ["/J"; "-2"]%string = CFalse
  /\ rd ["/J2147483648"]%string = CFalse /\ rd ["/F"]%string = CFalse /\ rd ["/nologoversion"]%string = CFalse
  /\ rd ["@missing"]%string = CFalse /\ rd ["a b=1"]%string = CExit /\ rd ["=1"]%string = CExit.
Proof. vm_compute. split_and!; reflexivity. Qed.

Lemma noLong_check w : forallb (fun l => negb (startsWith (nameOf l) (toUpper w))) [LNologo; LDumpDot; LDump; LDebug; LErrorReport; LVersion] = true ->
  noLong w.
Proof.
  intros H l p s E Hp. assert (Hs : startsWith (nameOf l) (toUpper w) = true) by (apply starts_iff; eauto).
  rewrite forallb_forall in H. specialize (H l). rewrite Hs in H. discriminate H. destruct l; cbn; tauto.
Qed.

Lemma flags_suffix f w : forallb (fun i => forallb (fun l => negb (startsWith (nameOf l) (toUpper (drop i f ++ w)))) [LNologo; LDumpDot; LDump; LDebug; LErrorReport; LVersion]) (seq 0 (S (List.length f))) = true ->
  forall a b, f = a ++ b -> noLong (b ++ w).
Proof.
  intros H a b E. apply noLong_check. rewrite forallb_forall in H. specialize (H (List.length a)).
  rewrite E, drop_app in H. apply H. apply in_seq. rewrite app_length. lia.
Qed.

(** The two theorems about rejection, with everything before and behind. *)
Example C31_case_unknown r : readCommandLine exFiles 4 exTable (map s2q ["x=1"; "-K"; "/svq"; "all"]%string) <> COk r.
Proof.
  eapply (C31_unknown_rejected _ _ _ _ (map s2q ["x=1"; "-K"]%string) [IFlag (ch "K")] [(s2q "x", s2q "1")] []
    (ch "/") (s2q "s") (ch "v") (s2q "q") (map s2q ["all"]%string)).
  - apply (cl_macro (s2q "x") (s2q "1") (map s2q ["-K"]%string)).
    + intros (c & w & E & [->| ->]); discriminate E.
    + by apply (bool_decide_unpack _).
    + reflexivity.
    + apply (cl_option (ch "-") (s2q "K") [] [IFlag (ch "K")] []); [by left| |constructor].
      eapply ow_letter; [by apply noLong_check|apply li_flag|constructor].
      exists (ch "K"). split; [by apply (bool_decide_unpack _)|reflexivity].
  - by right.
  - reflexivity.
  - constructor; [|constructor]. exists (ch "S"). split; [by apply (bool_decide_unpack _)|reflexivity].
  - by apply flags_suffix.
  - intros Hf. assert (isLet (ch "V") (ch "v") = false) as E; [|vm_compute in E; discriminate E].
    apply isLet_flag; [vm_compute; done|vm_compute; done|by apply (bool_decide_unpack _)|done].
  - reflexivity.
  - reflexivity.
  - reflexivity.
  - apply expandCommandFiles_iff. reflexivity.
Qed.

Example C31_case_jobs r : readCommandLine exFiles 4 exTable (map s2q ["-sj0k"; "7"]%string) <> COk r.
Proof.
  eapply (C31_jobs_rejected _ _ _ _ [] [] [] [] (ch "-") (s2q "s") (ch "j") (s2q "0") (s2q "k") (map s2q ["7"]%string)).
  - constructor.
  - by left.
  - reflexivity.
  - constructor; [|constructor]. exists (ch "S"). split; [by apply (bool_decide_unpack _)|reflexivity].
  - by apply flags_suffix.
  - reflexivity.
  - constructor; [reflexivity|constructor].
  - intros x s' E. injection E as <- _. reflexivity.
  - intros n Hn. apply (jobCount_digits (s2q "0")) in Hn; [discriminate Hn|]. constructor; [reflexivity|constructor].
  - done.
  - apply expandCommandFiles_iff. reflexivity.
Qed.

(** Not every NAME=VALUE argument is obeyed: the second value of a name is dropped, yet it is the one
    the name in capitals gets. *)
Theorem C31_macro_twice_refuted : exists args r,
  args = map s2q ["a=1"; "a=2"]%string /\ readCommandLine exFiles 4 exTable args = COk r /\
  macroValue (mt_macros (c_macros r)) (s2q "a") = s2q "1" /\
  macroValue (mt_macros (c_macros r)) (s2q "A") = s2q "2".
Proof.
  destruct (readCommandLine exFiles 4 exTable (map s2q ["a=1"; "a=2"]%string)) as [r| | |] eqn:E; [|vm_compute in E; discriminate E..].
  exists (map s2q ["a=1"; "a=2"]%string), r. split; [reflexivity|]. split; [exact E|].
  vm_compute in E. injection E as <-. split; vm_compute; reflexivity.
Qed.

(** ** C32 *)

(** An instance started with nothing but the MAKEFLAGS of another one has the settings of the other,
    /DEBUG, /VERSION and /X aside, provided that
    - there is one job count at most and it is written with digits only,
    - no graph is dumped, and
    - the flags do not happen to contain the word DEBUG.
    Each of the conditions is needed, see the refutations below. *)
Theorem C32_settings_partial fs fs' cpus mt mt' args args' is ms ts r :
  expandsArgs fs args args' -> commandLine args' is ms ts -> readCommandLine fs cpus mt args = COk r ->
  (List.length (filter (fun i => isJobs i = true) is) <= 1)%nat ->
  Forall (fun i => match i with IJobs _ s _ => Forall (fun c => isDigit c = true) s | _ => True end) is ->
  hasLong LDump is = false -> hasLong LDumpDot is = false -> noDebug (c_flags r) ->
  exists r', readCommandLine fs' cpus mt' (commandLineArguments [] [] (c_flags r)) = COk r' /\
    c_opts r' = inherited (c_opts r) /\ c_targets r' = [] /\ c_makefile r' = s2q "Makefile".
Proof.
  intros Ha Hc H Hj Hd Hd1 Hd2 Hnd.
  apply C31_read in H as (args2 & is2 & ms2 & ts2 & t & Ha2 & Hc2 & _ & _ & Ho & _ & _ & Hf).
  rewrite <- (expands_one _ _ _ _ Ha Ha2) in Hc2. destruct (commandLine_det _ _ _ _ _ _ _ Hc Hc2) as (<- & <- & <-).
  rewrite Hf, Ho in *. clear Hf Ho.
  destruct (flags_read_back _ cpus _ _ _ Hc Hj Hd Hd1 Hd2 Hnd) as (is' & Hw & Hs & Hm).
  destruct (setMakeflags mt' (flagsOf is')) as (t' & Em & _).
  assert (Hcl : commandLine (commandLineArguments [] [] (flagsOf is)) is' [] []
    /\ ~ Exists atSign (commandLineArguments [] [] (flagsOf is))).
  { unfold commandLineArguments. destruct (flagsOf is) as [|c f] eqn:E.
    - assert (is' = []) as ->.
      { change (trimmed []) with ([] : qstr) in Hw. inversion Hw as [| |? ? ? Hl|? ? ? ? ? ? ? ? ? ? Hl]; [done|..].
        - destruct Hl as [(p & E2 & Hp) _]. apply spells_length in Hp. destruct p; [by destruct l|done].
        - destruct Hl as [(p & E2 & Hp) _]. apply spells_length in Hp. destruct p; [by destruct l|done]. }
      split; [constructor|]. rewrite Exists_nil. tauto.
    - assert (c <> 45).
      { intros ->. assert (Hi : Forall inherits (fold_left inheritStep is [])).
        { apply inherit_good; [|constructor]. apply commandLine_good in Hc. rewrite Forall_forall in *. intros i Hi.
          specialize (Hc i Hi). specialize (Hd i Hi). destruct i; try done. destruct Hc as [HJ Ht]. split; [done|].
          by apply (jobCount_digits _ _ Hd), jobCount_text. }
        apply inherits_chars in Hi. rewrite render_flags in Hi. change (fold_left flagsAfter is (renderAll [])) with (flagsOf is) in Hi.
        rewrite E in Hi. inversion Hi as [|? ? [(l & Hl & E2)|[E2|E2]]]; subst; [|vm_compute in E2; discriminate E2|vm_compute in E2; discriminate E2].
        assert (Hall : forallb (fun l => negb (isLet l 45)) flagLetters = true) by reflexivity.
        rewrite forallb_forall in Hall. apply elem_of_list_In, Hall in Hl. by rewrite E2 in Hl. }
      assert (stripDash (c :: f) = c :: f) as Es.
      { clear -H. destruct c as [|p]; [done|]. do 6 (destruct p as [p|p|]; try done). }
      cbn zeta. rewrite Es. split.
      + rewrite <- (app_nil_r is'). eapply cl_option; [by right|exact Hw|constructor].
      + rewrite Exists_cons, Exists_nil. intros [[g Hg]|[]]. discriminate Hg. }
  destruct Hcl as [Hcl Hat].
  exists (Cmdline (settings cpus is') (default (s2q "Makefile") (lastOf fileOf is' None)) (firsts []) t' (flagsOf is')).
  split; [|cbn; rewrite Hm; done].
  eapply read_value; [|exact Hcl|constructor|exact Em].
  exists (commandLineArguments [] [] (flagsOf is)), []. split; [|by rewrite app_nil_r].
  clear -Hat. induction (commandLineArguments [] [] (flagsOf is)) as [|a l IH]; [constructor|].
  rewrite Exists_cons in Hat. constructor; [tauto|]. apply IH. tauto.
Qed.

(** The macro MAKEFLAGS has these flags, unless it was given on the command line or made read-only before. *)
Theorem C32_macro fs cpus mt args args' is ms ts r :
  expandsArgs fs args args' -> commandLine args' is ms ts -> readCommandLine fs cpus mt args = COk r ->
  md_ro (default newMacro (mt_macros mt !! s2q "MAKEFLAGS")) = false ->
  Forall (fun m => s2q "MAKEFLAGS" <> fst m /\ s2q "MAKEFLAGS" <> toUpper (fst m)) ms ->
  macroValue (mt_macros (c_macros r)) (s2q "MAKEFLAGS") = c_flags r.
Proof.
  intros Ha Hc H Hro Hms. apply C31_read in H as (args2 & is2 & ms2 & ts2 & t & Ha2 & Hc2 & Hd & Hm & _ & _ & _ & Hf).
  rewrite <- (expands_one _ _ _ _ Ha Ha2) in Hc2. destruct (commandLine_det _ _ _ _ _ _ _ Hc Hc2) as (<- & <- & <-).
  rewrite Hf. destruct (setMakeflags t (flagsOf is)) as (t' & E & _ & _ & Hv). rewrite E in Hm. injection Hm as <-.
  apply Hv.
  - rewrite (defined_lookup mt _ t _ Hd); [done|]. apply definitions_names.
    apply commandLine_names in Hc. rewrite Forall_forall in *. intros m Hin. split; [by apply Hc|by apply Hms].
  - apply flags_nodollar. by eapply commandLine_good.
Qed.

(** All that C32_settings_partial asks for, and what the second instance makes of it. *)
Example C32_case :
  let args := map s2q ["/NoLogoK"; "-isJ3e"; "x=1"; "/Y"; "all"]%string in
  match readCommandLine exFiles 4 exTable args with
  | COk r =>
    c_flags r = s2q "LKisJ3eY" /\ macroValue (mt_macros (c_macros r)) (s2q "MAKEFLAGS") = s2q "LKisJ3eY"
    /\ match readCommandLine exFiles 4 exTable (commandLineArguments [] [] (c_flags r)) with
       | COk r' => c_opts r' = c_opts r /\ o_jobs (c_opts r') = 3 /\ o_batch (c_opts r') = false
       | _ => False
       end
  | _ => False
  end.
Proof. vm_compute. split_and!; reflexivity. Qed.

Lemma noDebug_check w : forallb (fun i => negb (startsWith (nameOf LDebug) (toUpper (drop i w)))) (seq 0 (S (List.length w))) = true -> noDebug w.
Proof.
  intros H a p s E Hp. rewrite forallb_forall in H. specialize (H (List.length a)).
  rewrite E in H at 2. rewrite drop_app in H.
  assert (Hs : startsWith (nameOf LDebug) (toUpper (p ++ s)) = true) by (apply starts_iff; eauto).
  rewrite Hs in H. discriminate H. apply in_seq. rewrite E, app_length. lia.
Qed.

Example C32_case_meets : exists is ms ts,
  let args := map s2q ["-k"; "J3"; "-j3"]%string in
  commandLine args is ms ts /\ (List.length (filter (fun i => isJobs i = true) is) <= 1)%nat /\ noDebug (flagsOf is).
Proof.
  exists [IFlag (ch "k"); IJobs (ch "j") (s2q "3") 3], [], [s2q "J3"]. cbv zeta. split_and!.
  - apply (cl_option (ch "-") (s2q "k") (map s2q ["J3"; "-j3"]%string) [IFlag (ch "k")] (map s2q ["J3"; "-j3"]%string)); [by left| |].
    { eapply ow_letter; [by apply noLong_check|apply li_flag|constructor].
      exists (ch "K"). split; [by apply (bool_decide_unpack _)|reflexivity]. }
    apply (cl_target (s2q "J3")).
    + intros (c & w & E & [->| ->]); discriminate E.
    + by apply (bool_decide_unpack _).
    + apply (cl_option (ch "-") (s2q "j3") [] [IJobs (ch "j") (s2q "3") 3] []); [by left| |constructor].
      eapply ow_letter; [by apply noLong_check|apply (li_jobs (ch "j") (s2q "3") [])|constructor]; [reflexivity| |done].
      split; [apply (dec_one (ch "3")); reflexivity|]. split; [vm_compute; done|reflexivity].
  - reflexivity.
  - apply noDebug_check. reflexivity.
Qed.

(** The conditions are needed. Of two job counts the first one is handed on though the last one counts. *)
Theorem C32_jobs_refuted : exists args r r', args = map s2q ["-j8"; "-j4"]%string /\
  readCommandLine exFiles 2 exTable args = COk r /\
  readCommandLine exFiles 2 exTable (commandLineArguments [] [] (c_flags r)) = COk r' /\
  o_jobs (c_opts r) = 4 /\ o_jobs (c_opts r') = 8.
Proof.
  destruct (readCommandLine exFiles 2 exTable (map s2q ["-j8"; "-j4"]%string)) as [r| | |] eqn:E; [|vm_compute in E; discriminate E..].
  destruct (readCommandLine exFiles 2 exTable (commandLineArguments [] [] (c_flags r))) as [r'| | |] eqn:E';
    [|vm_compute in E; injection E as <-; vm_compute in E'; discriminate E'..].
  exists (map s2q ["-j8"; "-j4"]%string), r, r'. split; [reflexivity|]. split; [exact E|]. split; [exact E'|].
  vm_compute in E. injection E as <-. vm_compute in E'. injection E' as <-. split; reflexivity.
Qed.

(** A job count with a sign or blanks is handed on as it was written, and the second instance rejects it. *)
Theorem C32_number_refuted : exists args r, args = map s2q ["-j"; "+4"]%string /\
  readCommandLine exFiles 2 exTable args = COk r /\ o_jobs (c_opts r) = 4 /\
  readCommandLine exFiles 2 exTable (commandLineArguments [] [] (c_flags r)) = CFalse.
Proof.
  destruct (readCommandLine exFiles 2 exTable (map s2q ["-j"; "+4"]%string)) as [r| | |] eqn:E; [|vm_compute in E; discriminate E..].
  exists (map s2q ["-j"; "+4"]%string), r. split; [reflexivity|]. split; [exact E|].
  vm_compute in E. injection E as <-. split; vm_compute; reflexivity.
Qed.

(** Five single letters are handed on as one word that means something else. *)
Theorem C32_debug_refuted : exists args r r', args = map s2q ["-d"; "-e"; "-b"; "-u"; "-g"]%string /\
  readCommandLine exFiles 2 exTable args = COk r /\
  readCommandLine exFiles 2 exTable (commandLineArguments [] [] (c_flags r)) = COk r' /\
  o_overrideEnv (c_opts r) = true /\ o_overrideEnv (c_opts r') = false /\
  o_debug (c_opts r) = false /\ o_debug (c_opts r') = true.
Proof.
  destruct (readCommandLine exFiles 2 exTable (map s2q ["-d"; "-e"; "-b"; "-u"; "-g"]%string)) as [r| | |] eqn:E; [|vm_compute in E; discriminate E..].
  destruct (readCommandLine exFiles 2 exTable (commandLineArguments [] [] (c_flags r))) as [r'| | |] eqn:E';
    [|vm_compute in E; injection E as <-; vm_compute in E'; discriminate E'..].
  exists (map s2q ["-d"; "-e"; "-b"; "-u"; "-g"]%string), r, r'. split; [reflexivity|]. split; [exact E|]. split; [exact E'|].
  vm_compute in E. injection E as <-. vm_compute in E'. injection E' as <-. split_and!; reflexivity.
Qed.

(** Dumping the graph switches the logo off, which is not handed on. *)
Theorem C32_dump_refuted : exists args r r', args = map s2q ["/dumpgraph"]%string /\
  readCommandLine exFiles 2 exTable args = COk r /\
  readCommandLine exFiles 2 exTable (commandLineArguments [] [] (c_flags r)) = COk r' /\
  o_showLogo (c_opts r) = false /\ o_showLogo (c_opts r') = true.
Proof.
  destruct (readCommandLine exFiles 2 exTable (map s2q ["/dumpgraph"]%string)) as [r| | |] eqn:E; [|vm_compute in E; discriminate E..].
  destruct (readCommandLine exFiles 2 exTable (commandLineArguments [] [] (c_flags r))) as [r'| | |] eqn:E';
    [|vm_compute in E; injection E as <-; vm_compute in E'; discriminate E'..].
  exists (map s2q ["/dumpgraph"]%string), r, r'. split; [reflexivity|]. split; [exact E|]. split; [exact E'|].
  vm_compute in E. injection E as <-. vm_compute in E'. injection E' as <-. split_and!; reflexivity.
Qed.

(** The macro is not put into the environment: without macro arguments that stays as it was. *)
Theorem C32_environment_unchanged fs cpus mt args args' is ts r :
  expandsArgs fs args args' -> commandLine args' is [] ts -> readCommandLine fs cpus mt args = COk r ->
  mt_env (c_macros r) = mt_env mt.
Proof.
  intros Ha Hc H. apply C31_read in H as (args2 & is2 & ms2 & ts2 & t & Ha2 & Hc2 & Hd & Hm & _).
  rewrite <- (expands_one _ _ _ _ Ha Ha2) in Hc2. destruct (commandLine_det _ _ _ _ _ _ _ Hc Hc2) as (<- & <- & <-).
  inversion Hd; subst. destruct (setMakeflags t (flagsOf is)) as (t' & E & He & _). rewrite E in Hm. by injection Hm as <-.
Qed.

Print Assumptions C31_read.
Print Assumptions C31_unambiguous.
Print Assumptions C31_unknown_rejected.
Print Assumptions C31_jobs_rejected.
Print Assumptions C31_macro_values.
Print Assumptions C31_macro_twice_refuted.
Print Assumptions C32_settings_partial.
Print Assumptions C32_macro.
Print Assumptions C32_jobs_refuted.
Print Assumptions C32_number_refuted.
Print Assumptions C32_debug_refuted.
Print Assumptions C32_dump_refuted.
Print Assumptions C32_environment_unchanged.

(** Options come from JOMFLAGS, or from MAKEFLAGS if that is not set or empty, in front of the arguments; a dash at the
    beginning is not necessary. *)
Theorem C32_variables args jomflags makeflags : exists v,
  ((jomflags <> [] /\ v = jomflags) \/ (jomflags = [] /\ v = makeflags)) /\
  (((v = [] \/ v = [ch "-"]) /\ commandLineArguments args jomflags makeflags = args) \/
   exists f, f <> [] /\ (v = ch "-" :: f \/ (v = f /\ head v <> Some (ch "-"))) /\ commandLineArguments args jomflags makeflags = (ch "/" :: f) :: args).
Proof.
  unfold commandLineArguments. cbv zeta.
  assert (G : forall v : qstr, ((v = [] \/ v = [ch "-"]) /\ match stripDash v with [] => args | _ => (ch "/" :: stripDash v) :: args end = args) \/
    exists f, f <> [] /\ (v = ch "-" :: f \/ (v = f /\ head v <> Some (ch "-"))) /\ match stripDash v with [] => args | _ => (ch "/" :: stripDash v) :: args end = (ch "/" :: f) :: args).
  { intros v. destruct (decide (head v = Some (ch "-"))) as [H|H].
    - destruct v as [|c v]; [done|]. injection H as ->. change (stripDash (ch "-" :: v)) with v. destruct v as [|a v]; [left; by split; [right|]|].
      right. exists (a :: v). by split_and!; [|left|].
    - assert (E : stripDash v = v). { unfold stripDash. destruct v as [|c v]; [done|]. destruct (decide (c = 45)) as [->|Hn]; [by destruct H|].
        destruct c as [|q]; [done|]. do 6 (destruct q as [q|q|]; try done; try by destruct Hn). }
      rewrite E. destruct v as [|c v]; [left; by split; [left|]|]. right. exists (c :: v). by split_and!; [|right|]. }
  destruct jomflags as [|c j]; [exists makeflags|exists (c :: j)]; (split; [|apply G]); [by right|by left].
Qed.
Example C32_variables_ex : commandLineArguments [s2q "all"] (s2q "-k") (s2q "S") = map s2q ["/k"; "all"]%string /\
  commandLineArguments [s2q "all"] [] (s2q "S") = map s2q ["/S"; "all"]%string.
Proof. by vm_compute. Qed.
Print Assumptions C32_variables.
