(** Theorems about macros: C14 (termination and recursion), C15 (what expansion does), C16 (precedence),
    C17 (environment). *)
From Coq Require Import Ascii String.
From stdpp Require Import prelude gmap relations.
From Verif Require Import Base BaseProofs Macro MacroSpec MacroProofs.
Local Open Scope N_scope.

Definition mkMacros (l : list (string * string)) : gmap qstr mdata :=
  list_to_map (map (fun p => (s2q (fst p), Mdata SrcMakeFile false (s2q (snd p)))) l).
Definition exM : gmap qstr mdata := mkMacros
  [("CFLAGS", "-O2 $(DEFS)"); ("DEFS", "-DA -D$B"); ("B", "x=y"); ("SRC", "a.c b.c");
   ("R1", "1$(R2)"); ("R2", "2$(R3:a=b)"); ("R3", "3$(R1)"); ("SELF", "$(SELF) x"); ("BAD", "$(CFLAGS")]%string.

(** ** C14 *)

(** Expansion ends, whatever the macros are. *)
Theorem C14_terminates mt dep s : expandMacros mt dep s <> XFuel.
Proof. intros E. pose proof (expand_post mt dep s) as P. by rewrite E in P. Qed.
Print Assumptions C14_terminates.

(** Recursion is reported only if there is one, and the macro named is really part of it. *)
Theorem C14_reported mt dep s n : expandMacros mt dep s = XCycle n -> recursive mt dep s n.
Proof. intros E. pose proof (expand_post mt dep s) as P. by rewrite E in P. Qed.
Print Assumptions C14_reported.

(** It is never missed: a string whose expansion needs a macro that needs itself is refused. *)
Theorem C14_never_missed mt dep s n : recursive mt dep s n ->
  (exists k, expandMacros mt dep s = XCycle k) \/ (expandMacros mt dep s = XErr /\ meetsMalformed mt dep s).
Proof.
  intros H. pose proof (expand_post mt dep s) as P. destruct (expandMacros mt dep s) as [r|k| |]; cbn in P.
  - by eapply expandsTo_no_recursion in H.
  - eauto.
  - by right.
  - done.
Qed.
Print Assumptions C14_never_missed.

(** Exactly, where no reference is malformed (of two errors the one met first is reported). *)
Theorem C14_recursion mt dep s : ~ meetsMalformed mt dep s ->
  (exists n, expandMacros mt dep s = XCycle n) <-> (exists n, recursive mt dep s n).
Proof.
  intros Hw. split; intros [n Hn].
  - exists n. by apply C14_reported.
  - destruct (C14_never_missed _ _ _ _ Hn) as [?|[_ ?]]; done.
Qed.
Print Assumptions C14_recursion.

Lemma one_mac' dep m s : invName m -> one dep (36 :: 40 :: m ++ 41 :: s) (SMac m) s.
Proof. by constructor. Qed.
Ltac solve_inv := split_and!; [by apply (bool_decide_unpack _)|by apply (bool_decide_unpack _)|do 2 eexists; split; [reflexivity|by apply (bool_decide_unpack _)]].

Example C14_case :
  expandMacros exM false (s2q "cl $(CFLAGS) $(SRC:.c=.obj)") = XOk (s2q "cl -O2 -DA -Dx=y a.obj b.obj")
  /\ expandMacros exM false (s2q "$(R2)") = XCycle (s2q "R2")
  /\ expandMacros exM false (s2q "$(SELF)") = XCycle (s2q "SELF")
  /\ expandMacros exM false (s2q "$(BAD)") = XErr
  /\ recursive exM false (s2q "x$(SELF)") (s2q "SELF").
Proof.
  split_and!; [vm_compute; reflexivity|vm_compute; reflexivity|vm_compute; reflexivity|vm_compute; reflexivity|].
  apply C14_reported. vm_compute. reflexivity.
Qed.
(** A reference without recursion and without anything malformed. *)
Example C14_wellformed : ~ meetsMalformed exM false (s2q "$(CFLAGS)").
Proof. eapply expandsTo_wellformed, expand_ok_iff. vm_compute. reflexivity. Qed.

(** ** C15 *)

(** The result of expansion is what the string stands for: text for itself, [$$] for a dollar sign,
    references for the value of the macro, expanded and substituted, and nothing else is a result. *)
Theorem C15_expansion mt dep s r : expandMacros mt dep s = XOk r <-> expandsTo mt dep s r.
Proof. apply expand_ok_iff. Qed.
Print Assumptions C15_expansion.

(** A string can be read in one way only. *)
Theorem C15_unambiguous mt dep s r r' ps ps' :
  (pieces dep s ps -> pieces dep s ps' -> ps = ps') /\ (expandsTo mt dep s r -> expandsTo mt dep s r' -> r = r').
Proof. split; [apply pieces_det|apply expandsTo_det]. Qed.
Print Assumptions C15_unambiguous.

(** An error other than recursion: something malformed was met; and something malformed never passes. *)
Theorem C15_errors mt dep s :
  (expandMacros mt dep s = XErr -> meetsMalformed mt dep s)
  /\ (meetsMalformed mt dep s -> forall r, expandMacros mt dep s <> XOk r).
Proof.
  split.
  - intros E. pose proof (expand_post mt dep s) as P. by rewrite E in P.
  - intros H r E. apply expand_ok_iff in E. by eapply expandsTo_wellformed in E.
Qed.
Print Assumptions C15_errors.

(** What is malformed. *)
Theorem C15_malformed dep s :
  malformed dep s <-> exists l rest, takes dep s l rest /\ unreadable rest.
Proof.
  split.
  - intros (l & rest & Ht & Hne & Hno). exists l, rest. split; [done|]. by apply (unreadable_spec dep).
  - intros (l & rest & Ht & Hu). exists l, rest. assert (rest <> []) by (intros ->; inversion Hu).
    split_and!; [done|done|]. by apply unreadable_spec.
Qed.
Print Assumptions C15_malformed.

(** Text without dollar signs is not changed. *)
Theorem C15_plain mt dep s : 36 ∉ s -> expandMacros mt dep s = XOk s.
Proof. apply expand_plain. Qed.
Print Assumptions C15_plain.

(** References to undefined macros vanish. *)
Theorem C15_undefined mt dep a m b rb : 36 ∉ a -> invName m -> mt !! m = None ->
  expandMacros mt dep b = XOk rb -> expandMacros mt dep (a ++ invocationOf m ++ b) = XOk (a ++ rb).
Proof.
  intros Ha Hm Hn Hb. apply expand_ok_iff in Hb as (pb & Hpb & Hsb). apply expand_ok_iff.
  assert (exists ps, takes dep (a ++ invocationOf m ++ b) ps (invocationOf m ++ b) /\ forall l r, stands mt dep l r -> stands mt dep (ps ++ l) (a ++ r)) as (ps & Hp & Hs).
  { clear -Ha. induction a as [|c a IH].
    - exists []. split; [constructor|done].
    - destruct IH as (ps & Hp & Hs); [set_solver|]. exists (STxt [c] :: ps). split.
      + cbn. econstructor; [constructor; set_solver|done].
      + intros l r H. apply (st_txt mt dep [c]). by apply Hs. }
  exists (ps ++ SMac m :: pb). split.
  - eapply takes_app; [done|]. unfold invocationOf. cbn [app]. rewrite <- app_assoc. cbn [app].
    econstructor; [by apply one_mac'|done].
  - apply Hs. apply (st_mac mt dep m [] []).
    + unfold macroValue. rewrite Hn. constructor.
    + constructor.
    + done.
Qed.
Print Assumptions C15_undefined.

Example C15_case :
  invName (s2q "NOTHING") /\ exM !! s2q "NOTHING" = None
  /\ expandMacros exM false (s2q "a$(NOTHING)b$$c $(SRC:b.=x) $B$") = XOk (s2q "ab$c a.c xc x=y$")
  /\ expandMacros exM false (s2q "$@ $(@D) $(**)") = XOk ([magicEscape] ++ s2q "@ " ++ [magicEscape] ++ s2q "(@D) " ++ [magicEscape] ++ s2q "(**)")
  /\ expandMacros exM true (s2q "$$@ $$(@F)") = XOk ([magicEscape] ++ s2q "@ " ++ [magicEscape] ++ s2q "(@F)")
  /\ expandMacros exM false (s2q "$()") = XErr /\ expandMacros exM false (s2q "$(A") = XErr
  /\ expandMacros exM false (s2q "$(:x=y)") = XErr /\ expandMacros exM false (s2q "$(SRC:.c)") = XErr
  /\ expandMacros exM false (s2q "$+") = XErr
  /\ expandMacros exM false (s2q "$(SRC:.c=^)x)") = XOk (s2q "a)x b)x").
Proof. split; [solve_inv|]. split_and!; vm_compute; reflexivity. Qed.

(** C15 is false for substitutions with a caret in front of the equals sign: the places of all carets are
    collected (macrotable.cpp:399-402) and then removed from the replacement, counted from its end if they
    are negative (412-417), so characters of the replacement are lost: [^.c] is to be replaced by [.obj],
    and the dot vanishes. *)
Theorem C15_caret_refuted : exists mt m v b a r,
  macroValue mt m = v /\ expandMacros mt false ([36; 40] ++ m ++ [58] ++ b ++ [61] ++ a ++ [41]) = XOk r
  /\ 36 ∉ v /\ 94 ∉ a /\ 61 ∉ b ++ a /\ 41 ∉ b ++ a /\ ~ substituted b a v r.
Proof.
  exists (mkMacros [("V", "a^.c")]%string), (s2q "V"), (s2q "a^.c"), (s2q "^.c"), (s2q ".obj"), (s2q "aobj").
  split_and!; [vm_compute; reflexivity|vm_compute; reflexivity|by apply (bool_decide_unpack _)..|].
  intros H. assert (s2q "aobj" = s2q "a.obj") as E; [|done].
  eapply substituted_det; [exact H|]. apply substituted_ok.
Qed.
Print Assumptions C15_caret_refuted.

(** ** C16 *)

(** A macro given on the command line keeps its value, whatever the environment, the predefined macros
    and the makefile say; what is needed is that it is not undefined (see below) and that no environment
    variable has a dollar sign in its name (see below). *)
Theorem C16_command_line t n v t1 os t2 :
  isMacroNameValid n = true -> defineCommandLine n v SrcCommandLine t = MOk t1 ->
  history t1 os t2 -> (forall o, o ∈ os -> laterThan n o) ->
  macroValue (mt_macros t2) n = macroValue (mt_macros t1) n
  /\ macroValue (mt_macros t1) n = replaceLazy (invocationOf n) (macroValue (mt_macros t) n) v.
Proof.
  intros Hn H1 Hh Hos.
  assert (keeps n (replaceLazy (invocationOf n) (macroValue (mt_macros t) n) v) t1) as Hk.
  { unfold defineCommandLine in H1. rewrite internalSet_valid in H1 by done. cbn zeta iota beta in H1.
    destruct (expandMacros _ _ v); try done. injection H1 as <-. unfold keeps. cbn.
    rewrite !lookup_alter, lookup_insert. cbn. eauto. }
  assert (keeps n (replaceLazy (invocationOf n) (macroValue (mt_macros t) n) v) t2) as Hk2.
  { clear H1. induction Hh as [|t1 o t2 os t3 Ho Hh IH]; [done|]. apply IH.
    - intros o' Ho'. apply Hos. by right.
    - pose proof (Hos o ltac:(left)) as Hl. destruct o as [m w|m|m w|m w ro|m w]; cbn in Hl, Ho.
      + by eapply keeps_setMacro.
      + injection Ho as <-. destruct Hk as (d & Hd & ?). exists d. cbn. rewrite lookup_delete_ne by done. done.
      + by eapply keeps_setMacro.
      + by eapply keeps_environment.
      + done. }
  destruct Hk as (d & Hd & Hv & _), Hk2 as (d2 & Hd2 & Hv2 & _). unfold macroValue at 1 2 3. rewrite Hd, Hd2. split; congruence.
Qed.
Print Assumptions C16_command_line.

(** An environment variable gives the macro's value; the makefile replaces it unless /E was given. *)
Theorem C16_environment t n v ro ev t1 w :
  isMacroNameValid (toUpper n) = true -> mt_macros t !! toUpper n = None ->
  expandMacros (mt_macros t) false v = XOk ev -> defineEnvironment n v ro t = MOk t1 ->
  macroValue (mt_macros t1) (toUpper n) = replaceLazy (invocationOf (toUpper n)) [] v
  /\ exists t2, setMacroValue (toUpper n) w t1 = MOk t2
       /\ macroValue (mt_macros t2) (toUpper n) =
          if ro then macroValue (mt_macros t1) (toUpper n)
          else replaceLazy (invocationOf (toUpper n)) (macroValue (mt_macros t1) (toUpper n)) w.
Proof.
  intros Hn Hd Hv H. unfold defineEnvironment in H. cbn zeta in H. rewrite Hd, Hv, internalSet_valid in H by done.
  rewrite Hd in H. cbn [default newMacro md_ro md_source orb negb] in H. injection H as <-.
  assert (macroValue (mt_macros t) (toUpper n) = []) as E by (unfold macroValue; by rewrite Hd).
  rewrite E. split.
  - unfold macroValue. cbn. by rewrite !lookup_alter, lookup_insert.
  - unfold setMacroValue, setMacroImpl. rewrite internalSet_valid by done. cbn [srcEqb]. eexists. split; [reflexivity|].
    unfold macroValue at 1. cbn. rewrite lookup_alter, lookup_insert. cbn. rewrite !lookup_alter, lookup_insert. cbn.
    destruct ro; [|done]. cbn. unfold macroValue. cbn. by rewrite !lookup_alter, lookup_insert.
Qed.
Print Assumptions C16_environment.

Definition exEmpty : mtable := Mtable ∅ ∅.
Definition runOps (t : mtable) (os : list mop) : option mtable :=
  fold_left (fun t o => match t with Some t => match doOp o t with MOk t' => Some t' | MThrow => None end | None => None end) os (Some t).
Lemma runOps_history os t t' : runOps t os = Some t' -> history t os t'.
Proof.
  revert t. induction os as [|o os IH]; intros t H.
  - injection H as <-. constructor.
  - unfold runOps in H. cbn in H. destruct (doOp o t) as [t1|] eqn:E.
    + econstructor; [done|]. by apply IH.
    + exfalso. clear -H. induction os; [done|]. auto.
Qed.

Example C16_case : exists t1 t2,
  isMacroNameValid (s2q "CC") = true /\ defineCommandLine (s2q "CC") (s2q "icl") SrcCommandLine exEmpty = MOk t1
  /\ history t1 [OEnv (s2q "Cc") (s2q "gcc") true; OEnv (s2q "LANG") (s2q "C") false; OPre (s2q "CC") (s2q "cl"); OSet (s2q "CC") (s2q "$(CC) /nologo");
                 OSet (s2q "LANG") (s2q "de")] t2
  /\ macroValue (mt_macros t2) (s2q "CC") = s2q "icl" /\ macroValue (mt_macros t2) (s2q "LANG") = s2q "de".
Proof.
  eexists _, _. split; [vm_compute; reflexivity|]. split; [vm_compute; reflexivity|].
  split; [apply runOps_history; vm_compute; reflexivity|]. vm_compute. done.
Qed.

(** C16 is false: the makefile can undefine a macro given on the command line and define it anew
    (preprocessor.cpp:315-317, macrotable.cpp:216-219). *)
Theorem C16_undef_refuted : exists n v t1 os t2,
  defineCommandLine n v SrcCommandLine exEmpty = MOk t1 /\ history t1 os t2 /\ os = [OUndef n; OSet n (s2q "cl")]
  /\ macroValue (mt_macros t1) n = v /\ macroValue (mt_macros t2) n = s2q "cl" /\ v <> s2q "cl".
Proof.
  exists (s2q "CC"), (s2q "icl"). eexists _, [OUndef (s2q "CC"); OSet (s2q "CC") (s2q "cl")], _. split; [vm_compute; reflexivity|].
  split; [apply runOps_history; vm_compute; reflexivity|]. vm_compute. done.
Qed.
Print Assumptions C16_undef_refuted.

(** C16 is false: predefined macros replace what the user set in the environment
    (makefilefactory.cpp:133-156, macrotable.cpp:144-147); with /E they do not. *)
Theorem C16_predefined_refuted : exists n v t,
  history exEmpty [OEnv n v false; OPre n (s2q "cl")] t /\ v = s2q "icl" /\ macroValue (mt_macros t) n = s2q "cl".
Proof.
  exists (s2q "CC"), (s2q "icl"). eexists. split; [apply runOps_history; vm_compute; reflexivity|]. vm_compute. done.
Qed.
Print Assumptions C16_predefined_refuted.

(** C16 is false: an environment variable whose name contains a macro reference takes the protection away
    from a macro given on the command line, since its name is expanded only after it was looked up
    (macrotable.cpp:58-59, 75-79, 195). *)
Theorem C16_env_name_refuted : exists n v t1 os t2,
  defineCommandLine n v SrcCommandLine exEmpty = MOk t1 /\ history t1 os t2
  /\ (forall m, OUndef m ∉ os) /\ macroValue (mt_macros t1) n = v /\ macroValue (mt_macros t2) n <> v.
Proof.
  exists (s2q "CC"), (s2q "icl"). eexists _, [OEnv (s2q "C$(NIX)C") [] false; OSet (s2q "CC") (s2q "cl")], _.
  split; [vm_compute; reflexivity|]. split; [apply runOps_history; vm_compute; reflexivity|].
  split; [intros m H; rewrite !elem_of_cons, elem_of_nil in H; destruct H as [?|[?|[]]]; done|]. vm_compute. done.
Qed.
Print Assumptions C16_env_name_refuted.

(** ** C17 *)

(** No definition in a makefile changes the environment of the commands: the source of the macro is
    overwritten before it is asked for (macrotable.cpp:139-141). *)
Theorem C17_never_written_back t n v t' : setMacroValue n v t = MOk t' -> mt_env t' = mt_env t.
Proof. by apply env_setMacro. Qed.
Print Assumptions C17_never_written_back.

Theorem C17_refuted : exists n v w t1 t2,
  defineEnvironment n v false exEmpty = MOk t1 /\ setMacroValue n w t1 = MOk t2
  /\ macroValue (mt_macros t2) n = w /\ mt_env t2 !! foldCase n = Some (n, v) /\ v <> w.
Proof.
  exists (s2q "PATH"), (s2q "C:\old"), (s2q "C:\new"). eexists _, _. split; [vm_compute; reflexivity|].
  split; [vm_compute; reflexivity|]. vm_compute. done.
Qed.
Print Assumptions C17_refuted.

(** Macros given on the command line do reach the environment of the commands. *)
Theorem C17_command_line_written t n v t1 os t2 :
  defineCommandLine n v SrcCommandLine t = MOk t1 -> history t1 os t2 ->
  (forall o, o ∈ os -> exists m w, o = OSet m w \/ o = OPre m w \/ o = OUndef m) ->
  exists n0 ev, mt_env t2 !! foldCase n = Some (n0, ev)
    /\ exists mt, expandMacros mt false v = XOk ev /\ mt = mt_macros t1.
Proof.
  intros H Hh Hos.
  assert (mt_env t2 = mt_env t1) as ->.
  { clear H. induction Hh as [|t1 o t2 os t3 Ho Hh IH]; [done|]. rewrite IH by (intros o' Ho'; apply Hos; by right).
    destruct (Hos o ltac:(left)) as (m & w & [->|[-> | ->]]); cbn in Ho.
    - by eapply env_setMacro in Ho.
    - by eapply env_setMacro in Ho.
    - by injection Ho as <-. }
  unfold defineCommandLine in H. destruct (internalSet t n v true) as [[t3 k]|]; [|done]. cbn zeta in H.
  destruct (expandMacros _ _ v) as [ev| | |] eqn:E; try done. injection H as <-.
  unfold setEnv at 1. cbn. rewrite lookup_insert. do 2 eexists. split; [reflexivity|]. eexists. split; [exact E|]. done.
Qed.
Print Assumptions C17_command_line_written.

Example C17_case : exists t1 t2,
  defineCommandLine (s2q "LANG") (s2q "en") SrcCommandLine exEmpty = MOk t1
  /\ history t1 [OSet (s2q "LANG") (s2q "de")] t2 /\ mt_env t2 !! s2q "lang" = Some (s2q "LANG", s2q "en").
Proof.
  eexists _, _. split; [vm_compute; reflexivity|]. split; [apply runOps_history; vm_compute; reflexivity|]. vm_compute. done.
Qed.
