(** C52: a makefile is read as it is written. *)
From Coq Require Import Ascii String.
From stdpp Require Import prelude gmap.
From RecordUpdate Require Import RecordSet.
From Verif Require Import Base Data Macro MacroSpec MkLineSpec CmdSpec FileMacros MkParse RulesSpec RulesProofs RulesProps WrittenSpec WrittenProofs WrittenEx.
Import RecordSetNotations.
Local Open Scope N_scope.

(** If the lines of a makefile say [k], then a successful reading of the makefile gives what is said: every target
    has the dependents and commands of its rules, the inference rules are there in their order with their paths,
    extensions and commands, and the directives have their effect. *)
Theorem C52_read {R} next tab glob isRel n fuel dir silent stop (r : R) ls k st : yields next tab r ls -> says (silence silent (negb stop)) ls k ->
  (List.length ls < n)%nat -> (List.length ls < fuel)%nat -> parseFile next tab glob isRel n fuel dir silent stop r = POk st ->
  (forall t b, mk_targets (s_mk st) !! t = Some b -> exists us, usesOf (b_name b) (uses (map strip (k_blocks k))) us /\ blockFor b us) /\
  (forall name rl, (name, rl) ∈ uses (map strip (k_blocks k)) -> exists t b, mk_targets (s_mk st) !! t = Some b /\ sameName name (b_name b)) /\
  kept (k_rules k) (s_rules st) /\ s_suffixes st = k_suffixes k /\ once (k_precious k) (s_precious st) /\ s_silent st = k_silent k /\ s_ignore st = k_ignore k.
Proof.
  intros HY HK Hn Hf HP. pose proof (file_read next tab glob isRel n fuel dir silent stop r ls k HY HK Hn Hf) as HA. unfold agree in HA.
  assert (HN : nativeRules (k_blocks k)) by (eapply says_native; [exact HK|constructor]).
  destruct (applyRules fuel (k_blocks k) (first dir)) as [[[mk ser] sync]|e| |] eqn:E.
  - destruct HA as (st' & E1 & I1 & I2 & I3 & I4 & I5 & I6). rewrite HP in E1. injection E1 as <-. rewrite E in I1. injection I1 as E1 E2 E3.
    destruct (C28_rules _ _ _ _ _ _ HN E) as [H1 H2]. rewrite <- E1. exact (conj H1 (conj H2 (conj I2 (conj I3 (conj I4 (conj I5 I6)))))).
  - by rewrite HP in HA.
  - by rewrite HP in HA.
  - by rewrite HP in HA.
Qed.
(** A makefile that says something is rejected only because of rules of both kinds for one target or file name
    macros in dependents, never because of its text. *)
Theorem C52_accepted {R} next tab glob isRel n fuel dir silent stop (r : R) ls k : yields next tab r ls -> says (silence silent (negb stop)) ls k ->
  (List.length ls < n)%nat -> (List.length ls < fuel)%nat ->
  match applyRules fuel (k_blocks k) (start dir) with
  | POk (mk, ser, sync) => exists st, parseFile next tab glob isRel n fuel dir silent stop r = POk st /\ s_mk st = mk /\ s_serial st = ser /\ s_sync st = sync
  | PErr e => parseFile next tab glob isRel n fuel dir silent stop r = PErr e
  | PUb => parseFile next tab glob isRel n fuel dir silent stop r = PUb
  | POut => parseFile next tab glob isRel n fuel dir silent stop r = POut
  end.
Proof.
  intros HY HK Hn Hf. pose proof (file_read next tab glob isRel n fuel dir silent stop r ls k HY HK Hn Hf) as HA. unfold agree in HA. change (start dir) with (first dir).
  destruct (applyRules fuel (k_blocks k) (first dir)) as [[[mk ser] sync]|e| |] eqn:E; [|done..].
  destruct HA as (st & E1 & I1 & _). rewrite E in I1. injection I1 as -> -> ->. by exists st.
Qed.
(** The lines of a list, with macros that do not change; those in inline files are marked. *)
Lemma list_yields mt (ls : list (bool * qstr)) : yields listNext (fun _ => mt) (map snd ls) (map (fun p => (snd p, Moment mt (fst p))) ls).
Proof. induction ls as [|[b s] ls IH]; cbn [map fst snd]; [by apply (yl_end _ _ [] [])|]. change mt with ((fun _ : list qstr => mt) (map snd ls)) at 2. by apply yl_line. Qed.
Definition q (s : string) : qstr := s2q s.
Definition macrosEx : gmap qstr mdata := {[ s2q "OBJ" := Mdata SrcMakeFile false (s2q "aa.obj bb.obj"); s2q "CC" := Mdata SrcMakeFile false (s2q "cl /c"); s2q "EMPTY" := Mdata SrcMakeFile false [] ]}.
Definition fileEx : list (bool * qstr) := map (fun p => (fst p, q (snd p))) [
  (false, "$(EMPTY)"); (false, ".SUFFIXES: .idl .y"); (false, ".SILENT:"); (false, "all lib/Main.exe : $(OBJ) # comment"); (false, "    -1 link $(OBJ) @<<all.rsp <<");
  (true, "first $(OBJ)"); (true, " # all: x"); (true, "<<KEEP"); (true, "<< UNICODE  KEEP"); (false, ""); (false, "   @ !echo done"); (false, "");
  (false, "aa.obj:: aa.cpp; $(CC) aa.cpp <<""a b"""); (true, "/O2"); (true, "<<"); (false, "    more"); (false, "{src}.cpp{out\}.obj::"); (false, "    $(CC) @<<x.rsp $<"); (true, "$(OBJ)"); (true, "<<"); (false, "");
  (false, "    echo $@"); (false, ".y.c:"); (false, ".PRECIOUS : all  bb.obj all"); (false, "all: bb.obj"); (false, "ZZ: $(NONE)")]%string.
Definition cmdEx (s : string) (m : N) (each : bool) : command := Command (s2q s) [] m true each.
Definition crlfEx (s : string) : qstr := s2q s ++ [13; 10].
Definition saidEx : said := Said
  [Prule false (map q ["all"; "lib\Main.exe"]) (map q ["aa.obj"; "bb.obj"])
     [Command (q " link aa.obj bb.obj @<< <<") [InlineFile true false (q "all.rsp") (crlfEx "first aa.obj bb.obj" ++ crlfEx " # all: x")%list; InlineFile true true [] []] 1 true false; cmdEx " !echo done" 0 false];
   Prule true [q "aa.obj"] [q "aa.cpp"] [Command (q "cl /c aa.cpp <<") [InlineFile false false (q "a b") (crlfEx "/O2")] 0 true false; cmdEx "more" 0 false]; Prule false [q "all"] [q "bb.obj"] []; Prule false [q "ZZ"] [] []]%string
  [(Irule (q "{src}") (q ".cpp") (q "{out\}") (q ".obj") true, [Command (q "$(CC) @<< $<") [InlineFile false false (q "x.rsp") (crlfEx "$(OBJ)")] 0 true false; cmdEx "echo $@" 0 false]); (Irule [] (q ".y") [] (q ".c") false, [])]
  (defaultSuffixes ++ map q [".idl"; ".y"]%string) (map q ["all"; "bb.obj"; "all"]%string) true false.
Definition momentsEx : list tline := map (fun p => (snd p, Moment macrosEx (fst p))) fileEx.
Example C52_ex : yields listNext (fun _ => macrosEx) (map snd fileEx) momentsEx /\ says (silence false false) momentsEx saidEx /\
  match parseFile listNext (fun _ => macrosEx) (fun _ _ => []) (fun _ => true) 99 99 (s2q "C:/x") false true (map snd fileEx) with
  | POk st => map (fun p => (fst p, b_deps (snd p), map c_line (b_cmds (snd p)))) (map_to_list (mk_targets (s_mk st))) =
      [(q "lib\main.exe", map q ["aa.obj"; "bb.obj"], map q [" link aa.obj bb.obj @<< <<"; " !echo done"]); (q "aa.obj", [q "aa.cpp"], [q "cl /c aa.cpp <<"; q "more"]);
       (q "all", map q ["aa.obj"; "bb.obj"; "bb.obj"], map q [" link aa.obj bb.obj @<< <<"; " !echo done"]); (q "zz", [], [])]%string /\
      s_precious st = map q ["all"; "bb.obj"]%string /\ map r_fromPath (s_rules st) = map q ["src"; "."]%string /\ map r_toPath (s_rules st) = map q ["out"; "."]%string
  | _ => False
  end.
Proof.
  split; [apply list_yields|]. split.
  - apply (sayB_ok 99). vm_compute. reflexivity.
  - vm_compute. done.
Qed.

(** A line is taken for an inference rule exactly if it can be read as one; if there are several ways, the first path
    is as long as possible. *)
Theorem C52_rule_line s fp fe tp te cl : inferenceRule s = Some (fp, fe, tp, te, cl) <-> exists double, cl = colons double /\ ruleLine s (Irule fp fe tp te double).
Proof.
  split.
  - intros H. pose proof H as H'. apply rule_sound in H' as (r & Er & HP). pose proof Er as Er'. unfold capsOf in Er. injection Er as -> -> -> -> ->. exists (ir_double r). split; [done|].
    destruct r as [a b c d e]. cbn [ir_fromPath ir_fromExt ir_toPath ir_toExt ir_double] in *. by apply rule_longest.
  - intros (double & -> & H). by rewrite (rule_complete _ _ H).
Qed.
Theorem C52_no_rule_line s : inferenceRule s = None <-> forall r, ~ ruleParts s r.
Proof. split; [apply rule_none_conv|apply rule_none]. Qed.
Example C52_rule_line_ex : ruleLine (q "{a.b{c}.d{e}.f::") (Irule (q "{a.b{c}") (q ".d") (q "{e}") (q ".f") true) /\
  ruleParts (q "{a}.b}.c{d}.e:") (Irule (q "{a}.b}") (q ".c") (q "{d}") (q ".e") false) /\ (forall r, ~ ruleParts (q ".c.obj: x") r) /\ forall r, ~ ruleParts (q "{a}.c:") r.
Proof.
  split_and!.
  - assert (H : inferenceRule (q "{a.b{c}.d{e}.f::") = Some (q "{a.b{c}", q ".d", q "{e}", q ".f", s2q "::")) by (by vm_compute).
    apply C52_rule_line in H as ([] & E & H); [done|discriminate].
  - assert (H : inferenceRule (q "{a}.b}.c{d}.e:") = Some (q "{a}.b}", q ".c", q "{d}", q ".e", s2q ":")) by (by vm_compute).
    apply C52_rule_line in H as ([] & E & [H _]); [discriminate|done].
  - apply C52_no_rule_line. by vm_compute.
  - apply C52_no_rule_line. by vm_compute.
Qed.
(** A line is taken for a directive exactly if it is one, and a directive is never taken for an inference rule. *)
Theorem C52_directive s key v : dotDirective s = Some (key, v) <-> exists d, dotName d = ch "." :: key /\ dotLine s d v.
Proof.
  split.
  - intros H. apply dot_sound in H as (d & <- & H). exists d. split; [by destruct d|done].
  - intros (d & E & H). rewrite (dot_read _ _ _ H). unfold dotKey. by rewrite E.
Qed.
Theorem C52_directive_no_rule s d v : dotLine s d v -> inferenceRule s = None.
Proof. intros H. apply rule_none. intros r Hr. by destruct (dot_rule _ _ _ _ H Hr). Qed.
Example C52_directive_ex : dotLine (q ".PRECIOUS  : a b") DPrecious (q " a b") /\ dotDirective (q ".PRECIOUS  : a b") = Some (q "PRECIOUS", q " a b") /\ dotDirective (q ".precious: a") = None.
Proof. split; [exists (q "  "); split; [repeat constructor|done]|]. by vm_compute. Qed.

(** ** What is not as written *)
Lemma says_first k s mt ls k' e : says k ((s, mt) :: ls) k' -> expandMacros mt false s = XOk e ->
  spaces e \/ (exists d v, dotLine e d v) \/ (exists r, ruleParts e r) \/ exists double ts ds cmd, ruleHeader (s, mt) double ts ds cmd.
Proof.
  intros H EX.
  assert (EE : forall e', MacroSpec.expandsTo mt false s e' -> e' = e) by (intros e' He; apply MacroProofs.expand_ok_iff in He; rewrite EX in He; by injection He as <-).
  inversion H as [|? ? ? e' ? ? _ E1 E2|? ? ? e' d v ws ? ? _ E1 E2|? ? ? e' r cls cs ? ? _ E1 [E2 _]|? ? ? e' double ts ds cmd cs0 ils cls cs ls' ? _ E1 E2 E3]; subst; rewrite (EE _ E1) in *.
  - by left.
  - right. left. by exists d, v.
  - do 2 right. left. by exists r.
  - do 3 right. by exists double, ts, ds, cmd.
Qed.
(** The colon of a command separates, if there is none before the command. *)
Theorem C52_colon_refuted : exists lines st, parseEx lines = POk st /\ map fst (map_to_list (mk_targets (s_mk st))) = [s2q ";echo"; s2q "foo"; s2q "xx"] /\
  forall k k', ~ says k (map (fun s => (s, Moment ∅ false)) lines) k'.
Proof.
  exists [s2q "foo ;echo xx:y"].
  assert (E : match parseEx [s2q "foo ;echo xx:y"] with POk st => map fst (map_to_list (mk_targets (s_mk st))) = [s2q ";echo"; s2q "foo"; s2q "xx"] | _ => False end) by (by vm_compute).
  destruct (parseEx _) as [st| | |]; try done. exists st. split_and!; [done|done|]. intros k k' H. cbn [map] in H.
  destruct (says_first k (s2q "foo ;echo xx:y") (Moment ∅ false) [] k' (s2q "foo ;echo xx:y") H) as [E2|[(d & v & E2)|[(r & E2)|(double & ts & ds & cmd & E3)]]]; [by vm_compute|..].
  - apply spaces_empty in E2. by vm_compute in E2.
  - apply dot_read in E2. by vm_compute in E2.
  - assert (HN : inferenceRule (s2q "foo ;echo xx:y") = None) by (by vm_compute). by destruct (rule_none_conv _ HN r).
  - apply header_read in E3 as (l & sep & pos & body & R1 & R2 & R3 & R4 & _). vm_compute in R1. injection R1 as <- <-. vm_compute in R2. injection R2 as <- _.
    vm_compute in R4. subst body. by vm_compute in R3.
Qed.
(** A directive with a comment: the comment belongs to it. An inference rule with a comment is none. *)
Theorem C52_rule_comment_refuted : (forall r, ~ ruleParts (q ".c.obj: # compile") r) /\ exists st, parseEx [q ".c.obj: # compile"; q " cl"] = POk st /\
  s_rules st = [] /\ map fst (map_to_list (mk_targets (s_mk st))) = [q ".c.obj"].
Proof.
  split; [apply C52_no_rule_line; by vm_compute|].
  assert (E : match parseEx [q ".c.obj: # compile"; q " cl"] with POk st => s_rules st = [] /\ map fst (map_to_list (mk_targets (s_mk st))) = [q ".c.obj"] | _ => False end) by (by vm_compute).
  destruct (parseEx _) as [st| | |]; try done. by exists st.
Qed.

Print Assumptions C52_read.
Print Assumptions C52_accepted.
Print Assumptions C52_rule_line.
Print Assumptions C52_no_rule_line.
Print Assumptions C52_directive.
Print Assumptions C52_directive_no_rule.
Print Assumptions C52_colon_refuted.
Print Assumptions C52_rule_comment_refuted.
