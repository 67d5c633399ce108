(** A checker for [says], for examples. *)
From Coq Require Import Ascii String.
From stdpp Require Import prelude gmap.
From RecordUpdate Require Import RecordSet.
From Verif Require Import Base BaseProofs Data Cmd CmdSpec CmdProofs CmdProps Macro MacroSpec MacroProofs MkLineSpec MkLineProofs MkLineProps FileMacros MkParse InlineSpec InlineProofs WrittenSpec WrittenProofs.
Import RecordSetNotations.
Local Open Scope N_scope.

(** The line without its comment or command. *)
Definition cutB (s : list N) : list N * option (list N) :=
  match removeComments s with (l, Some k) => (take k l, Some (drop (S k) l)) | (l, None) => (l, None) end.
Lemma cutB_ok s : cutLine s (fst (cutB s)) (snd (cutB s)).
Proof.
  unfold cutB. pose proof (findComment_pos s [] 0 false eq_refl eq_refl) as H1. pose proof (findSeparator_pos s [] false eq_refl) as H2. cbn [length app] in H1, H2.
  assert (O : forall i, commandAt s i -> ~ commentAt s i) by (intros i [A _] [B _]; rewrite A in B; discriminate).
  destruct (fst (findComment 0 0 false s)) as [i|] eqn:E1; destruct (findSeparator 0 false s) as [k|] eqn:E2.
  - destruct H1 as (_ & A1 & A2), H2 as (_ & B1 & B2). destruct (decide (i < k)%nat) as [Hl|Hl].
    + assert (G : forall j, commandAt s j -> (i < j)%nat). { intros j Hj. apply Nat.lt_nge. intros Hn. apply (B2 j); [lia|done]. }
      assert (F : firstAt (commentAt s) i) by (split; [done|]; intros j Hj; apply A2; lia).
      destruct (C27_comment s i F G) as (r & Hr & ->). by apply (cl_comment s i).
    + assert (G : forall j, commentAt s j -> (k < j)%nat).
      { intros j Hj. apply Nat.lt_nge. intros Hn. destruct (decide (j = k)) as [->|]; [by apply (O k)|]. apply (A2 j); [lia|done]. }
      assert (F : firstAt (commandAt s) k) by (split; [done|]; intros j Hj; apply B2; lia).
      rewrite (C27_command s k F G). by apply cl_command.
  - destruct H1 as (_ & A1 & A2). assert (G : forall j, commandAt s j -> (i < j)%nat). { intros j Hj. by destruct (H2 j (Nat.le_0_l j)). }
    assert (F : firstAt (commentAt s) i) by (split; [done|]; intros j Hj; apply A2; lia).
    destruct (C27_comment s i F G) as (r & Hr & ->). by apply (cl_comment s i).
  - destruct H2 as (_ & B1 & B2). assert (G : forall j, commentAt s j -> (k < j)%nat). { intros j Hj. by destruct (H1 j (Nat.le_0_l j)). }
    assert (F : firstAt (commandAt s) k) by (split; [done|]; intros j Hj; apply B2; lia).
    rewrite (C27_command s k F G). by apply cl_command.
  - assert (G1 : forall i, ~ commentAt s i) by (intros i; apply H1; lia). assert (G2 : forall i, ~ commandAt s i) by (intros i; apply H2; lia).
    rewrite (C27_neither s G1 G2). by apply cl_none.
Qed.
Lemma words_exists (v : list N) : exists ws, wordsOf v ws.
Proof.
  induction v as [v IH] using (induction_ltof1 _ (@List.length N)). unfold ltof in IH.
  assert (A : forall P : N -> bool, forall s : list N, exists a b, s = a ++ b /\ Forall (fun c => P c = true) a /\ forall c, head b = Some c -> P c = false).
  { intros P s. induction s as [|c s (a & b & -> & Ha & Hb)]; [by exists [], []|]. destruct (P c) eqn:E; [exists (c :: a), b|exists [], (c :: a ++ b)].
    - split_and!; [done|by constructor|done].
    - split_and!; [done|constructor|]. by intros c' [= <-]. }
  destruct (A isSpace v) as (sp & r & -> & Hs & Hr). destruct r as [|c r]; [exists []; rewrite app_nil_r; by apply wo_none|].
  destruct (A (fun c => negb (isSpace c)) (c :: r)) as (w & rest & E & Hw & Hrest). rewrite E. destruct w as [|x w].
  { cbn in E. specialize (Hrest c). rewrite <- E in Hrest. specialize (Hrest eq_refl). apply negb_false_iff in Hrest. by rewrite (Hr c eq_refl) in Hrest. }
  destruct (IH rest) as [ws Hws].
  { unfold qstr, qchar in *. rewrite E, !app_length. cbn. lia. }
  exists ((x :: w) :: ws). apply wo_word; [done|done| | |done].
  - eapply Forall_impl; [exact Hw|]. cbn. intros y. by rewrite negb_true_iff.
  - intros y Hy. apply Hrest in Hy. by apply negb_false_iff in Hy.
Qed.
Lemma words_ok v : wordsOf v (words v).
Proof. destruct (words_exists v) as [ws H]. by rewrite (words_spec _ _ H). Qed.
Definition namesB (mt : gmap qstr mdata) (dep : bool) (s : list N) : option (list qstr) :=
  match expandMacros mt dep (trimmed s) with XOk x => Some (splitTargetNames (backslashes x)) | _ => None end.
Lemma namesB_ok mt dep s l : namesB mt dep s = Some l -> namesFor mt dep s l.
Proof.
  unfold namesB. destruct (expandMacros _ _ _) as [x| | |] eqn:E; try done. intros [= <-]. exists (trimmed s), x. split_and!; [apply trimmed_trims|by apply expand_ok_iff|by apply C27_names].
Qed.
Definition plainB (d : qstr) : bool := forallb (fun c => negb (c =? 42) && negb (c =? 63)) d.
Lemma plainB_ok d : plainB d = true -> noWildcard d.
Proof.
  unfold plainB. rewrite forallb_forall. intros H. split; intros Hi; apply elem_of_list_In, H in Hi; done.
Qed.
Definition headerB (l : tline) : option (bool * list qstr * list qstr * option qstr) :=
  let '(s, mt) := l in let '(body, cmd) := cutB s in
  match findRule body with
  | Some (pos, len) => let double := (len =? 2)%nat in
    match namesB mt false (take pos body), namesB mt true (drop (pos + if double then 2 else 1) body) with
    | Some ts, Some ds => if forallb plainB ds then Some (double, ts, ds, cmd) else None
    | _, _ => None
    end
  | None => None
  end.
Lemma headerB_ok l double ts ds cmd : headerB l = Some (double, ts, ds, cmd) -> ruleHeader l double ts ds cmd.
Proof.
  destruct l as [s mt]. unfold headerB. pose proof (cutB_ok s) as HC. destruct (cutB s) as [body cmd']. cbn [fst snd] in HC.
  destruct (findRule body) as [[pos len]|] eqn:EF; [|done]. apply C27_rule in EF as (F1 & F2 & F3).
  destruct (namesB mt false _) as [ts'|] eqn:E1; [|done]. destruct (namesB mt true _) as [ds'|] eqn:E2; [|done]. destruct (forallb _ _) eqn:E3; [|done]. intros [= <- -> -> ->].
  eapply rh; [exact HC|exact F2|exact F1| |by apply namesB_ok|by apply namesB_ok|].
  - subst len. destruct (decide _) as [E|E]; cbn; split; done.
  - apply Forall_forall. intros d Hd. rewrite forallb_forall in E3. apply plainB_ok, E3. by apply elem_of_list_In.
Qed.
(** The texts of inline files: what is read, the lines for it, and those behind it. *)
Fixpoint bodyB (inference : bool) (n : qstr) (ls : list tline) : option (inlineFile * list tline * list tline) :=
  match ls with
  | (s, mt) :: ls' => if mo_inline mt then
      if startsWith [60; 60] s then let opts := splitSpace (skipn 2 s) in
        Some (InlineFile (containsStr (s2q "KEEP") opts) (containsStr (s2q "UNICODE") opts) n [], [(s, mt)], ls')
      else match (if inference then XOk s else expandMacros mt false s) with
        | XOk c => match bodyB inference n ls' with
          | Some (f, il, rest) => Some (InlineFile (if_keep f) (if_unicode f) n (withLineEnd c ++ if_content f), (s, mt) :: il, rest)
          | None => None end
        | _ => None end
      else None
  | [] => None
  end.
Lemma bodyB_ok inf n ls : forall f il rest, bodyB inf n ls = Some (f, il, rest) -> ls = il ++ rest /\ exists cs o, inlineBody inf il cs o /\ fileFor n (cs, o) f.
Proof.
  induction ls as [|[s mt] ls IH]; intros f il rest; cbn [bodyB]; [done|]. destruct (mo_inline mt) eqn:Ei; [|done]. destruct (startsWith [60; 60] s) eqn:Es.
  - intros [= <- <- <-]. split; [done|]. apply marks_start in Es as [E1 E2]. destruct s as [|a [|b s]]; [done..|]. injection E1 as ->. injection E2 as ->.
    exists [], s. split; [by apply (ib_end inf s mt)|]. unfold fileFor. cbn [if_name if_content if_keep if_unicode fst snd skipn]. split; [done|]. split; [by exists []; split; [constructor|]|].
    destruct keepWord_ok as [K1 K2], unicodeWord_ok as [U1 U2]. rewrite !containsStr_in. split; [by apply splitSpace_word|by apply splitSpace_word].
  - destruct (if inf then XOk s else _) as [c| | |] eqn:Ec; try done. destruct (bodyB inf n ls) as [[[f1 il1] rest1]|]; [|done]. destruct (IH _ _ _ eq_refl) as (-> & cs & o & H1 & H2 & (es & H3 & H4) & H5).
    intros [= <- <- <-]. split; [done|]. exists (c :: cs), o. split.
    + apply ib_line; [done| | |done].
      * intros t ->. by vm_compute in Es.
      * destruct inf; [by injection Ec as ->|by apply expand_ok_iff].
    + destruct (InlineProofs.ended_exists c) as [e He]. unfold fileFor. cbn [if_name if_content if_keep if_unicode fst snd] in *. split; [done|]. split; [|done].
      exists (e :: es). split; [by constructor|]. cbn [concat]. rewrite <- (ended_compute _ _ He). by f_equal.
Qed.
Fixpoint bodiesB (inference : bool) (ns : list qstr) (ls : list tline) : option (list inlineFile * list tline * list tline) :=
  match ns with
  | [] => Some ([], [], ls)
  | n :: ns => match bodyB inference n ls with
    | Some (f, il, rest) => match bodiesB inference ns rest with Some (fs, il', rest') => Some (f :: fs, il ++ il', rest') | None => None end
    | None => None end
  end.
Lemma bodiesB_ok inf ns : forall ls fs il rest, bodiesB inf ns ls = Some (fs, il, rest) -> ls = il ++ rest /\ inlineBodies inf il ns fs.
Proof.
  induction ns as [|n ns IH]; intros ls fs il rest; cbn [bodiesB].
  - intros [= <- <- <-]. split; [done|constructor].
  - destruct (bodyB inf n ls) as [[[f il1] rest1]|] eqn:E1; [|done]. apply bodyB_ok in E1 as (-> & cs & o & H1 & H2).
    destruct (bodiesB inf ns rest1) as [[[fs' il'] rest']|] eqn:E2; [|done]. apply IH in E2 as [-> H3]. intros [= <- <- <-]. split; [by rewrite app_assoc|]. by eapply ibs_file.
Qed.
(** Commands. *)
Definition commandB (k : said) (inference : bool) (l : tline) (ls : list tline) : option (command * list tline * list tline) :=
  let '(s, mt) := l in
  if inference then
    let (line, names) := inlineNames (List.length (trimmed s)) (trimmed s) in
    match bodiesB true names ls with
    | Some (fs, il, rest) => Some (Command line fs (if k_ignore k then anyExitCode else 0) (k_silent k) false, il, rest)
    | None => None end
  else match expandMacros mt false (trimmed s) with
    | XOk e => let c := evaluateModifiers (Command e [] (if k_ignore k then anyExitCode else 0) (k_silent k) false) in
      if (List.length e <=? List.length (c_line c) + 10)%nat then
        let (line, names) := inlineNames (List.length (c_line c)) (c_line c) in
        match bodiesB false names ls with Some (fs, il, rest) => Some (Command line fs (c_max c) (c_silent c) (c_single c), il, rest) | None => None end
      else None
    | _ => None
    end.
Lemma number_small ds : Forall isDecDigit ds -> forall acc, number acc ds <= (acc + 1) * 10 ^ N.of_nat (List.length ds).
Proof.
  induction 1 as [|d ds Hd _ IH]; intros acc; cbn [number List.length]; [change (N.of_nat 0) with 0; rewrite N.pow_0_r; lia|].
  specialize (IH (acc * 10 + (d - 48))). rewrite Nat2N.inj_succ, N.pow_succ_r'. unfold isDecDigit in Hd.
  etrans; [exact IH|]. rewrite N.mul_assoc. apply N.mul_le_mono_r. lia.
Qed.
Lemma numbers_fit ms rest : writtenAs ms rest -> (List.length (modsText ms) <= 10)%nat -> numbersFit ms.
Proof.
  induction ms as [|m ms IH]; intros HW HL; [constructor|]. unfold modsText in HL. cbn [map concat] in HL. rewrite app_length in HL.
  assert (writtenAs ms rest) by (destruct m; [done|done|by destruct HW as (_ & _ & HW)]). constructor; [|apply IH; [done|unfold modsText; lia]].
  destruct m as [| |ds]; [done..|]. destruct HW as (HD & _). cbn [modText] in HL. rewrite app_length in HL. cbn [List.length s2q] in HL. pose proof (number_small ds HD 0) as HN.
  etrans; [exact HN|]. unfold anyExitCode. transitivity (10 ^ 9); [|done]. rewrite N.mul_1_l. apply N.pow_le_mono_r; [done|]. change (List.length (s2q "-")) with 1%nat in HL. lia.
Qed.
Lemma inlines_names (s line : list N) names : inlineNames (List.length s) s = (line, names) -> inlines s line names.
Proof.
  intros H. destruct (inlines_exist (length s) s) as (l' & n' & Hi); [done|].
  pose proof (inlines_compute _ _ _ Hi (length s)) as E. rewrite E in H by done. by injection H as <- <-.
Qed.
Lemma commandB_ok k inf s mt ls c il rest : commandB k inf (s, mt) ls = Some (c, il, rest) -> ls = il ++ rest /\ if inf then ruleCommand k s il c else commandText k mt s il c.
Proof.
  unfold commandB. destruct inf.
  - destruct (inlineNames _ _) as [line names] eqn:EN. apply inlines_names in EN. destruct (bodiesB true names ls) as [[[fs il'] rest']|] eqn:EB; [|done].
    apply bodiesB_ok in EB as [-> EB]. intros [= <- <- <-]. split; [done|]. eapply rc_text; [apply trimmed_trims|exact EN|exact EB].
  - destruct (expandMacros _ _ _) as [e| | |] eqn:E; try done. cbv zeta. destruct (Nat.leb _ _) eqn:E2; [|done]. apply Nat.leb_le in E2.
    destruct (inlineNames _ _) as [line names] eqn:EN. apply inlines_names in EN. destruct (bodiesB false names ls) as [[[fs il'] rest']|] eqn:EB; [|done].
    apply bodiesB_ok in EB as [-> EB]. intros [= <- <- <-]. split; [done|]. destruct (written_exists e) as (ms & text & Ee & HW).
    destruct (C13_modifiers ms text (Command e [] (if k_ignore k then anyExitCode else 0) (k_silent k) false) HW Ee) as (M1 & M2 & M3 & M4 & M5).
    cbv zeta in *. rewrite M1 in EN, E2. assert (HF : numbersFit ms).
    { apply (numbers_fit ms text HW). rewrite Ee, app_length in E2. lia. }
    apply (ct_mods k mt s (trimmed s) e ms text line names); try done; [apply trimmed_trims|by apply expand_ok_iff| |by apply M5].
    cbn [c_single]. rewrite M4. cbn [c_single]. split; [by intros [?|?]|by right].
Qed.
Definition behind (s : list N) : bool := isEmpty (trimmed s) || startsWithSpaceOrTab s.
Fixpoint commandsB (n : nat) (k : said) (inference : bool) (ls : list tline) : option (list tline * list command * list tline) :=
  match n with O => None | S n =>
  match ls with
  | (s, mt) :: ls' => if mo_inline mt then None else if behind s then
      if isEmpty (trimmed s) then match commandsB n k inference ls' with Some (cls, cs, rest) => Some ((s, mt) :: cls, cs, rest) | None => None end
      else match commandB k inference (s, mt) ls' with
        | Some (c, il, rest) => match commandsB n k inference rest with Some (cls, cs, rest') => Some ((s, mt) :: il ++ cls, c :: cs, rest') | None => None end
        | None => None end
      else Some ([], [], ls)
  | [] => Some ([], [], [])
  end end.
Lemma commandsB_ok k inf n : forall ls cls cs rest, commandsB n k inf ls = Some (cls, cs, rest) -> ls = cls ++ rest /\ commandLines k inf cls cs /\ notCommand rest.
Proof.
  induction n as [|n IH]; intros ls cls cs rest; cbn [commandsB]; [done|]. destruct ls as [|[s mt] ls].
  - intros [= <- <- <-]. split_and!; [done|constructor|]. by intros s mt ls'.
  - destruct (mo_inline mt) eqn:EI; [done|]. destruct (behind s) eqn:EB.
    + unfold behind in EB. destruct (isEmpty (trimmed s)) eqn:EE.
      * destruct (commandsB n k inf ls) as [[[cls' cs'] rest']|] eqn:EC; [|done]. destruct (IH _ _ _ _ EC) as (-> & H2 & H3).
        intros [= <- <- <-]. split_and!; [done| |done]. apply cs_blank; [done|by apply spaces_empty|done].
      * destruct (commandB k inf (s, mt) ls) as [[[c il] rest1]|] eqn:ED; [|done]. apply commandB_ok in ED as [-> ED].
        destruct (commandsB n k inf rest1) as [[[cls' cs'] rest']|] eqn:EC; [|done]. destruct (IH _ _ _ _ EC) as (-> & H2 & H3).
        intros [= <- <- <-]. split_and!; [by rewrite <- app_comm_cons, <- app_assoc| |done]. apply cs_command; [done| |done|done].
        apply indented_conv; [done|]. intros Hs. apply spaces_empty in Hs. by rewrite Hs in EE.
    + intros [= <- <- <-]. split_and!; [done|constructor|]. intros s' mt' ls' [= <- <- <-]. unfold behind in EB. apply orb_false_iff in EB as [B1 B2].
      assert (HN : ~ spaces s) by (intros Hs; apply spaces_empty in Hs; by rewrite Hs in B1). split; [done|]. intros Hi. by rewrite (indented_spec _ Hi) in B2.
Qed.
Definition dotOf (key : qstr) : option dot :=
  if decide (key = s2q "IGNORE") then Some DIgnore else if decide (key = s2q "PRECIOUS") then Some DPrecious else
  if decide (key = s2q "SILENT") then Some DSilent else if decide (key = s2q "SUFFIXES") then Some DSuffixes else None.
Lemma dotOf_key d : dotOf (dotKey d) = Some d.
Proof. by destruct d. Qed.
Fixpoint sayB (n : nat) (k : said) (ls : list tline) : option said :=
  match n with
  | O => None
  | S n =>
    match ls with
    | [] => Some k
    | (s, mt) :: ls => if mo_inline mt then None else
      match expandMacros mt false s with
      | XOk e =>
        if isEmpty (trimmed e) then sayB n k ls else
        match dotDirective e with
        | Some (key, v) => match dotOf key with Some d => sayB n (sayDot d (words v) k) ls | None => None end
        | None =>
          match inferenceRule e with
          | Some (fp, fe, tp, te, cl) =>
            match commandsB n k true ls with
            | Some (cls, cs, rest) => sayB n (k <| k_rules ::= fun l => l ++ [(Irule fp fe tp te (List.length cl =? 2)%nat, cs)] |>) rest
            | None => None
            end
          | None =>
            match headerB (s, mt) with
            | Some (double, ts, ds, cmd) =>
              match match cmd with Some t => match commandB k false (t, mt) ls with Some (c, il, rest) => Some ([c], il, rest) | None => None end | None => Some ([], [], ls) end with
              | Some (cs0, il, ls1) =>
                match match ls1 with (l, _) :: _ => if isEmpty (trimmed l) then Some ([], [], ls1) else commandsB n k false ls1 | [] => Some ([], [], []) end with
                | Some (cls, cs, rest) => sayB n (k <| k_blocks ::= fun l => l ++ [Prule double ts ds (cs0 ++ cs)] |>) rest
                | None => None
                end
              | None => None
              end
            | None => None
            end
          end
        end
      | _ => None
      end
    end
  end.
Lemma sayB_ok n : forall k ls k', sayB n k ls = Some k' -> says k ls k'.
Proof.
  induction n as [|n IH]; intros k ls k'; [done|]. cbn [sayB]. destruct ls as [|[s mt] ls]; [intros [= <-]; apply sy_end|].
  destruct (mo_inline mt) eqn:EI; [done|]. destruct (expandMacros mt false s) as [e| | |] eqn:EX; try done. apply expand_ok_iff in EX.
  destruct (isEmpty (trimmed e)) eqn:EE.
  { intros H. eapply sy_blank; [done|exact EX|by apply spaces_empty|by apply IH]. }
  destruct (dotDirective e) as [[key v]|] eqn:ED.
  { apply dot_sound in ED as (d & <- & ED). rewrite dotOf_key. intros H. eapply sy_dot; [done|exact EX|exact ED|apply words_ok|by apply IH]. }
  destruct (inferenceRule e) as [[[[[fp fe] tp] te] cl]|] eqn:ER.
  { destruct (commandsB n k true ls) as [[[cls cs] rest]|] eqn:EC; [|done]. apply commandsB_ok in EC as (-> & C1 & C2). intros H.
    pose proof ER as ER'. apply rule_sound in ER' as (r & Er & HP). unfold capsOf in Er. injection Er as -> -> -> -> ->. pose proof (rule_longest _ _ HP ER) as HL.
    assert (E : Irule (ir_fromPath r) (ir_fromExt r) (ir_toPath r) (ir_toExt r) (List.length (colons (ir_double r)) =? 2)%nat = r) by (destruct r as [a b c d []]; done).
    rewrite E in H. eapply sy_rule; [done|exact EX|exact HL|exact C1|exact C2|by apply IH]. }
  destruct (headerB (s, mt)) as [[[[double ts] ds] cmd]|] eqn:EH; [|done]. apply headerB_ok in EH.
  assert (HO : ordinary e).
  { split_and!.
    - intros Hs. apply spaces_empty in Hs. by rewrite Hs in EE.
    - intros d v Hd. by rewrite (dot_read _ _ _ Hd) in ED.
    - by apply rule_none_conv. }
  destruct (match cmd with Some t => _ | None => Some ([], [], ls) end) as [[[cs0 il] ls1]|] eqn:E0; [|done].
  assert (H0 : ls = il ++ ls1 /\ match cmd with Some t => exists c, cs0 = [c] /\ commandText k mt t il c | None => cs0 = [] /\ il = [] end).
  { destruct cmd as [t|]; [|by injection E0 as <- <- <-]. destruct (commandB k false (t, mt) ls) as [[[c il'] rest']|] eqn:EC; [|done]. injection E0 as <- <- <-.
    apply (commandB_ok k false) in EC as [-> EC]. split; [done|]. by exists c. }
  destruct H0 as [-> H0]. clear E0. destruct ls1 as [|[l ml] ls1].
  - intros H. apply (sy_block k s mt e double ts ds cmd cs0 il [] [] [] k'); try done; [constructor|by apply IH].
  - destruct (isEmpty (trimmed l)) eqn:EL.
    + apply spaces_empty in EL. intros H. apply (sy_block k s mt e double ts ds cmd cs0 il [] [] ((l, ml) :: ls1) k'); try done; [constructor| |by apply IH].
      intros l' mt' ls' [= <- <- <-] [_ Hn]. by apply Hn.
    + destruct (commandsB n k false _) as [[[cls cs] rest]|] eqn:EC; [|done]. intros H. assert (HL : ~ spaces l) by (intros Hs; apply spaces_empty in Hs; by rewrite Hs in EL).
      apply commandsB_ok in EC as (E & C1 & C2). rewrite E. eapply sy_block; [done|exact EX|exact HO|exact EH|exact H0| |exact C1| |by apply IH].
      * destruct cls as [|[l' ml'] cls]; [done|]. injection E as E1 E2 E3. by rewrite <- E1.
      * destruct cls; [|done]. intros l' mt' ls' El. by destruct (C2 _ _ _ El).
Qed.
