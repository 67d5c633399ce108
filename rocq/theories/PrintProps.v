(** C58: what /P prints. *)
From Coq Require Import Ascii String.
From stdpp Require Import prelude gmap.
From RecordUpdate Require Import RecordSet.
Import RecordSetNotations.
From Verif Require Import Base BaseProofs Data Macro MkParse MkLineProps WrittenSpec WrittenProofs WrittenProps Print PrintSpec PrintProofs.
Local Open Scope N_scope.

(** The first line printed for a rule, written in a makefile, is a line of an inference rule and says the same rule. *)
Theorem C58_rule_line r : ruleWritten r -> cleanPath (r_fromPath r) -> cleanPath (r_toPath r) ->
  exists f t, inferenceRule (ruleHead r) = Some (f, r_fromExt r, t, r_toExt r, colons (r_batch r)) /\
  searchPath f (r_fromPath r) /\ searchPath t (r_toPath r) /\ rulePath f = r_fromPath r /\ rulePath t = r_toPath r.
Proof.
  intros H Hf Ht. apply head_line, rule_complete in H. exists (pathText (r_fromPath r)), (pathText (r_toPath r)). split; [exact H|].
  pose proof (searchPath_text _ Hf) as Sf. pose proof (searchPath_text _ Ht) as St. split_and!; try done.
  - eapply searchPath_det; [|exact Sf]. apply rulePath_spec, braces_pathText.
  - eapply searchPath_det; [|exact St]. apply rulePath_spec, braces_pathText.
Qed.
Definition ruleEx (f t : string) (batch : bool) : rule := Rule 0 batch (q f) (q ".cpp") (q t) (q ".obj") (-1) [Command (q "cl /c $<") [] 1 true false].
Lemma written_ex s i r : ruleParts s i -> inferenceRule s = Some (capsOf i) -> searchPath (ir_fromPath i) (r_fromPath r) -> searchPath (ir_toPath i) (r_toPath r) ->
  r_fromExt r = ir_fromExt i -> r_toExt r = ir_toExt i -> r_batch r = ir_double i -> ruleWritten r.
Proof. intros H1 H2 H3 H4 H5 H6 H7. exists s, i. split_and!; try done. by apply rule_longest. Qed.
Lemma ext_ex w : negb (isEmpty w) && forallb (fun c => isLetterOrNumber c || (c =? ch "_")) w = true -> extension (ch "." :: w).
Proof.
  intros H. apply andb_true_iff in H as [H1 H2]. exists w. split_and!; [done|by intros ->|]. apply Forall_forall. intros c Hc. rewrite forallb_forall in H2.
  apply elem_of_list_In in Hc. apply H2 in Hc. apply orb_true_iff in Hc as [Hc|Hc]; [by left|]. right. by apply N.eqb_eq in Hc.
Qed.
Lemma clean_ex p : negb (isEmpty p) && negb (endsWith [47] p) && negb (endsWith [92] p) = true -> cleanPath p.
Proof.
  intros H. apply andb_true_iff in H as [H H3]. apply andb_true_iff in H as [H1 H2]. split; [by intros ->|]. intros c Hc [->| ->].
  - apply negb_true_iff, not_true_iff_false in H2. apply H2. by apply LineReaderProofs.endsWith_last.
  - apply negb_true_iff, not_true_iff_false in H3. apply H3. by apply LineReaderProofs.endsWith_last.
Qed.
(** Written {a}.b{src\}.cpp{.}.obj:: ; the path of the printed line contains braces, and the path to the directory itself is left out. *)
Definition ruleR : rule := ruleEx "a}.b{src" "." true.
Lemma ruleR_written : ruleWritten ruleR.
Proof.
  apply (written_ex (q "{a}.b{src\}.cpp{.}.obj::") (Irule (q "{a}.b{src\}") (q ".cpp") (q "{.}") (q ".obj") true)); try done.
  - split_and!; [done|right; by exists (q "a}.b{src\")|by apply (ext_ex (q "cpp"))|right; by exists (q ".")|by apply (ext_ex (q "obj"))].
  - apply (sp_sep (q "a}.b{src") (ch "\")). by right.
  - apply (sp_plain (q ".")); [done|]. intros c [= <-] [?|?]; done.
Qed.
Example C58_rule_line_ex : ruleWritten ruleR /\ cleanPath (r_fromPath ruleR) /\ cleanPath (r_toPath ruleR) /\
  ruleHead ruleR = q "{a}.b{src}.cpp.obj::".
Proof. split_and!; [exact ruleR_written|by apply clean_ex|by apply clean_ex|done]. Qed.
Print Assumptions C58_rule_line.
(** Not so for a path that ends with two separators: the printed line says another path. *)
Theorem C58_rule_line_refuted : exists s f t f', let r := Rule 0 false (rulePath f) (q ".c") (rulePath t) (q ".obj") (-1) [] in
  inferenceRule s = Some (f, q ".c", t, q ".obj", colons false) /\ inferenceRule (ruleHead r) = Some (f', q ".c", t, q ".obj", colons false) /\
  rulePath f' <> rulePath f.
Proof. exists (q "{src\\}.c.obj:"), (q "{src\\}"), [], (q "{src\}"). cbv zeta. split_and!; by vm_compute. Qed.
Print Assumptions C58_rule_line_refuted.

(** Nothing else is printed for other macros, rules or targets: from the listing one can tell the macros and their values, the
    rules in their order and the targets with their dependents and command lines, in whatever order the tables are printed.
    Missing: how the commands are run (C58_modifiers_refuted). *)
Theorem C58_listing_partial mt mt' ms ms' rs rs' mk mk' bs bs' :
  ms ≡ₚ map_to_list (mt_macros mt) -> ms' ≡ₚ map_to_list (mt_macros mt') ->
  bs ≡ₚ map snd (map_to_list (mk_targets mk)) -> bs' ≡ₚ map snd (map_to_list (mk_targets mk')) -> keyed mk -> keyed mk' ->
  Forall macroPlain ms -> Forall macroPlain ms' -> Forall rulePlain rs -> Forall rulePlain rs' -> Forall blockPlain bs -> Forall blockPlain bs' ->
  listing ms rs bs = listing ms' rs' bs' ->
  (forall n, md_value <$> mt_macros mt !! n = md_value <$> mt_macros mt' !! n) /\
  map ruleSaid rs = map ruleSaid rs' /\
  (forall t, blockSaid <$> mk_targets mk !! t = blockSaid <$> mk_targets mk' !! t).
Proof.
  intros Pm Pm' Pb Pb' Hk Hk' M M' R R' B B' E. destruct (listing_inj _ _ _ _ _ _ M R B M' R' B' E) as (E1 & E2 & E3). split_and!; [|done|].
  - assert (G : forall (m : gmap qstr mdata) l, l ≡ₚ map_to_list m -> forall n v, md_value <$> m !! n = Some v <-> (n, v) ∈ map macroSaid l).
    { intros m l Hl n v. rewrite elem_of_list_fmap, fmap_Some. split.
      - intros (d & Hd & ->). exists (n, d). split; [done|]. rewrite Hl. by apply elem_of_map_to_list.
      - intros ([n' d] & [= -> ->] & Hd). exists d. rewrite Hl in Hd. by apply elem_of_map_to_list in Hd. }
    intros n. apply option_eq. intros v. rewrite (G _ _ Pm), (G _ _ Pm'). by rewrite E1.
  - assert (G : forall m l, keyed m -> l ≡ₚ map snd (map_to_list (mk_targets m)) -> forall t x, blockSaid <$> mk_targets m !! t = Some x <-> x ∈ map blockSaid l /\ t = toLower (fst (fst x))).
    { intros m l Hm Hl t x. rewrite elem_of_list_fmap, fmap_Some. split.
      - intros (b & Hb & ->). split; [|by apply Hm]. exists b. split; [done|]. rewrite Hl. apply elem_of_list_fmap. exists (t, b). split; [done|]. by apply elem_of_map_to_list.
      - intros [(b & -> & Hb) ->]. rewrite Hl in Hb. apply elem_of_list_fmap in Hb as ([t b'] & -> & Hb). apply elem_of_map_to_list in Hb. exists b'. split; [|done].
        cbn [snd blockSaid fst]. by rewrite <- (Hm _ _ Hb). }
    intros t. apply option_eq. intros x. rewrite (G _ _ Hk Pb), (G _ _ Hk' Pb'). by rewrite E3.
Qed.
Definition blockEx (name : string) (deps cmds : list string) (time max : N) : block :=
  Block (q name) (map q deps) (map (fun c => Command (q c) [] max true false) cmds) [] time true ACSEnabled.
Definition makeEx (time max : N) : mkfile :=
  Mkfile {[ q "all" := blockEx "All" ["a.obj"; "commands:"]%string [] time max; q "a.obj" := blockEx "a.obj" [] ["cl /c a.cpp"; "commands:"]%string time max; q "commands:" := blockEx "commands:" [] [] time max ]} None [] 0.
Definition tableEx (src : msource) : mtable := Mtable {[ q "CC" := Mdata src false (q "cl = x"); q "EMPTY" := Mdata src true [] ]} ∅.
Definition macrosOf (t : mtable) := rev (map_to_list (mt_macros t)).
Definition blocksOf (m : mkfile) := rev (map snd (map_to_list (mk_targets m))).
Lemma notin_ex (c : N) (s : qstr) : forallb (fun x => negb (x =? c)) s = true -> c ∉ s.
Proof. intros H X. rewrite forallb_forall in H. apply elem_of_list_In, H in X. by rewrite N.eqb_refl in X. Qed.
Lemma macrosOf_plain src : Forall macroPlain (macrosOf (tableEx src)).
Proof.
  assert (E : exists d d', macrosOf (tableEx src) ≡ₚ [(q "CC", d); (q "EMPTY", d')] /\ md_value d = q "cl = x" /\ md_value d' = []).
  { exists (Mdata src false (q "cl = x")), (Mdata src true []). split; [|done]. unfold macrosOf. rewrite <- Permutation_rev. unfold tableEx. cbn [mt_macros].
    rewrite map_to_list_insert by (by vm_compute). by rewrite map_to_list_singleton. }
  destruct E as (d & d' & E & E1 & E2). rewrite E. repeat constructor; cbn [fst snd]; rewrite ?E1, ?E2; by apply notin_ex.
Qed.
Lemma blocksOf_is time max : blocksOf (makeEx time max) ≡ₚ [blockEx "All" ["a.obj"; "commands:"]%string [] time max; blockEx "a.obj" [] ["cl /c a.cpp"; "commands:"]%string time max; blockEx "commands:" [] [] time max].
Proof.
  unfold blocksOf. rewrite <- Permutation_rev. unfold makeEx. cbn [mk_targets]. rewrite map_to_list_insert by (by vm_compute). rewrite map_to_list_insert by (by vm_compute). by rewrite map_to_list_singleton.
Qed.
Lemma blocksOf_plain time max : Forall blockPlain (blocksOf (makeEx time max)).
Proof.
  rewrite blocksOf_is. repeat constructor; try (by apply notin_ex); eexists _, _; split; (done || by vm_compute).
Qed.
Lemma makeEx_keyed time max : keyed (makeEx time max).
Proof.
  intros t b H. unfold makeEx in H. cbn [mk_targets] in H. repeat (apply lookup_insert_Some in H as [[<- <-]|[_ H]]; [by vm_compute|]). apply lookup_singleton_Some in H as [<- <-]. by vm_compute.
Qed.
(** Macros of another origin and targets with other time stamps: the listing is the same, and so is what it is about. *)
Example C58_listing_ex : let t := tableEx SrcMakeFile in let t' := tableEx SrcCommandLine in let m := makeEx 5 0 in let m' := makeEx 6 0 in
  macrosOf t ≡ₚ map_to_list (mt_macros t) /\ macrosOf t' ≡ₚ map_to_list (mt_macros t') /\
  blocksOf m ≡ₚ map snd (map_to_list (mk_targets m)) /\ blocksOf m' ≡ₚ map snd (map_to_list (mk_targets m')) /\ keyed m /\ keyed m' /\
  Forall macroPlain (macrosOf t) /\ Forall macroPlain (macrosOf t') /\ Forall rulePlain [ruleR] /\
  Forall blockPlain (blocksOf m) /\ Forall blockPlain (blocksOf m') /\
  listing (macrosOf t) [ruleR] (blocksOf m) = listing (macrosOf t') [ruleR] (blocksOf m').
Proof.
  cbv zeta. split_and!.
  - unfold macrosOf. by rewrite <- Permutation_rev.
  - unfold macrosOf. by rewrite <- Permutation_rev.
  - unfold blocksOf. by rewrite <- Permutation_rev.
  - unfold blocksOf. by rewrite <- Permutation_rev.
  - apply makeEx_keyed.
  - apply makeEx_keyed.
  - apply macrosOf_plain.
  - apply macrosOf_plain.
  - constructor; [|constructor]. split_and!; [exact ruleR_written|by apply clean_ex|by apply clean_ex|by apply notin_ex|by apply notin_ex|]. repeat constructor. by apply notin_ex.
  - apply blocksOf_plain.
  - apply blocksOf_plain.
  - vm_compute. reflexivity.
Qed.
Print Assumptions C58_listing_partial.

(** Two makefiles with the same listing, of which one stops with an error where the other one goes on: the dash before a command is
    not printed. Neither are the contents of inline files. *)
Theorem C58_modifiers_refuted : exists lines lines' st st' b b', parseEx lines = POk st /\ parseEx lines' = POk st' /\
  listing [] (s_rules st) (map snd (map_to_list (mk_targets (s_mk st)))) = listing [] (s_rules st') (map snd (map_to_list (mk_targets (s_mk st')))) /\
  mk_targets (s_mk st) !! q "all" = Some b /\ mk_targets (s_mk st') !! q "all" = Some b' /\
  map c_max (b_cmds b) = [0; 0] /\ map c_max (b_cmds b') = [4294967295; 0] /\
  map (fun c => map if_content (c_inline c)) (b_cmds b) = [[]; [q "one" ++ [13; 10]]] /\ map (fun c => map if_content (c_inline c)) (b_cmds b') = [[]; [q "two" ++ [13; 10]]].
Proof.
  set (l := map q ["all:"; " cl a.cpp"; " link @<<x"; "one"; "<<"]%string). set (l' := map q ["all:"; " -cl a.cpp"; " link @<<x"; "two"; "<<"]%string).
  assert (E : match parseEx l, parseEx l' with
    | POk st, POk st' =>
      listing [] (s_rules st) (map snd (map_to_list (mk_targets (s_mk st)))) = listing [] (s_rules st') (map snd (map_to_list (mk_targets (s_mk st')))) /\
      match mk_targets (s_mk st) !! q "all", mk_targets (s_mk st') !! q "all" with
      | Some b, Some b' => map c_max (b_cmds b) = [0; 0] /\ map c_max (b_cmds b') = [4294967295; 0] /\
          map (fun c => map if_content (c_inline c)) (b_cmds b) = [[]; [q "one" ++ [13; 10]]] /\ map (fun c => map if_content (c_inline c)) (b_cmds b') = [[]; [q "two" ++ [13; 10]]]
      | _, _ => False
      end
    | _, _ => False
    end) by (vm_compute; done).
  destruct (parseEx l) as [st| | |] eqn:E1; try done. destruct (parseEx l') as [st'| | |] eqn:E2; try done. destruct E as [E3 E].
  destruct (mk_targets (s_mk st) !! q "all") as [b|] eqn:E4; [|done]. destruct (mk_targets (s_mk st') !! q "all") as [b'|] eqn:E5; [|done].
  destruct E as (H1 & H2 & H3 & H4). exists l, l', st, st', b, b'. by split_and!.
Qed.
Print Assumptions C58_modifiers_refuted.
