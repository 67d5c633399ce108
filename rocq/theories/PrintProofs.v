(** Proofs about the listing printed by /P. *)
From Coq Require Import Ascii String.
From stdpp Require Import prelude gmap.
From Verif Require Import Base BaseProofs Data Macro MkParse WrittenSpec WrittenProofs Print PrintSpec.
Local Open Scope N_scope.

(** ** Lines *)
Definition unlines (ls : list qstr) : qstr := concat (map (fun l => l ++ [10]) ls).
Lemma unlines_app a b : unlines (a ++ b) = unlines a ++ unlines b.
Proof. unfold unlines. by rewrite map_app, concat_app. Qed.
Lemma cut_first (x : N) (a a' b b' : list N) : x ∉ a -> x ∉ a' -> a ++ x :: b = a' ++ x :: b' -> a = a' /\ b = b'.
Proof.
  revert a'. induction a as [|c a IH]; intros [|c' a'] Ha Ha' E; cbn in E.
  - by injection E.
  - injection E as -> _. destruct Ha'. left.
  - injection E as -> _. destruct Ha. left.
  - injection E as -> E. apply not_elem_of_cons in Ha as [_ Ha], Ha' as [_ Ha']. by destruct (IH _ Ha Ha' E) as [-> ->].
Qed.
Lemma unlines_inj ls ls' : Forall oneLine ls -> Forall oneLine ls' -> unlines ls = unlines ls' -> ls = ls'.
Proof.
  intros H. revert ls'. induction H as [|l ls Hl _ IH]; intros ls' H' E.
  - destruct H' as [|l' ls' _ _]; [done|]. by destruct l'.
  - destruct H' as [|l' ls' Hl' H']; [by destruct l|]. unfold unlines in E. cbn [map concat] in E. rewrite <- !app_assoc in E. cbn [app] in E.
    apply cut_first in E as [-> E]; [|exact Hl|exact Hl']. f_equal. by apply IH.
Qed.
Definition tab (s : qstr) : qstr := [9] ++ s.
Definition attach (p : qstr) (ls : list qstr) : list qstr := match ls with l :: ls' => (p ++ l) :: ls' | [] => [p] end.
Lemma unlines_attach p ls : ls <> [] -> unlines (attach p ls) = p ++ unlines ls.
Proof. destruct ls as [|l ls]; [done|]. intros _. unfold unlines. cbn [attach map concat]. by rewrite <- !app_assoc. Qed.
Lemma attach_inj p a a' b b' : a <> [] -> a' <> [] -> attach p a ++ b = attach p a' ++ b' -> a ++ b = a' ++ b'.
Proof. destruct a as [|x a], a' as [|x' a']; try done. intros _ _. cbn [attach app]. intros [= E ->]. apply app_inv_head in E as ->. done. Qed.
Lemma tabs_inj (a a' : list qstr) (b b' : list qstr) : map tab a ++ [] :: b = map tab a' ++ [] :: b' -> a = a' /\ b = b'.
Proof.
  revert a'. induction a as [|x a IH]; intros [|x' a'] E; try done; cbn in E.
  - by injection E.
  - injection E as -> E. by destruct (IH _ E) as [-> ->].
Qed.

(** ** Macros *)
Definition macroL (p : qstr * mdata) : qstr := fst p ++ s2q " = " ++ md_value (snd p).
Lemma macros_lines l : macrosText l = unlines (map macroL l).
Proof. induction l as [|p l IH]; [done|]. unfold macrosText, unlines in *. cbn [map concat]. rewrite IH. unfold macroText, macroL. by rewrite <- !app_assoc. Qed.
Lemma macroL_inj p p' : macroPlain p -> macroPlain p' -> macroL p = macroL p' -> macroSaid p = macroSaid p'.
Proof.
  intros (H & _) (H' & _) E. unfold macroL, macroSaid in *. change (s2q " = ") with (32 :: [61; 32]) in E. cbn [app] in E.
  apply cut_first in E as [-> E]; [|done|done]. by injection E as ->.
Qed.
Lemma macros_inj l l' b b' : Forall macroPlain l -> Forall macroPlain l' -> map macroL l ++ [] :: b = map macroL l' ++ [] :: b' ->
  map macroSaid l = map macroSaid l' /\ b = b'.
Proof.
  intros H. revert l'. induction H as [|p l Hp _ IH]; intros l' H' E; destruct H' as [|p' l' Hp' H']; cbn [map app] in E.
  - by injection E.
  - injection E as E _. unfold macroL in E. by destruct (fst p').
  - injection E as E _. unfold macroL in E. by destruct (fst p).
  - injection E as E1 E2. destruct (IH _ H' E2) as [E3 ->]. cbn [map]. by rewrite (macroL_inj _ _ Hp Hp' E1), E3.
Qed.

(** ** The first line of a rule *)
Lemma pathText_eq p : (p = [46] /\ pathText p = []) \/ (p <> [46] /\ pathText p = [123] ++ p ++ [125]).
Proof.
  unfold pathText. destruct (qeqb p [46]) eqn:E.
  - apply qeqb_spec in E. by left.
  - right. split; [|done]. intros ->. done.
Qed.
Lemma braces_pathText p : braces (pathText p).
Proof. destruct (pathText_eq p) as [[_ ->]|[_ ->]]; [by left|]. right. by exists p. Qed.
Lemma searchPath_text p : cleanPath p -> searchPath (pathText p) p.
Proof.
  intros [H1 H2]. destruct (pathText_eq p) as [[-> ->]|[_ ->]]; [apply sp_none|]. by apply sp_plain.
Qed.
Lemma searchPath_det q p p' : searchPath q p -> searchPath q p' -> p = p'.
Proof.
  assert (A : forall (x : list N) c, x ++ [c; ch "}"] = (x ++ [c]) ++ [ch "}"]) by (intros; by rewrite <- app_assoc).
  assert (B : forall (x : list N) c, x ++ [c; ch "}"] <> [ch "}"]) by (intros [|? []]; done).
  assert (B' : forall (x : list N), x <> [] -> x ++ [ch "}"] <> [ch "}"]) by (intros [|? []]; done).
  enough (G : forall q' p', searchPath q' p' -> forall q p, searchPath q p -> q = q' -> p = p') by (intros H1 H2; by eapply G).
  intros q1 p1 H1 q2 p2 H2. destruct H1 as [| |p1 c Hc|p1 Hp Hl], H2 as [| |p2 c' Hc'|p2 Hp' Hl']; intros E; try done; injection E as E.
  - by destruct (B _ _ E).
  - by destruct (B' _ Hp' E).
  - by destruct (B _ _ (eq_sym E)).
  - rewrite !A in E. apply app_inj_tail in E as [E _]. by apply app_inj_tail in E as [-> _].
  - rewrite A in E. apply app_inj_tail in E as [-> _]. destruct (Hl' c); [by rewrite last_snoc|done].
  - by destruct (B' _ Hp (eq_sym E)).
  - rewrite A in E. apply app_inj_tail in E as [<- _]. destruct (Hl c'); [by rewrite last_snoc|done].
  - by apply app_inj_tail in E as [-> _].
Qed.
(** The path that was written, if it is printed. *)
Lemma written_path q p : searchPath q p -> pathText p <> [] -> exists m, (m = [] \/ exists c, m = [c]) /\ q = [123] ++ p ++ m ++ [125].
Proof.
  intros H Hn. destruct H as [| |p c Hc|p Hp Hl].
  - done.
  - done.
  - exists [c]. split; [right; by exists c|done].
  - exists []. split; [by left|done].
Qed.
Definition headParts (r : rule) : irule := Irule (pathText (r_fromPath r)) (r_fromExt r) (pathText (r_toPath r)) (r_toExt r) (r_batch r).
Lemma head_last_app (a b : list N) x : last (a ++ b) = Some x -> b <> [] -> last b = Some x.
Proof. rewrite last_app. destruct (last b) eqn:E; [done|]. by apply last_None in E. Qed.
Lemma parts_same s i j : ruleParts s i -> ruleParts s j -> ir_toExt i = ir_toExt j /\ ir_double i = ir_double j /\
  ir_fromPath i ++ ir_fromExt i ++ ir_toPath i = ir_fromPath j ++ ir_fromExt j ++ ir_toPath j.
Proof.
  intros (Ei & _ & _ & _ & Hi) (Ej & _ & _ & _ & Hj).
  destruct (colons_cut s (ir_toExt i) Hi (ir_fromPath i ++ ir_fromExt i ++ ir_toPath i) (ir_double i)) as [A1 A2]; [by rewrite <- !app_assoc|].
  destruct (colons_cut s (ir_toExt j) Hj (ir_fromPath j ++ ir_fromExt j ++ ir_toPath j) (ir_double j)) as [B1 B2]; [by rewrite <- !app_assoc|].
  rewrite A1 in B1. assert (Ed : ir_double i = ir_double j) by (by destruct (ir_double i), (ir_double j)).
  rewrite Ed in A2. rewrite A2 in B2.
  assert (C1 : cutExt ((ir_fromPath i ++ ir_fromExt i ++ ir_toPath i) ++ ir_toExt i) = Some (ir_fromPath i ++ ir_fromExt i ++ ir_toPath i, ir_toExt i)) by (by apply cutExt_spec).
  assert (C2 : cutExt ((ir_fromPath j ++ ir_fromExt j ++ ir_toPath j) ++ ir_toExt j) = Some (ir_fromPath j ++ ir_fromExt j ++ ir_toPath j, ir_toExt j)) by (by apply cutExt_spec).
  unfold qstr, qchar in *. rewrite B2 in C1. rewrite C1 in C2. injection C2 as -> ->. by split_and!.
Qed.
Lemma head_line r : ruleWritten r -> ruleLine (ruleHead r) (headParts r).
Proof.
  intros (s & i & [HP HM] & Hf & Ht & Efe & Ete & Eb). pose proof HP as (Es & H1 & H2 & H3 & H4).
  assert (HPH : ruleParts (ruleHead r) (headParts r)).
  { unfold ruleParts, headParts, ruleHead. cbn [ir_fromPath ir_fromExt ir_toPath ir_toExt ir_double]. rewrite Efe, Ete. split_and!; try done; apply braces_pathText. }
  split; [done|]. intros j HJ. apply Nat.nlt_ge. intros Hlt. destruct (parts_same _ _ _ HPH HJ) as (_ & _ & E).
  destruct HJ as (_ & J1 & J2 & J3 & _). destruct j as [F e T te d]. cbn [ir_fromPath ir_fromExt ir_toPath headParts] in *. clear te d HPH.
  set (F' := pathText (r_fromPath r)) in *. set (T' := pathText (r_toPath r)) in *. rewrite Efe in E.
  (* the other path begins with the first one and its extension *)
  apply braces_cases in J1 as [->|(Jh & Jl & Jn)]; [cbn in Hlt; lia|].
  assert (Hlen : (List.length F' + List.length (ir_fromExt i) < List.length F)%nat).
  { apply Nat.nle_gt. intros Hle. rewrite last_lookup in Jl.
    assert (X : (F ++ e ++ T) !! pred (List.length F) = Some 125) by (by rewrite lookup_app_l by (unfold qstr, qchar in *; lia)).
    unfold qstr, qchar in *. rewrite <- E in X. rewrite parts_lookup in X by (unfold qstr, qchar in *; lia). by destruct (ext_chars _ H2 _ _ X) as (_ & ? & _). }
  assert (Ea : exists a, a <> [] /\ F = F' ++ ir_fromExt i ++ a /\ T' = a ++ e ++ T).
  { exists (drop (List.length F' + List.length (ir_fromExt i)) F). split_and!.
    - intros X. apply (f_equal (@List.length N)) in X. rewrite drop_length in X. unfold qstr, qchar in *. cbn in X. lia.
    - assert (Y : take (List.length F' + List.length (ir_fromExt i)) F = F' ++ ir_fromExt i).
      { transitivity (take (List.length F' + List.length (ir_fromExt i)) (F ++ e ++ T)).
        - rewrite take_app_le by (unfold qstr, qchar in *; lia). done.
        - unfold qstr, qchar in *. rewrite <- E, app_assoc. rewrite <- app_length. apply take_app. }
      rewrite app_assoc. unfold qstr, qchar in *. rewrite <- Y. symmetry. apply take_drop.
    - transitivity (drop (List.length F' + List.length (ir_fromExt i)) (F ++ e ++ T)).
      + unfold qstr, qchar in *. rewrite <- E, app_assoc, <- app_length. by rewrite drop_app.
      + by rewrite drop_app_le by (unfold qstr, qchar in *; lia). }
  destruct Ea as (a & Ha & EF & ET).
  assert (HF' : F' <> []).
  { intros X. unfold qstr, qchar in *. rewrite EF, X in Jh. destruct H2 as (w & Ew & _). rewrite Ew in Jh. done. }
  assert (HT' : T' <> []) by (intros X; unfold qstr, qchar in *; rewrite ET in X; by destruct a).
  destruct (written_path _ _ Hf HF') as (mf & Hmf & Wf). destruct (written_path _ _ Ht HT') as (mt & Hmt & Wt).
  destruct (pathText_eq (r_toPath r)) as [[_ X]|[_ PT]]; [done|]. fold T' in PT.
  assert (Tl : T <> []).
  { intros ->. rewrite app_nil_r in ET. destruct (ext_last _ J2) as (e' & c & -> & Hc). rewrite ET in PT. rewrite app_assoc in PT.
    change ([123] ++ r_toPath r ++ [125]) with ((123 :: r_toPath r) ++ [125]) in PT. apply app_inj_tail in PT as [_ ->]. by apply word_not in Hc as (_ & _ & ? & _). }
  assert (exists x, T = [123] ++ x ++ [125]) as [x Ex]. { destruct J3 as [?|[x Ex]]; [done|]. by exists x. }
  assert (ETo : ir_toPath i = a ++ e ++ [123] ++ x ++ mt ++ [125]).
  { rewrite Wt. rewrite ET, Ex in PT. change ([123] ++ r_toPath r ++ [125]) with (([123] ++ r_toPath r) ++ [125]) in PT.
    rewrite !app_assoc in PT. apply app_inj_tail in PT as [PT _]. rewrite !app_assoc. unfold qstr, qchar in *. rewrite <- PT. by rewrite ?app_assoc. }
  assert (EFr : exists y, ir_fromPath i = 123 :: y) by (rewrite Wf; by eexists).
  destruct EFr as [y Ey].
  specialize (HM (Irule (ir_fromPath i ++ ir_fromExt i ++ a) e ([123] ++ x ++ mt ++ [125]) (ir_toExt i) (ir_double i))).
  cbn [ir_fromPath] in HM. feed specialize HM.
  - unfold ruleParts. cbn [ir_fromPath ir_fromExt ir_toPath ir_toExt ir_double]. split_and!; try done.
    + rewrite Es, ETo. by rewrite <- !app_assoc.
    + apply head_last_braces; [by rewrite Ey|]. unfold qstr, qchar in *. rewrite EF in Jl. rewrite !app_assoc in Jl. apply head_last_app in Jl; [|done]. by rewrite !last_app, Jl.
    + right. exists (x ++ mt). by rewrite <- !app_assoc.
  - rewrite !app_length in HM. destruct a; [done|]. cbn in HM. unfold qstr, qchar in *. lia.
Qed.
Lemma pathText_inj p p' : pathText p = pathText p' -> p = p'.
Proof.
  destruct (pathText_eq p) as [[-> ->]|[_ ->]], (pathText_eq p') as [[-> ->]|[_ ->]]; try done.
  cbn [app]. intros [= E]. by apply app_inj_tail in E as [-> _].
Qed.
Lemma head_inj r r' : ruleWritten r -> ruleWritten r' -> ruleHead r = ruleHead r' ->
  r_fromPath r = r_fromPath r' /\ r_fromExt r = r_fromExt r' /\ r_toPath r = r_toPath r' /\ r_toExt r = r_toExt r' /\ r_batch r = r_batch r'.
Proof.
  intros H H' E. apply head_line, rule_complete in H, H'. rewrite E in H. rewrite H in H'. unfold capsOf, headParts in H'.
  cbn [ir_fromPath ir_fromExt ir_toPath ir_toExt ir_double] in H'. injection H' as E1 E2 E3 E4 E5.
  apply pathText_inj in E1, E3. split_and!; try done. by destruct (r_batch r), (r_batch r').
Qed.
Lemma head_notnil r : ruleWritten r -> ruleHead r <> [].
Proof.
  intros (s & i & [(_ & _ & H & _) _] & _ & _ & E & _). unfold ruleHead. rewrite E. destruct H as (w & -> & _). destruct (pathText (r_fromPath r)); done.
Qed.

(** ** Rules *)
Definition ruleL (r : rule) : list qstr := ruleHead r :: map tab (map c_line (r_cmds r)) ++ [[]].
Lemma entries_lines l : concat (map entryText l) = unlines (map tab l).
Proof. induction l as [|x l IH]; [done|]. unfold unlines in *. cbn [map concat]. rewrite IH. unfold entryText, tab. by rewrite <- !app_assoc. Qed.
Lemma commands_lines l : concat (map (fun c => entryText (c_line c)) l) = unlines (map tab (map c_line l)).
Proof. rewrite <- entries_lines. by rewrite map_map. Qed.
Lemma ruleText_lines r : ruleText r = unlines (ruleL r).
Proof.
  unfold ruleText, ruleL. change (ruleHead r :: ?l) with ([ruleHead r] ++ l). rewrite !unlines_app, commands_lines.
  unfold unlines at 2 3. cbn [map concat app]. by rewrite app_nil_r, <- !app_assoc.
Qed.
Lemma rules_lines l : rulesText l = unlines (concat (map ruleL l)).
Proof. induction l as [|r l IH]; [done|]. unfold rulesText in *. cbn [map concat]. by rewrite unlines_app, IH, ruleText_lines. Qed.
Lemma rules_inj l l' b b' : Forall rulePlain l -> Forall rulePlain l' -> concat (map ruleL l) ++ [] :: b = concat (map ruleL l') ++ [] :: b' ->
  map ruleSaid l = map ruleSaid l' /\ b = b'.
Proof.
  intros H. revert l'. induction H as [|r l Hr _ IH]; intros l' H' E; destruct H' as [|r' l' Hr' H']; cbn [map concat app ruleL] in E.
  - by injection E.
  - injection E as E _. symmetry in E. apply head_notnil in E; [done|apply Hr'].
  - injection E as E _. apply head_notnil in E; [done|apply Hr].
  - injection E as E1 E2. rewrite <- !app_assoc in E2. cbn [app] in E2. apply tabs_inj in E2 as [E2 E3]. destruct (IH _ H' E3) as [E4 ->].
    apply head_inj in E1 as (F1 & F2 & F3 & F4 & F5); [|apply Hr|apply Hr']. cbn [map]. rewrite E4. unfold ruleSaid at 1 3. by rewrite F1, F2, F3, F4, F5, E2.
Qed.

(** ** Targets *)
Definition D : qstr := [9] ++ s2q "dependents:".
Definition C : qstr := [9] ++ s2q "commands:".
Definition blockL (b : block) : list qstr :=
  (b_name b ++ s2q ":") :: attach D (map tab (b_deps b) ++ attach C (map tab (map c_line (b_cmds b)) ++ [[]])).
Lemma attach_notnil p ls : attach p ls <> [].
Proof. by destruct ls. Qed.
Lemma blockText_lines b : blockText b = unlines (blockL b).
Proof.
  unfold blockText, blockL. rewrite commands_lines, entries_lines. change ((b_name b ++ s2q ":") :: ?l) with ([b_name b ++ s2q ":"] ++ l).
  rewrite unlines_app, unlines_attach, unlines_app, unlines_attach, unlines_app.
  - unfold unlines at 3 6. cbn [map concat]. rewrite app_nil_r, <- !app_assoc. done.
  - by destruct (map tab (map c_line (b_cmds b))).
  - intros E. apply app_eq_nil in E as [_ E]. by apply attach_notnil in E.
Qed.
Lemma blocks_lines l : blocksText l = unlines (concat (map blockL l)).
Proof. induction l as [|r l IH]; [done|]. unfold blocksText in *. cbn [map concat]. by rewrite unlines_app, IH, blockText_lines. Qed.
(** What follows a target: nothing or another target. *)
Definition untabbed (R : list qstr) : Prop := match R with [] => True | l :: _ => head l <> Some 9 end.
Lemma deps_cmds_no (d : qstr) ds X cmds R R' : 9 ∉ d -> untabbed R' -> X <> [] ->
  (tab d :: map tab ds ++ attach C X) ++ R = attach C (map tab cmds ++ [[]]) ++ R' -> False.
Proof.
  intros Hd HR' HX E. destruct cmds as [|c cmds]; cbn [map app attach] in E.
  - injection E as _ E. destruct R' as [|x R']; [by destruct ds; destruct X|]. cbn in HR'. apply HR'. destruct ds as [|d' ds]; cbn [map app] in E; [destruct X; [done|]; cbn [attach app] in E|]; by injection E as <- _.
  - injection E as E _. apply Hd. change (d = s2q "commands:" ++ 9 :: c) in E. rewrite E. apply elem_of_app. right. left.
Qed.
Lemma deps_inj ds ds' cmds cmds' R R' : Forall (fun d => 9 ∉ d) ds -> Forall (fun d => 9 ∉ d) ds' -> untabbed R -> untabbed R' ->
  (map tab ds ++ attach C (map tab cmds ++ [[]])) ++ R = (map tab ds' ++ attach C (map tab cmds' ++ [[]])) ++ R' ->
  ds = ds' /\ cmds = cmds' /\ R = R'.
Proof.
  intros H H' HR HR'. revert ds' H'. induction H as [|d ds Hd _ IH]; intros ds' H' E; destruct H' as [|d' ds' Hd' H']; cbn [map app] in E.
  - apply attach_inj in E; [|by destruct cmds|by destruct cmds']. rewrite <- !app_assoc in E. cbn [app] in E. by apply tabs_inj in E as [-> ->].
  - exfalso. symmetry in E. eapply (deps_cmds_no d' ds' _ cmds R' R); [done|done| |exact E]. by destruct cmds'.
  - exfalso. eapply (deps_cmds_no d ds _ cmds' R R'); [done|done| |exact E]. by destruct cmds.
  - injection E as -> E. destruct (IH _ H' E) as (-> & -> & ->). done.
Qed.
Lemma blocks_untabbed l : Forall blockPlain l -> untabbed (concat (map blockL l)).
Proof.
  intros H. destruct H as [|b l [(c & s & E & Hc) _] _]; [done|]. cbn [map concat blockL app untabbed]. rewrite E. cbn. intros [= ->]. done.
Qed.
Lemma blocks_inj l l' : Forall blockPlain l -> Forall blockPlain l' -> concat (map blockL l) = concat (map blockL l') -> map blockSaid l = map blockSaid l'.
Proof.
  intros H. revert l'. induction H as [|b l Hb Hl IH]; intros l' H' E; destruct H' as [|b' l' Hb' H']; try done.
  cbn [map concat blockL app] in E. injection E as E1 E2. apply app_inj_tail in E1 as [E1 _].
  apply attach_inj in E2.
  2:{ intros X. apply app_eq_nil in X as [_ X]. by apply attach_notnil in X. }
  2:{ intros X. apply app_eq_nil in X as [_ X]. by apply attach_notnil in X. }
  destruct Hb as (_ & _ & Hd & _), Hb' as (_ & _ & Hd' & _).
  apply deps_inj in E2 as (E2 & E3 & E4).
  - cbn [map]. rewrite (IH _ H' E4). unfold blockSaid at 1 3. by rewrite E1, E2, E3.
  - eapply Forall_impl; [exact Hd|]. by intros x [_ ?].
  - eapply Forall_impl; [exact Hd'|]. by intros x [_ ?].
  - by apply blocks_untabbed.
  - by apply blocks_untabbed.
Qed.

(** ** All of it *)
Definition listingL (ms : list (qstr * mdata)) (rs : list rule) (bs : list block) : list qstr :=
  [s2q "MACROS:"; []] ++ map macroL ms ++ [] :: [s2q "INFERENCE RULES:"; []] ++ concat (map ruleL rs) ++ [] :: [s2q "TARGETS:"; []] ++ concat (map blockL bs).
Lemma listing_lines ms rs bs : listing ms rs bs = unlines (listingL ms rs bs).
Proof.
  unfold listing, listingL. rewrite !unlines_app. change ([] :: ?l) with ([@nil N] ++ l). rewrite !unlines_app, macros_lines, rules_lines, blocks_lines. done.
Qed.
Lemma oneLine_app a b : oneLine (a ++ b) <-> oneLine a /\ oneLine b.
Proof. unfold oneLine. rewrite not_elem_of_app. done. Qed.
Lemma oneLine_tab l : Forall oneLine l -> Forall oneLine (map tab l).
Proof.
  intros H. induction H as [|x l Hx _ IH]; [constructor|]. cbn [map]. constructor; [|done]. apply oneLine_app. split; [|done]. unfold oneLine. intros X. apply elem_of_list_singleton in X. done.
Qed.
Lemma oneLine_nil : oneLine [].
Proof. apply not_elem_of_nil. Qed.
Lemma oneLine_ext e : extension e -> oneLine e.
Proof.
  intros (w & -> & _ & H) X. apply elem_of_cons in X as [?|X]; [done|]. rewrite Forall_forall in H. specialize (H _ X). destruct H as [H|H]; vm_compute in H; done.
Qed.
Lemma oneLine_path p : oneLine p -> oneLine (pathText p).
Proof.
  intros H. destruct (pathText_eq p) as [[_ ->]|[_ ->]]; [apply oneLine_nil|]. apply oneLine_app. split; [|apply oneLine_app; split; [done|]]; intros X; by apply elem_of_list_singleton in X.
Qed.
Ltac no10 := let X := fresh in intros X; vm_compute in X; repeat (apply elem_of_cons in X as [X|X]; [discriminate|]); by apply elem_of_nil in X.
Lemma oneLine_attach p l : oneLine p -> Forall oneLine l -> Forall oneLine (attach p l).
Proof. intros Hp H. destruct H as [|x l Hx H]; cbn [attach]; [by constructor|]. constructor; [|done]. by apply oneLine_app. Qed.
Lemma listing_oneLine ms rs bs : Forall macroPlain ms -> Forall rulePlain rs -> Forall blockPlain bs -> Forall oneLine (listingL ms rs bs).
Proof.
  intros HM HR HB. unfold listingL.
  assert (Hcmd : forall l, Forall (fun c => oneLine (c_line c)) l -> Forall oneLine (map tab (map c_line l))).
  { intros l H. apply oneLine_tab. by apply Forall_map. }
  assert (L1 : Forall oneLine [s2q "MACROS:"; []]) by (repeat constructor; [no10|apply oneLine_nil]).
  assert (L2 : Forall oneLine [s2q "INFERENCE RULES:"; []]) by (repeat constructor; [no10|apply oneLine_nil]).
  assert (L3 : Forall oneLine [s2q "TARGETS:"; []]) by (repeat constructor; [no10|apply oneLine_nil]).
  apply Forall_app; split; [done|]. apply Forall_app; split.
  { apply Forall_map. eapply Forall_impl; [exact HM|]. intros p (_ & H1 & H2). unfold macroL. rewrite !oneLine_app. split_and!; try done. no10. }
  constructor; [apply oneLine_nil|]. apply Forall_app; split; [done|]. apply Forall_app; split.
  { apply Forall_concat, Forall_map. eapply Forall_impl; [exact HR|]. intros r ((s & i & [(_ & _ & Hfe & _ & Hte) _] & _ & _ & E1 & E2 & _) & _ & _ & H1 & H2 & H3). unfold ruleL. constructor.
    - unfold ruleHead. rewrite !oneLine_app. rewrite E1, E2. split_and!; [by apply oneLine_path|by apply oneLine_ext|by apply oneLine_path|by apply oneLine_ext|]. destruct (r_batch r); no10.
    - apply Forall_app; split; [by apply Hcmd|]. constructor; [apply oneLine_nil|constructor]. }
  constructor; [apply oneLine_nil|]. apply Forall_app; split; [done|].
  apply Forall_concat, Forall_map. eapply Forall_impl; [exact HB|]. intros b (_ & H1 & H2 & H3). unfold blockL. constructor.
  - apply oneLine_app. split; [done|]. no10.
  - apply oneLine_attach; [no10|]. apply Forall_app; split.
    + apply oneLine_tab. eapply Forall_impl; [exact H2|]. by intros d [? _].
    + apply oneLine_attach; [no10|]. apply Forall_app; split; [by apply Hcmd|]. constructor; [apply oneLine_nil|constructor].
Qed.
Lemma listing_inj ms rs bs ms' rs' bs' : Forall macroPlain ms -> Forall rulePlain rs -> Forall blockPlain bs ->
  Forall macroPlain ms' -> Forall rulePlain rs' -> Forall blockPlain bs' -> listing ms rs bs = listing ms' rs' bs' ->
  map macroSaid ms = map macroSaid ms' /\ map ruleSaid rs = map ruleSaid rs' /\ map blockSaid bs = map blockSaid bs'.
Proof.
  intros HM HR HB HM' HR' HB' E. rewrite !listing_lines in E.
  apply unlines_inj in E; [|by apply listing_oneLine|by apply listing_oneLine]. unfold listingL in E. apply app_inv_head in E.
  apply macros_inj in E as [E1 E]; [|done|done]. apply app_inv_head in E. apply rules_inj in E as [E2 E]; [|done|done]. apply app_inv_head in E.
  apply blocks_inj in E as E3; [|done|done]. done.
Qed.
