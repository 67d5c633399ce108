(** Proofs about the grammar of makefiles. *)
From Coq Require Import Ascii String.
From stdpp Require Import prelude gmap.
From RecordUpdate Require Import RecordSet.
From Verif Require Import Base Data Macro MacroSpec MacroProofs MkLineSpec MkLineProofs Cmd CmdSpec CmdProofs CmdProps InlineSpec InlineProofs FileMacros UpToDate Front MkParse MkLineProps RulesProofs WrittenSpec.
Import RecordSetNotations.
Local Open Scope N_scope.

(** ** Text *)
Lemma spaces_trimmed (s : list N) : trimmed s = [] <-> spaces s.
Proof.
  split.
  - intros H. destruct (trimmed_trims s) as (a & b & E & Ha & Hb & _). rewrite H in E. cbn in E. rewrite E. by apply Forall_app.
  - intros H. apply trims_trimmed. exists s, []. split_and!; [by rewrite app_nil_r|done|constructor|done|done].
Qed.
Lemma isEmpty_spec (s : list N) : isEmpty s = true <-> s = [].
Proof. by destruct s. Qed.
Lemma spaces_empty (s : list N) : isEmpty (trimmed s) = true <-> spaces s.
Proof. by rewrite isEmpty_spec, spaces_trimmed. Qed.
Lemma spaces_empty_false (s : list N) : ~ spaces s -> isEmpty (trimmed s) = false.
Proof. intros H. destruct (isEmpty _) eqn:E; [|done]. by apply spaces_empty in E. Qed.
Lemma dollar_space : isSpace 36 = false.
Proof. done. Qed.
Lemma spaces_expand mt dep (s e : qstr) : spaces s -> MacroSpec.expandsTo mt dep s e -> e = s.
Proof.
  intros H He. apply expand_ok_iff in He. rewrite expand_plain in He; [by injection He as ->|].
  intros Hi. unfold spaces in H. rewrite Forall_forall in H. by specialize (H _ Hi).
Qed.
Lemma toNative_map (s : list N) : toNative s = backslashes s.
Proof.
  unfold toNative, backslashes, replaceChar. apply map_ext. intros c. change (ch "/") with 47. change (ch "\") with 92.
  destruct (decide (c = 47)) as [->|n]; [done|]. by apply N.eqb_neq in n as ->.
Qed.
Lemma wildcard_none w (s : list N) : ch "*" ∉ s -> ch "?" ∉ s -> containsWildcard w s = false.
Proof.
  revert w. induction s as [|c s IH]; intros w H1 H2; cbn [containsWildcard]; [done|]. apply not_elem_of_cons in H1 as [A1 H1], H2 as [A2 H2].
  destruct (c =? magicEscape); [by apply IH|]. destruct w; [|by apply IH..]. change (ch "*") with 42 in A1. change (ch "?") with 63 in A2.
  destruct (N.eqb_spec c 42); [by destruct A1|]. destruct (N.eqb_spec c 63); [by destruct A2|]. by apply IH.
Qed.
Lemma wildcard_id glob isRel dir ds : Forall noWildcard ds -> flat_map (expandWildcard glob isRel dir) ds = ds.
Proof.
  induction 1 as [|d ds [H1 H2] _ IH]; [done|]. cbn [flat_map]. rewrite IH. unfold expandWildcard. by rewrite wildcard_none.
Qed.
Lemma unescaped_det s : forall r r', unescaped s r -> unescaped s r' -> r = r'.
Proof.
  induction s as [s IH] using (induction_ltof1 _ (@List.length N)). unfold ltof in IH. intros r r' H H'.
  destruct H as [|s r H|c s r Hn H]; inversion H'; subst; try done.
  - f_equal. apply (IH s); [cbn; lia|done|done].
  - match goal with X : ~ _ |- _ => destruct X end. done.
  - by destruct Hn.
  - f_equal. apply (IH s); [cbn; lia|done|done].
Qed.

(** ** Directives *)
Definition dotKey (d : dot) : qstr := drop 1 (dotName d).
Lemma spaces_drop (sp r : list N) : spaces sp -> (forall c, head r = Some c -> isSpace c = false) -> dropSpaces (sp ++ r) = r.
Proof. intros H1 H2. rewrite dropSpaces_app by done. by apply dropSpaces_head. Qed.
Lemma startsWith_app (p s : list N) : startsWith p s = true <-> exists r, s = p ++ r.
Proof.
  revert s. induction p as [|c p IH]; intros s; [split; [by exists s|done]|]. destruct s as [|x s]; cbn; [split; [done|by intros []]|].
  rewrite andb_true_iff, IH, N.eqb_eq. split.
  - intros [-> [r ->]]. by exists r.
  - intros [r [= -> ->]]. split; [done|by exists r].
Qed.
Lemma dot_read e d v : dotLine e d v -> dotDirective e = Some (dotKey d, v).
Proof.
  intros (sp & Hs & ->). change (s2q ":") with [58].
  assert (D : dropSpaces (sp ++ [58] ++ v) = 58 :: v) by (by apply spaces_drop; [|intros c [= <-]]).
  assert (E : forall r, dotDirective (dotName d ++ r) = match dropSpaces r with c :: v => if c =? 58 then Some (dotKey d, v) else None | [] => None end) by (by destruct d).
  rewrite E. clear E. unfold qstr, qchar in *. by rewrite D.
Qed.
Lemma dot_sound e k v : dotDirective e = Some (k, v) -> exists d, dotKey d = k /\ dotLine e d v.
Proof.
  unfold dotDirective. destruct e as [|c rest]; [done|]. destruct (N.eqb_spec c 46) as [->|]; [|done]. cbn [negb].
  destruct (List.find _ _) as [key|] eqn:E; [|done]. apply find_some in E as [Hi Hs]. apply startsWith_app in Hs as [r ->].
  change (skipn (List.length key) (key ++ r)) with (drop (List.length key) (key ++ r)). rewrite drop_app.
  destruct (dropSpaces_split r) as (a & Ha & Er & _). destruct (dropSpaces r) as [|c v']; [done|].
  destruct (N.eqb_spec c 58) as [->|]; [|done]. intros [= <- <-].
  assert (exists d, dotKey d = key) as [d Hd].
  { cbn [In] in Hi. destruct Hi as [<-|[<-|[<-|[<-|[]]]]]; [by exists DIgnore|by exists DPrecious|by exists DSilent|by exists DSuffixes]. }
  exists d. split; [done|]. exists a. split; [done|]. rewrite Er, <- Hd. by destruct d.
Qed.
Lemma wordsOf_nil ws : wordsOf [] ws -> ws = [].
Proof.
  intros H. inversion H as [|sp w rest ws' H1 H2 H3 H4 H5 E]; subst; [done|]. apply app_nil in E as [_ E]. by apply app_nil in E as [E _].
Qed.
Lemma words_go (s : list N) : forall (cur : list N), Forall (fun c => isSpace c = false) cur -> forall ws, wordsOf (cur ++ s) ws ->
  List.filter (fun w => negb (isEmpty w)) (splitSpaceGo cur s) = ws.
Proof.
  induction s as [|c s IH]; intros cur Hc ws H.
  - rewrite app_nil_r in H. cbn [splitSpaceGo List.filter]. destruct cur as [|x cur].
    + by apply wordsOf_nil in H as ->.
    + cbn. inversion H as [sp H1|sp w rest ws' H1 H2 H3 H4 H5 E]; subst.
      { apply Forall_cons in H1 as [H1 _]. apply Forall_cons in Hc as [Hc _]. congruence. }
      destruct sp as [|y sp]. 2:{ injection E as -> _. apply Forall_cons in H1 as [H1 _]. apply Forall_cons in Hc as [Hc _]. congruence. }
      cbn in E. destruct rest as [|y rest].
      * rewrite app_nil_r in E. subst. apply wordsOf_nil in H5 as ->. cbn. by rewrite app_nil_r.
      * exfalso. specialize (H4 y eq_refl). assert (Hy : y ∈ x :: cur) by (rewrite <- E; apply elem_of_app; right; constructor).
        rewrite Forall_forall in Hc. specialize (Hc _ Hy). congruence.
  - cbn [splitSpaceGo]. destruct (isSpace c) eqn:Ec.
    2:{ apply IH; [apply Forall_app; split; [done|by constructor]|]. by rewrite <- app_assoc. }
    destruct cur as [|x cur].
    + cbn [List.filter isEmpty negb]. apply (IH []); [constructor|]. cbn in H |- *.
      inversion H as [sp H1|sp w rest ws' H1 H2 H3 H4 H5 E]; subst.
      { apply Forall_cons in H1 as [_ H1]. by constructor. }
      destruct sp as [|y sp]. { cbn in E. destruct w; [done|]. injection E as -> _. apply Forall_cons in H3 as [H3 _]. congruence. }
      injection E as -> <-. apply Forall_cons in H1 as [_ H1]. by constructor.
    + cbn [List.filter isEmpty negb]. inversion H as [sp H1|sp w rest ws' H1 H2 H3 H4 H5 E]; subst.
      { cbn in H1. apply Forall_cons in H1 as [H1 _]. apply Forall_cons in Hc as [Hc _]. congruence. }
      destruct sp as [|y sp]. 2:{ cbn in E. injection E as -> _. apply Forall_cons in H1 as [H1 _]. apply Forall_cons in Hc as [Hc _]. congruence. }
      cbn [app] in E. assert (w = x :: cur /\ rest = c :: s) as [-> ->].
      { clear -E Hc H3 Ec H4. change (x :: cur ++ c :: s) with ((x :: cur) ++ c :: s) in E. revert E Hc H3. generalize (x :: cur). clear x cur. intros l. revert w.
        induction l as [|y l IH]; intros w E Hc H3; destruct w as [|z w].
        - cbn in E. by subst.
        - exfalso. cbn in E. injection E as -> _. apply Forall_cons in H3 as [H3 _]. congruence.
        - exfalso. cbn in E. subst. specialize (H4 y eq_refl). apply Forall_cons in Hc as [Hc _]. congruence.
        - cbn in E. injection E as -> E. apply Forall_cons in H3 as [_ H3]. apply Forall_cons in Hc as [_ Hc]. destruct (IH w E Hc H3) as [-> ->]. done. }
      f_equal. apply (IH []); [constructor|]. cbn.
      inversion H5 as [sp H6|sp w' rest ws2 H6 H7 H8 H9 H10 E2]; subst.
      { apply Forall_cons in H6 as [_ H6]. by constructor. }
      destruct sp as [|y sp]. { cbn in E2. destruct w'; [done|]. injection E2 as -> _. apply Forall_cons in H8 as [H8 _]. congruence. }
      injection E2 as -> <-. apply Forall_cons in H6 as [_ H6]. by constructor.
Qed.
Lemma words_spec (v : list N) ws : wordsOf v ws -> words v = ws.
Proof. intros H. by apply words_go. Qed.
Lemma once_add l r ws : once l r -> once (l ++ ws) (fold_left (fun l w => if containsStr w l then l else l ++ [w]) ws r).
Proof.
  assert (Hin : forall l r x, once l r -> x ∈ r <-> x ∈ l).
  { induction 1 as [|l0 r0 w H IH Hw|l0 r0 w H IH Hw]; [done| |].
    - by rewrite !elem_of_app, IH.
    - rewrite elem_of_app, elem_of_list_singleton, IH. split; [by left|]. intros [?| ->]; done. }
  assert (HC : forall w l, containsStr w l = true <-> w ∈ l).
  { intros w l0. unfold containsStr. rewrite existsb_exists. split.
    - intros (x & Hx & E). rewrite qeqb_dec in E. apply bool_decide_eq_true in E. subst. by apply elem_of_list_In.
    - intros H. exists w. split; [by apply elem_of_list_In|]. rewrite qeqb_dec. by apply bool_decide_eq_true. }
  revert l r. induction ws as [|w ws IH]; intros l r H; cbn [fold_left]; [by rewrite app_nil_r|].
  change (w :: ws) with ([w] ++ ws). rewrite app_assoc. apply IH. destruct (containsStr w r) eqn:E.
  - apply on_old; [done|]. apply HC in E. by apply (Hin l r w H).
  - apply on_new; [done|]. intros Hw. apply (Hin l r w H), HC in Hw. congruence.
Qed.

(** ** Inference rules *)
Lemma isWord_spec c : MkParse.isWord c = true <-> wordChar c.
Proof. unfold MkParse.isWord, wordChar. change (ch "_") with 95. by rewrite orb_true_iff, N.eqb_eq. Qed.
Lemma word_not c : wordChar c -> c <> 46 /\ c <> 123 /\ c <> 125 /\ c <> 58.
Proof. intros [H| ->]; [|done]. split_and!; intros ->; done. Qed.
Lemma words_all (w : list N) : forallb MkParse.isWord w = true <-> Forall wordChar w.
Proof. rewrite forallb_forall, Forall_forall. setoid_rewrite isWord_spec. by setoid_rewrite elem_of_list_In. Qed.
Lemma lastDot_app (p w : list N) : Forall wordChar w -> lastIndexOfChar 46 (p ++ 46 :: w) = Some (List.length p).
Proof.
  intros H. apply MacroProofs.lastIndex_app. intros Hi. rewrite Forall_forall in H. by destruct (word_not _ (H _ Hi)).
Qed.
Lemma lastIndex_split c (s : list N) i : lastIndexOfChar c s = Some i -> s = take i s ++ c :: drop (S i) s /\ c ∉ drop (S i) s.
Proof.
  revert i. induction s as [|x s IH]; intros i; cbn [lastIndexOfChar]; [done|]. destruct (lastIndexOfChar c s) as [k|] eqn:E.
  - intros [= <-]. destruct (IH k eq_refl) as [E1 E2]. cbn. split; [by f_equal|done].
  - destruct (N.eqb_spec x c) as [->|]; [|done]. intros [= <-]. cbn. rewrite drop_0. split; [done|]. by apply MacroProofs.lastIndex_none.
Qed.
Lemma cutExt_spec (s p e : list N) : cutExt s = Some (p, e) <-> s = p ++ e /\ extension e.
Proof.
  unfold cutExt. split.
  - destruct (lastIndexOfChar 46 s) as [i|] eqn:E; [|done]. apply lastIndex_split in E as [E _].
    change (skipn (S i) s) with (drop (S i) s). change (skipn i s) with (drop i s).
    destruct (isEmpty (drop (S i) s)) eqn:E1; [done|]. destruct (forallb MkParse.isWord (drop (S i) s)) eqn:E2; [|done]. cbn [orb negb].
    intros [= <- <-]. split; [symmetry; apply take_drop|]. exists (drop (S i) s). split_and!.
    + rewrite E at 1. rewrite drop_app_alt; [done|]. rewrite take_length. enough (i < List.length s)%nat by lia.
      apply (f_equal (@List.length N)) in E. rewrite app_length, take_length in E. cbn in E. rewrite drop_length in E. lia.
    + intros H. by rewrite H in E1.
    + by apply words_all.
  - intros (-> & w & -> & Hw & Ha). change (ch ".") with 46. pose proof (lastDot_app p w Ha) as E. unfold qstr, qchar in *. rewrite E.
    replace (skipn (S (List.length p)) (p ++ 46 :: w)) with w.
    2:{ change (w = drop (S (List.length p)) (p ++ 46 :: w)). replace (S (List.length p)) with (List.length p + 1)%nat by lia. rewrite <- drop_drop, drop_app. done. }
    pose proof (proj2 (words_all w) Ha) as Ew. unfold qstr, qchar in *. rewrite Ew. destruct w as [|c w]; [done|]. cbn [isEmpty orb negb].
    change (skipn (List.length p) (p ++ 46 :: c :: w)) with (drop (List.length p) (p ++ 46 :: c :: w)). unfold qleft.
    change (firstn (List.length p) (p ++ 46 :: c :: w)) with (take (List.length p) (p ++ 46 :: c :: w)). by rewrite take_app, drop_app.
Qed.
Lemma optBraces_spec (s : list N) : optBraces s = true <-> braces s.
Proof.
  unfold optBraces, braces. change (ch "{") with 123. change (ch "}") with 125. destruct s as [|c s]; [split; [by left|done]|]. cbn [isEmpty orb]. split.
  - rewrite !andb_true_iff. intros [[H1 H2] H3]. right. cbn in H1. rewrite andb_true_r in H1. apply N.eqb_eq in H1 as <-.
    apply LineReaderProofs.endsWith_last in H2. destruct s as [|x s] using rev_ind; [done|]. exists s. change (123 :: s ++ [x]) with ((123 :: s) ++ [x]) in H2. rewrite last_snoc in H2. by injection H2 as ->.
  - intros [H|(q & E)]; [done|]. injection E as -> ->. rewrite !andb_true_iff. split_and!; [done| |].
    + apply LineReaderProofs.endsWith_last. change (123 :: q ++ [125]) with ((123 :: q) ++ [125]). by rewrite last_snoc.
    + apply Nat.leb_le. cbn. rewrite app_length. cbn. lia.
Qed.
Lemma pathExt_spec (s p e : list N) : pathExt s = Some (p, e) <-> s = p ++ e /\ extension e /\ braces p.
Proof.
  unfold pathExt. split.
  - destruct (cutExt s) as [[p' e']|] eqn:E; [|done]. destruct (optBraces p') eqn:Eb; [|done]. intros [= -> ->]. apply cutExt_spec in E as [E1 E2]. by apply optBraces_spec in Eb.
  - intros (E & He & Hb). assert (cutExt s = Some (p, e)) as -> by (by apply cutExt_spec). apply optBraces_spec in Hb. by rewrite Hb.
Qed.
(** A path can begin at [j]. *)
Definition cutAt (s p e : list N) (j : nat) : Prop := take j s = p ++ e /\ extension e /\ braces p /\ head (drop j s) = Some 123 /\ (2 <= List.length (drop j s))%nat.
Lemma cutBraces_spec (s : list N) n :
  match cutBraces n s with
  | Some (p, e, t) => exists j, (j <= n)%nat /\ t = drop j s /\ cutAt s p e j /\ forall j' p' e', (j < j' <= n)%nat -> ~ cutAt s p' e' j'
  | None => forall j' p' e', (j' <= n)%nat -> ~ cutAt s p' e' j'
  end.
Proof.
  assert (Hat : forall k p e, (if startsWith [123] (skipn k s) && (2 <=? List.length (skipn k s))%nat then pathExt (qleft k s) else None) = Some (p, e) <-> cutAt s p e k).
  { intros k p e. change (skipn k s) with (drop k s). change (qleft k s) with (take k s). unfold cutAt. split.
    - destruct (startsWith [123] (drop k s)) eqn:E1; [|done]. destruct (2 <=? List.length (drop k s))%nat eqn:E2; [|done]. cbn [andb].
      intros H. apply pathExt_spec in H as (H1 & H2 & H3). apply Nat.leb_le in E2. split_and!; try done.
      destruct (drop k s) as [|c l]; [done|]. cbn in E1. rewrite andb_true_r in E1. by apply N.eqb_eq in E1 as <-.
    - intros (H1 & H2 & H3 & H4 & H5). apply Nat.leb_le in H5. rewrite H5. destruct (drop k s) as [|c l]; [done|]. injection H4 as ->. cbn [startsWith andb N.eqb Pos.eqb].
      by apply pathExt_spec. }
  assert (HatN : forall k, (if startsWith [123] (skipn k s) && (2 <=? List.length (skipn k s))%nat then pathExt (qleft k s) else None) = None -> forall p e, ~ cutAt s p e k).
  { intros k H p e Hc. apply Hat in Hc. congruence. }
  set (X := fun k => if startsWith [123] (skipn k s) && (2 <=? List.length (skipn k s))%nat then pathExt (qleft k s) else None).
  assert (EX : forall m, cutBraces m s = match X m with Some (p, e) => Some (p, e, drop m s) | None => match m with O => None | S m' => cutBraces m' s end end) by (by intros []).
  change (forall k p e, X k = Some (p, e) <-> cutAt s p e k) in Hat. change (forall k, X k = None -> forall p e, ~ cutAt s p e k) in HatN. clearbody X.
  induction n as [|n IH]; rewrite EX.
  - destruct (X 0%nat) as [[p e]|] eqn:E.
    + exists 0%nat. split_and!; [done|done|by apply Hat|lia].
    + intros j' p' e' Hj. assert (j' = 0%nat) as -> by lia. by apply HatN.
  - destruct (X (S n)) as [[p e]|] eqn:E.
    + exists (S n). split_and!; [done|done|by apply Hat|lia].
    + destruct (cutBraces n s) as [[[p e] t]|].
      * destruct IH as (j & H1 & H2 & H3 & H4). exists j. split_and!; [lia|done|done|]. intros j' p' e' Hj. destruct (decide (j' = S n)) as [->|]; [by apply HatN|]. apply H4. lia.
      * intros j' p' e' Hj. destruct (decide (j' = S n)) as [->|]; [by apply HatN|]. apply IH. lia.
Qed.
Lemma ext_chars e : extension e -> forall i c, e !! i = Some c -> c <> 123 /\ c <> 125 /\ c <> 58.
Proof.
  intros (w & -> & _ & H) i c Hi. change (ch ".") with 46 in Hi. destruct i as [|i]; [by injection Hi as <-|]. cbn in Hi. rewrite Forall_lookup in H.
  destruct (word_not _ (H _ _ Hi)) as (_ & ? & ? & ?). done.
Qed.
Lemma ext_last e : extension e -> exists e' c, e = e' ++ [c] /\ wordChar c.
Proof.
  intros (w & -> & Hn & H). destruct w as [|x w] using rev_ind; [done|]. exists (ch "." :: w), x. split; [done|]. apply Forall_app in H as [_ H]. by apply Forall_cons in H as [H _].
Qed.
Lemma ext_length e : extension e -> (2 <= List.length e)%nat.
Proof. intros (w & -> & Hn & _). destruct w; [done|]. cbn. lia. Qed.
Definition capsOf (r : irule) : qstr * qstr * qstr * qstr * qstr := (ir_fromPath r, ir_fromExt r, ir_toPath r, ir_toExt r, colons (ir_double r)).
(** What comes before the colons. *)
Lemma colons_cut (s x : list N) : extension x -> forall p d, s = p ++ x ++ colons d ->
  (if endsWith [58; 58] s then [58; 58] else if endsWith [58] s then [58] else []) = colons d /\ qchop (List.length (colons d)) s = p ++ x.
Proof.
  intros Hx p d ->. destruct (ext_last _ Hx) as (x' & c & -> & Hc). apply word_not in Hc as (_ & _ & _ & Hc). split.
  - destruct d; unfold colons.
    + change (s2q "::") with [58; 58]. replace (endsWith [58; 58] _) with true; [done|]. symmetry. apply LineReaderProofs.endsWith_spec. exists (p ++ x' ++ [c]). by rewrite <- !app_assoc.
    + change (s2q ":") with [58]. replace (endsWith [58; 58] _) with false.
      * replace (endsWith [58] _) with true; [done|]. symmetry. apply LineReaderProofs.endsWith_spec. exists (p ++ x' ++ [c]). by rewrite <- !app_assoc.
      * symmetry. apply not_true_iff_false. rewrite LineReaderProofs.endsWith_spec. intros [t Et]. change [58; 58] with ([58] ++ [58]) in Et. rewrite !app_assoc in Et.
        apply app_inj_tail in Et as [Et _]. rewrite <- !app_assoc in Et. change ((p ++ x') ++ [c] = t ++ [58]) in Et || rewrite app_assoc in Et. apply app_inj_tail in Et as [_ Et]. done.
  - unfold qchop. rewrite (app_assoc p). rewrite app_length. match goal with |- firstn ?n ?l = _ => change (take n l = p ++ x' ++ [c]) end. apply take_app_alt. unfold qstr, qchar in *. lia.
Qed.
Lemma parts_lookup (p e t : list N) i : (List.length p <= i < List.length p + List.length e)%nat -> (p ++ e ++ t) !! i = e !! (i - List.length p)%nat.
Proof. intros H. rewrite lookup_app_r by lia. rewrite lookup_app_l by lia. done. Qed.
(** Two ways to cut. *)
Lemma cut_order (s p e p' e' : list N) j j' : cutAt s p e j -> cutAt s p' e' j' -> (j < j')%nat -> (List.length p < List.length p')%nat.
Proof.
  intros (E & He & Hb & Hh & Hl) (E' & He' & Hb' & Hh' & Hl') Hj. apply Nat.lt_nge. intros Hp.
  rewrite drop_length in Hl, Hl'.
  assert (L : List.length (p ++ e) = j) by (rewrite <- E, take_length; lia). assert (L' : List.length (p' ++ e') = j') by (rewrite <- E', take_length; lia).
  rewrite app_length in L, L'. pose proof (ext_length _ He).
  assert (Hs : s !! j = Some 123). { rewrite <- (take_drop j s). rewrite lookup_app_r; rewrite take_length; [|lia]. rewrite Nat.min_l by lia. rewrite Nat.sub_diag. by rewrite <- head_lookup. }
  rewrite <- (take_drop j' s), E' in Hs. rewrite <- app_assoc in Hs. rewrite parts_lookup in Hs by lia. by destruct (ext_chars _ He' _ _ Hs).
Qed.
Lemma cut_det (s p e p' e' : list N) j : cutAt s p e j -> cutAt s p' e' j -> p = p' /\ e = e'.
Proof.
  intros (E & He & Hb & _) (E' & He' & Hb' & _). assert (H1 : cutExt (take j s) = Some (p, e)) by (by apply cutExt_spec). assert (H2 : cutExt (take j s) = Some (p', e')) by (by apply cutExt_spec).
  rewrite H1 in H2. by injection H2 as -> ->.
Qed.
Lemma braces_cases p : braces p -> p = [] \/ (head p = Some 123 /\ last p = Some 125 /\ (2 <= List.length p)%nat).
Proof.
  intros [->|[q ->]]; [by left|]. right. change (ch "{") with 123. change (ch "}") with 125. split_and!; [done| |cbn; rewrite app_length; cbn; lia].
  change (123 :: q ++ [125]) with ((123 :: q) ++ [125]). by rewrite last_snoc.
Qed.
Lemma head_last_braces (t : list N) : head t = Some 123 -> last t = Some 125 -> braces t.
Proof.
  intros H1 H2. right. destruct t as [|c t]; [done|]. injection H1 as ->. destruct t as [|x t] using rev_ind; [done|].
  change (123 :: t ++ [x]) with ((123 :: t) ++ [x]) in H2. rewrite last_snoc in H2. injection H2 as ->. by exists t.
Qed.
(** The cut that belongs to a way to read the line. *)
Lemma parts_cut s r : ruleParts s r -> ir_toPath r <> [] ->
  cutAt (ir_fromPath r ++ ir_fromExt r ++ ir_toPath r) (ir_fromPath r) (ir_fromExt r) (List.length (ir_fromPath r ++ ir_fromExt r)).
Proof.
  intros (_ & H1 & H2 & H3 & _) Hn. apply braces_cases in H3 as [?|(H3 & _ & H5)]; [done|]. unfold cutAt. rewrite app_assoc, take_app, drop_app. by split_and!.
Qed.
Lemma ends_brace (p e t : list N) : extension e -> braces t -> endsWith [125] (p ++ e ++ t) = true <-> t <> [].
Proof.
  intros He Hb. rewrite LineReaderProofs.endsWith_last. apply braces_cases in Hb as [->|(H1 & H2 & H3)].
  - split; [|done]. rewrite app_nil_r. destruct (ext_last _ He) as (e' & c & -> & Hc). rewrite app_assoc, last_snoc. intros [= ->]. by apply word_not in Hc as (_ & _ & ? & _).
  - split; [by intros _ ->|]. intros _. by rewrite !last_app, H2.
Qed.
Lemma last_suffix (a b t : list N) x : last (a ++ b ++ t) = Some x -> (2 <= List.length t)%nat -> last t = Some x.
Proof. rewrite !last_app. destruct (last t) eqn:E; [done|]. apply last_None in E as ->. cbn. lia. Qed.
Lemma rule_sound s caps : inferenceRule s = Some caps -> exists r, caps = capsOf r /\ ruleParts s r.
Proof.
  unfold inferenceRule. cbv zeta. set (cl := if endsWith [58; 58] s then _ else _).
  assert (Hcl : cl = [] \/ exists d, cl = colons d /\ s = qchop (List.length cl) s ++ cl).
  { unfold cl. assert (G : forall l, endsWith l s = true -> s = qchop (List.length l) s ++ l).
    { intros l H. apply LineReaderProofs.endsWith_spec in H as [t ->]. unfold qchop. match goal with |- context [firstn ?n ?x] => change (firstn n x) with (take n x) end.
      rewrite app_length. f_equal. symmetry. apply take_app_alt. unfold qstr, qchar in *. lia. }
    destruct (endsWith [58; 58] s) eqn:E; [right; exists true; split; [done|by apply G]|]. destruct (endsWith [58] s) eqn:E'; [right; exists false; split; [done|by apply G]|by left]. }
  destruct Hcl as [->|(d & Ed & Es)]; [done|]. replace (isEmpty cl) with false by (rewrite Ed; by destruct d).
  destruct (cutExt (qchop (List.length cl) s)) as [[r te]|] eqn:E; [|done]. apply cutExt_spec in E as [E He]. rewrite E in Es. clearbody cl. subst cl.
  destruct (endsWith [125] r) eqn:Eb.
  - pose proof (cutBraces_spec r (List.length r)) as HC. destruct (cutBraces (List.length r) r) as [[[p e] t]|]; [|done]. intros [= <-].
    destruct HC as (j & Hj & Et & (H1 & H2 & H3 & H4 & H5) & _). exists (Irule p e t te d). split; [done|]. unfold ruleParts. cbn [ir_fromPath ir_fromExt ir_toPath ir_toExt ir_double].
    assert (Er : r = p ++ e ++ t) by (unfold qstr, qchar in *; rewrite Et, app_assoc, <- H1; symmetry; apply take_drop).
    split_and!; try done.
    + rewrite Es, Er, <- !app_assoc. done.
    + apply LineReaderProofs.endsWith_last in Eb. apply head_last_braces; [by rewrite Et|]. rewrite Er in Eb. rewrite <- Et in H5. by eapply last_suffix.
  - destruct (pathExt r) as [[p e]|] eqn:Ep; [|done]. intros [= <-]. apply pathExt_spec in Ep as (Er & H2 & H3). exists (Irule p e [] te d). split; [done|].
    unfold ruleParts. cbn [ir_fromPath ir_fromExt ir_toPath ir_toExt ir_double]. split_and!; try done; [|by left]. rewrite Es, Er, <- !app_assoc. done.
Qed.
Lemma rule_complete s r : ruleLine s r -> inferenceRule s = Some (capsOf r).
Proof.
  intros [HP HM]. pose proof HP as (Es & H1 & H2 & H3 & H4). unfold inferenceRule. cbv zeta.
  destruct (colons_cut s (ir_toExt r) H4 (ir_fromPath r ++ ir_fromExt r ++ ir_toPath r) (ir_double r)) as [E1 E2]; [by rewrite <- !app_assoc|].
  unfold qstr, qchar in *. rewrite E1, E2. replace (isEmpty (colons (ir_double r))) with false by (by destruct (ir_double r)).
  assert (E3 : cutExt ((ir_fromPath r ++ ir_fromExt r ++ ir_toPath r) ++ ir_toExt r) = Some (ir_fromPath r ++ ir_fromExt r ++ ir_toPath r, ir_toExt r)) by (by apply cutExt_spec).
  unfold qstr, qchar in *. rewrite E3. destruct (decide (ir_toPath r = [])) as [Et|Et].
  - replace (endsWith [125] _) with false. 2:{ symmetry. apply not_true_iff_false. intros H. by apply ends_brace in H. }
    rewrite Et, app_nil_r. assert (E4 : pathExt (ir_fromPath r ++ ir_fromExt r) = Some (ir_fromPath r, ir_fromExt r)) by (by apply pathExt_spec).
    unfold qstr, qchar in *. rewrite E4. unfold capsOf. by rewrite Et.
  - replace (endsWith [125] _) with true. 2:{ symmetry. by apply ends_brace. }
    enough (G : cutBraces (List.length (ir_fromPath r ++ ir_fromExt r ++ ir_toPath r)) (ir_fromPath r ++ ir_fromExt r ++ ir_toPath r) = Some (ir_fromPath r, ir_fromExt r, ir_toPath r)).
    { unfold qstr, qchar in *. by rewrite G. }
    pose proof (parts_cut _ _ HP Et) as HC. set (x := ir_fromPath r ++ ir_fromExt r ++ ir_toPath r) in *.
    pose proof (cutBraces_spec x (List.length x)) as HS.
    assert (Hle : (List.length (ir_fromPath r ++ ir_fromExt r) <= List.length x)%nat) by (unfold x; rewrite app_assoc, (app_length (_ ++ _)); unfold qstr, qchar; lia).
    destruct (cutBraces (List.length x) x) as [[[p e] t]|] eqn:EB; [|by destruct (HS _ _ _ Hle HC)].
    destruct HS as (j & Hj & Ht & HC2 & Hmax).
    destruct (Nat.lt_trichotomy j (List.length (ir_fromPath r ++ ir_fromExt r))) as [Hlt|[->|Hlt]].
    + by destruct (Hmax _ _ _ (conj Hlt Hle) HC).
    + destruct (cut_det _ _ _ _ _ _ HC HC2) as [<- <-]. assert (t = ir_toPath r) as ->; [|done]. rewrite Ht. unfold x. by rewrite app_assoc, drop_app.
    + exfalso. pose proof (cut_order _ _ _ _ _ _ _ HC HC2 Hlt) as Hp. destruct HC2 as (K1 & K2 & K3 & K4 & K5).
      specialize (HM (Irule p e t (ir_toExt r) (ir_double r))). cbn [ir_fromPath] in HM. feed specialize HM; [|lia].
      unfold ruleParts. cbn [ir_fromPath ir_fromExt ir_toPath ir_toExt ir_double].
      assert (Ex : x = p ++ e ++ t) by (unfold qstr, qchar in *; rewrite Ht, app_assoc, <- K1; symmetry; apply take_drop).
      split_and!; try done.
      * rewrite Es. transitivity (x ++ ir_toExt r ++ colons (ir_double r)); [unfold x; by rewrite <- !app_assoc|]. by rewrite Ex, <- !app_assoc.
      * apply head_last_braces; [by rewrite Ht|]. assert (Hl : last x = Some 125).
        { unfold x. apply braces_cases in H3 as [?|(_ & H3 & _)]; [done|]. by rewrite !last_app, H3. }
        rewrite Ex in Hl. rewrite <- Ht in K5. by eapply last_suffix.
Qed.
Lemma rule_longest s r : ruleParts s r -> inferenceRule s = Some (capsOf r) -> ruleLine s r.
Proof.
  intros HP HI. split; [done|]. intros r' HP'. pose proof HP as (Es & H1 & H2 & H3 & H4). pose proof HP' as (Es' & H1' & H2' & H3' & H4').
  unfold inferenceRule in HI. cbv zeta in HI.
  destruct (colons_cut s (ir_toExt r') H4' (ir_fromPath r' ++ ir_fromExt r' ++ ir_toPath r') (ir_double r')) as [E1 E2]; [by rewrite <- !app_assoc|].
  unfold qstr, qchar in *. rewrite E1, E2 in HI. replace (isEmpty (colons (ir_double r'))) with false in HI by (by destruct (ir_double r')).
  assert (E3 : cutExt ((ir_fromPath r' ++ ir_fromExt r' ++ ir_toPath r') ++ ir_toExt r') = Some (ir_fromPath r' ++ ir_fromExt r' ++ ir_toPath r', ir_toExt r')) by (by apply cutExt_spec).
  unfold qstr, qchar in *. rewrite E3 in HI. destruct (decide (ir_toPath r' = [])) as [Et|Et].
  - replace (endsWith [125] _) with false in HI. 2:{ symmetry. apply not_true_iff_false. intros H. by apply ends_brace in H. }
    rewrite Et, app_nil_r in HI. assert (E4 : pathExt (ir_fromPath r' ++ ir_fromExt r') = Some (ir_fromPath r', ir_fromExt r')) by (by apply pathExt_spec).
    unfold qstr, qchar in *. rewrite E4 in HI. unfold capsOf in HI. injection HI as E _ _ _ _. by rewrite E.
  - replace (endsWith [125] _) with true in HI. 2:{ symmetry. by apply ends_brace. }
    pose proof (parts_cut _ _ HP' Et) as HC. set (x := ir_fromPath r' ++ ir_fromExt r' ++ ir_toPath r') in *.
    pose proof (cutBraces_spec x (List.length x)) as HS.
    assert (Hle : (List.length (ir_fromPath r' ++ ir_fromExt r') <= List.length x)%nat) by (unfold x; rewrite app_assoc, (app_length (_ ++ _)); unfold qstr, qchar; lia).
    change (match cutBraces (List.length x) x with Some (fromPath, fromExt, toPath) => Some (fromPath, fromExt, toPath, ir_toExt r', colons (ir_double r')) | None => None end = Some (capsOf r)) in HI.
    destruct (cutBraces (List.length x) x) as [[[p e] t]|] eqn:EB; [|done].
    destruct HS as (j & Hj & Ht & HC2 & Hmax). unfold capsOf in HI. injection HI as -> -> _ _ _.
    destruct (Nat.lt_trichotomy j (List.length (ir_fromPath r' ++ ir_fromExt r'))) as [Hlt|[->|Hlt]].
    + by destruct (Hmax _ _ _ (conj Hlt Hle) HC).
    + destruct (cut_det _ _ _ _ _ _ HC HC2) as [Ep _]. by rewrite Ep.
    + apply Nat.lt_le_incl. by eapply cut_order.
Qed.
Lemma rule_none s : (forall r, ~ ruleParts s r) -> inferenceRule s = None.
Proof. intros H. destruct (inferenceRule s) as [c|] eqn:E; [|done]. apply rule_sound in E as (r & _ & E). by destruct (H r). Qed.
Lemma rule_none_conv s : inferenceRule s = None -> forall r, ~ ruleParts s r.
Proof.
  intros HN. assert (G : forall n r, (List.length s - List.length (ir_fromPath r) < n)%nat -> ~ ruleParts s r).
  { induction n as [|n IH]; [lia|]. intros r Hn HP. assert (HL : ruleLine s r); [|by rewrite (rule_complete _ _ HL) in HN].
    split; [done|]. intros r' HP'. apply Nat.le_ngt. intros Hl. apply (IH r'); [|done].
    assert (List.length (ir_fromPath r') <= List.length s)%nat by (destruct HP' as (-> & _); rewrite app_length; lia). lia. }
  intros r. apply (G (S (List.length s))). lia.
Qed.
Lemma rulePath_spec p : braces p -> searchPath p (rulePath p).
Proof.
  assert (S : forall c, isSep c <-> c = 47 \/ c = 92) by done.
  intros [->|[q ->]]; [apply sp_none|]. unfold rulePath. change (ch "{") with 123. change (ch "}") with 125.
  assert (E2 : (2 <=? List.length (123%N :: q ++ [125%N]))%nat = true) by (apply Nat.leb_le; cbn; rewrite app_length; cbn; lia).
  assert (Em : qmid 1 (List.length (123 :: q ++ [125]) - 2) (123 :: q ++ [125]) = q).
  { unfold qmid. cbn [skipn]. change (skipn 0 (q ++ [125])) with (q ++ [125]). match goal with |- firstn ?n ?l = _ => change (take n l = q) end. apply take_app_alt. cbn. rewrite app_length. cbn. lia. }
  unfold qstr, qchar in *. rewrite E2, Em. clear E2. destruct q as [|x q] using rev_ind; [apply sp_empty|]. clear IHq Em.
  replace (isEmpty (q ++ [x])) with false by (by destruct q). unfold removeDirSeparatorAtEnd.
  destruct (decide (isSep x)) as [Hx|Hx].
  - replace (endsWith [47] (q ++ [x]) || endsWith [92] (q ++ [x])) with true.
    2:{ symmetry. rewrite orb_true_iff, !LineReaderProofs.endsWith_last, last_snoc. apply S in Hx as [-> | ->]; [by left|by right]. }
    replace (qchop 1 (q ++ [x])) with q. 2:{ unfold qchop. match goal with |- _ = firstn ?n ?l => change (q = take n l) end. symmetry. apply take_app_alt. rewrite app_length. cbn. lia. }
    change (searchPath (ch "{" :: (q ++ [x]) ++ [ch "}"]) q). rewrite <- app_assoc. by apply sp_sep.
  - replace (endsWith [47] (q ++ [x]) || endsWith [92] (q ++ [x])) with false.
    2:{ symmetry. apply not_true_iff_false. rewrite orb_true_iff, !LineReaderProofs.endsWith_last, last_snoc. intros H. apply Hx, S. destruct H as [[= ->]|[= ->]]; [by left|by right]. }
    apply sp_plain; [by destruct q|]. intros c. rewrite last_snoc. by intros [= <-].
Qed.

(** ** Reading *)
(** No line is a directive and an inference rule. *)
Lemma word_end (w nm x y : list N) : Forall wordChar w -> Forall wordChar nm -> (exists c, head x = Some c /\ ~ wordChar c) -> (exists c, head y = Some c /\ ~ wordChar c) ->
  w ++ x = nm ++ y -> x = y.
Proof.
  intros Hw. revert nm. induction Hw as [|a w Ha _ IH]; intros nm Hn (c & Hc & Nc) (d & Hd & Nd) E.
  - destruct Hn as [|b nm Hb Hn]; [done|]. cbn in E. rewrite E in Hc. injection Hc as ->. done.
  - destruct Hn as [|b nm Hb Hn]; cbn in E; [rewrite <- E in Hd; by injection Hd as ->|]. injection E as -> E. apply (IH nm); [done|by exists c|by exists d|done].
Qed.
Lemma word_space c : wordChar c -> isSpace c = true -> False.
Proof.
  intros [H| ->]; [|done]. unfold isLetterOrNumber, isLetter, isDigit in H. unfold isSpace. rewrite ?orb_true_iff, ?andb_true_iff, ?N.leb_le, ?N.eqb_eq in *. lia.
Qed.
Lemma dot_rule e d v r : dotLine e d v -> ruleParts e r -> False.
Proof.
  intros (sp & Hsp & ED) (E2 & P1 & P2 & P3 & P4). rewrite ED in E2. destruct P1 as [P1|[q P1]]; rewrite P1 in E2; [|by destruct d].
  destruct P2 as (w & P2 & _ & Hw). rewrite P2 in E2. destruct P4 as (w' & P4 & _).
  assert (EN : exists nm, dotName d = ch "." :: nm /\ Forall wordChar nm).
  { destruct d; eexists; (split; [reflexivity|]); apply words_all; by vm_compute. }
  destruct EN as (nm & EN & Hnm). rewrite EN in E2. cbn [app] in E2. injection E2 as E2.
  assert (X : exists c, head (ir_toPath r ++ ir_toExt r ++ colons (ir_double r)) = Some c /\ (c = 123 \/ c = 46)).
  { rewrite P4. destruct P3 as [->|[q' ->]]; [exists 46|exists 123]; split; try done; auto. }
  assert (Y : exists c, head (sp ++ s2q ":" ++ v) = Some c /\ (isSpace c = true \/ c = 58)).
  { destruct Hsp as [|c sp Hc Hs]; [exists 58; split; [done|by right]|]. exists c. split; [done|by left]. }
  assert (E : sp ++ s2q ":" ++ v = ir_toPath r ++ ir_toExt r ++ colons (ir_double r)).
  { apply (word_end nm w); [done|done| | |done].
    - destruct Y as (c & Hc & Nc). exists c. split; [done|]. intros Wc. destruct Nc as [Nc| ->]; [|by destruct (word_not _ Wc) as (_ & _ & _ & ?)]. by apply (word_space _ Wc).
    - destruct X as (c & Hc & Nc). exists c. split; [done|]. intros Wc. apply word_not in Wc as (W1 & W2 & _). by destruct Nc. }
  destruct X as (c & Hc & Nc), Y as (c' & Hc' & Nc'). rewrite E in Hc'. pose proof (eq_trans (eq_sym Hc) Hc') as EC. injection EC as <-. destruct Nc as [-> | ->]; by destruct Nc'.
Qed.

(** The state in which a makefile begins. *)
Definition first (dir : qstr) : rstate := (Mkfile ∅ None dir 0, false, []).
(** The names in rules have no slashes. *)
Lemma namesFor_native mt dep s l : namesFor mt dep s l -> Forall RulesSpec.native l.
Proof. intros (t & x & _ & _ & H). apply C27_names in H as <-. rewrite <- toNative_map. apply splitNames_native; [intros Hi; by apply elem_of_nil in Hi|constructor|apply native_toNative]. Qed.
Lemma says_native k ls k' : says k ls k' -> nativeRules (k_blocks k) -> nativeRules (k_blocks k').
Proof.
  induction 1 as [k|k s mt e ls k' _ _ _ _ IH|k s mt e d v ws ls k' _ _ _ _ _ IH|k s mt e r cls cs ls k' _ _ _ _ _ _ IH|k s mt e double ts ds cmd cs0 ils cls cs ls k' _ _ _ HH _ _ _ _ _ IH]; intros H.
  - done.
  - by apply IH.
  - apply IH. by destruct d.
  - by apply IH.
  - apply IH. cbn [k_blocks set]. apply Forall_app. split; [done|]. constructor; [|constructor]. cbn [pr_targets]. inversion HH; subst. by eapply namesFor_native.
Qed.

Lemma colon_prefix (s : list N) k j : (j < k)%nat -> colonAt (take k s) j <-> colonAt s j.
Proof.
  intros H. unfold colonAt, driveAt. rewrite lookup_take by done. rewrite take_take, Nat.min_l by lia. apply and_iff_compat_l, and_iff_compat_l. apply not_iff_compat. split.
  - intros (i & l & -> & H1 & H2 & H3). rewrite lookup_take in H1 by lia. exists i, l. split_and!; [done|done|done|]. destruct H3 as [?|(m & b & -> & H3 & H4)]; [by left|]. right. rewrite lookup_take in H3 by lia. by exists m, b.
  - intros (i & l & -> & H1 & H2 & H3). exists i, l. rewrite lookup_take by lia. split_and!; [done|done|done|]. destruct H3 as [?|(m & b & -> & H3 & H4)]; [by left|]. right. exists m, b. rewrite lookup_take by lia. done.
Qed.
Lemma header_read s mt double ts ds cmd : ruleHeader (s, mt) double ts ds cmd -> exists l sep pos body,
  removeComments s = (l, sep) /\ findRule l = Some (pos, if double then 2%nat else 1%nat) /\ take pos l = take pos body /\
  match sep with Some k => take k l | None => l end = body /\ match sep, cmd with Some k, Some t => t = drop (S k) l | None, None => True | _, _ => False end /\
  namesFor mt false (take pos body) ts /\ namesFor mt true (drop (pos + if double then 2 else 1) body) ds /\ Forall noWildcard ds.
Proof.
  intros H. inversion H as [s' mt' body cmd' pos double' ts' ds' HC HH HF HD HT HS HW]; subst.
  assert (HL : (if double then 2 else 1)%nat = (if decide (body !! S pos = Some (chr ":")) then 2 else 1)%nat).
  { destruct (decide _) as [E|E]; [apply HD in E as ->; done|]. destruct double; [|done]. by destruct E; apply HD. }
  destruct HC as [s i body H1 H2 H3|s k H1 H2|s H1 H2].
  - destruct (C27_comment s i H1 H2) as (r & Hr & E). rewrite (unescaped_det _ _ _ Hr H3) in E.
    exists body, None, pos, body. split_and!; try done. apply C27_rule. split_and!; done.
  - exists s, (Some k), pos, (take k s). assert (Hk : (pos < k)%nat).
    { destruct HF as [[HF _] _]. apply lookup_lt_Some in HF. rewrite take_length in HF. lia. }
    split_and!; try done; [by apply C27_command| |].
    + apply C27_rule. split_and!.
      * destruct HF as [F1 F2]. split; [by apply colon_prefix in F1|]. intros j Hj Hc. apply (F2 j Hj). apply colon_prefix; [lia|done].
      * intros c Hc. apply (HH c). destruct s; [done|]. destruct k; [lia|]. done.
      * rewrite HL. assert (E : take k s !! S pos = Some (chr ":") <-> s !! S pos = Some (chr ":")).
        { destruct (decide (S pos = k)) as [Ek|Ek]; [|rewrite lookup_take by lia; done]. subst k. split.
          - intros E. apply lookup_lt_Some in E. rewrite take_length in E. lia.
          - intros E. destruct H1 as [[H1 _] _]. rewrite H1 in E. done. }
        by apply decide_ext.
    + by rewrite take_take, Nat.min_l by lia.
  - exists s, None, pos, s. split_and!; try done; [by apply C27_neither|]. apply C27_rule. split_and!; done.
Qed.
Section reading.
Context {R : Type} (next : bool -> R -> pres (option qstr * R)) (tab : R -> gmap qstr mdata).
Context (glob : qstr -> qstr -> list qstr) (isRel : qstr -> bool).
Notation pst := (MkParse.pst R).
Notation yields := (yields next tab).

(** The parser with the line it is at and the lines that come. *)
Definition stands (st : pst) (ls : list tline) : Prop :=
  match ls with
  | [] => s_line st = None /\ next false (s_rd st) = POk (None, s_rd st)
  | (s, mt) :: ls' => s_line st = Some s /\ tab (s_rd st) = mo_macros mt /\ yields (s_rd st) ls'
  end.
(** The next line is none of an inline file. *)
Definition plainNext (ls : list tline) : Prop := forall s mt ls', ls = (s, mt) :: ls' -> mo_inline mt = false.
Definition other (st : pst) := (s_mk st, s_rules st, s_suffixes st, s_precious st, s_serial st, s_sync st, s_silent st, s_ignore st).
Lemma read_first st ls : yields (s_rd st) ls -> plainNext ls -> exists st', readL next false st = POk st' /\ stands st' ls /\ other st' = other st.
Proof.
  intros H HP. unfold readL. inversion H as [r r' E1 E2|r inl s r' ls' E1 E2]; subst.
  - rewrite E1. cbn [bindR]. eexists. split; [reflexivity|]. split; done.
  - pose proof (HP _ _ _ eq_refl) as Hi. cbn [mo_inline] in Hi. rewrite Hi in E1. rewrite E1. cbn [bindR]. eexists. split; [reflexivity|]. split; done.
Qed.
Lemma read_next st l ls : stands st (l :: ls) -> plainNext ls -> exists st', readL next false st = POk st' /\ stands st' ls /\ other st' = other st.
Proof. destruct l as [s mt]. intros (_ & _ & H). by apply read_first. Qed.
Lemma read_inline st s mt ls : yields (s_rd st) ((s, mt) :: ls) -> mo_inline mt = true -> exists st', readL next true st = POk st' /\ stands st' ((s, mt) :: ls) /\ other st' = other st.
Proof.
  intros H Hi. unfold readL. inversion H as [|r inl s' r' ls' E1 E2]; subst. cbn [mo_inline] in Hi. rewrite Hi in E1. rewrite E1. cbn [bindR]. eexists. split; [reflexivity|]. split; done.
Qed.
Lemma read_end st : stands st [] -> exists st', readL next false st = POk st' /\ stands st' [] /\ other st' = other st.
Proof. intros (_ & H). unfold readL. rewrite H. cbn [bindR]. eexists. split; [reflexivity|]. split; done. Qed.
Lemma expand_line st dep s e mt : tab (s_rd st) = mt -> MacroSpec.expandsTo mt dep s e -> expandL tab dep s st = POk e.
Proof. intros H1 H2. unfold expandL. rewrite H1. apply expand_ok_iff in H2. by rewrite H2. Qed.

Lemma bool_iff (a b : bool) : (a = true <-> b = true) -> a = b.
Proof. destruct a, b; intuition congruence. Qed.
(** Inline files. *)
Lemma marks_no (s : list N) : (forall t, s <> s2q "<<" ++ t) -> startsWith [60; 60] s = false.
Proof.
  intros H. apply not_true_iff_false. intros E. apply marks_start in E as [E1 E2]. destruct s as [|a [|b s]]; [done..|]. injection E1 as ->. injection E2 as ->. by destruct (H s).
Qed.
Lemma body_read inf ls cs o : inlineBody inf ls cs o -> forall fuel f st rest, yields (s_rd st) (ls ++ rest) -> (List.length ls <= fuel)%nat ->
  exists es f' st' l, Forall2 InlineSpec.ended cs es /\ bindR (readL next true st) (inlineContent next tab fuel inf f) = POk (f', st') /\
    stands st' (l :: rest) /\ other st' = other st /\ if_name f' = if_name f /\ if_content f' = if_content f ++ concat es /\
    (if_keep f' = true <-> if_keep f = true \/ InlineSpec.isWord o InlineSpec.keepWord) /\ (if_unicode f' = true <-> if_unicode f = true \/ InlineSpec.isWord o InlineSpec.unicodeWord).
Proof.
  induction 1 as [o mt Hi|s mt c ls cs o Hi Hm Hc _ IH]; intros fuel f st rest HY Hf; (destruct fuel as [|fuel]; [cbn in Hf; lia|]).
  - destruct (read_inline _ _ _ _ HY Hi) as (st' & E & HS & HO). exists []. pose proof HS as (HL & _). eexists _, st', (s2q "<<" ++ o, mt). split; [constructor|]. split.
    { rewrite E. cbn [bindR inlineContent]. rewrite HL. change (startsWith [60; 60] (s2q "<<" ++ o)) with true. cbv iota zeta. reflexivity. }
    split; [exact HS|]. split; [done|]. cbn [if_name if_content if_keep if_unicode concat]. split; [done|]. split; [by rewrite app_nil_r|].
    change (skipn 2 (s2q "<<" ++ o)) with o. destruct keepWord_ok as [K1 K2], unicodeWord_ok as [U1 U2].
    rewrite !orb_true_iff, !containsStr_in. pose proof (splitSpace_word o _ K1 K2) as W1. pose proof (splitSpace_word o _ U1 U2) as W2. split; [by rewrite <- W1|by rewrite <- W2].
  - cbn [app] in HY. destruct (read_inline _ _ _ _ HY Hi) as (st1 & E & HS & HO). pose proof HS as (HL & HT & HY1). cbn in Hf.
    destruct (InlineProofs.ended_exists c) as [e He]. pose proof (ended_compute _ _ He) as Ew.
    set (f1 := InlineFile (if_keep f) (if_unicode f) (if_name f) (if_content f ++ withLineEnd c)).
    destruct (IH fuel f1 st1 rest HY1 ltac:(lia)) as (es & f' & st' & l & H1 & H2 & H3 & H4 & H5 & H6 & H7 & H8).
    exists (e :: es), f', st', l. split; [by constructor|]. split.
    { rewrite E. cbn [bindR inlineContent]. rewrite HL, (marks_no _ Hm).
      assert (EX : (if inf then @POk qstr s else expandL tab false s st1) = @POk qstr c) by (destruct inf; [by rewrite Hc|by apply (expand_line st1 false s c mt)]).
      rewrite EX. cbn [bindR]. exact H2. }
    split_and!; [done|congruence|done| |done|done]. rewrite H6. cbn [f1 if_content concat]. by rewrite Ew, <- app_assoc.
Qed.
Lemma bodies_read inf ls ns fs : inlineBodies inf ls ns fs -> forall fuel st l rest, stands st (l :: ls ++ rest) -> (List.length ls <= fuel)%nat ->
  exists st' l', inlineContents next tab fuel inf ns st = POk (fs, st') /\ stands st' (l' :: rest) /\ other st' = other st.
Proof.
  induction 1 as [|ls cs o n f ls' ns fs HB HF _ IH]; intros fuel st l rest HS Hf.
  - exists st, l. by split_and!.
  - rewrite app_length in Hf. assert (HY : yields (s_rd st) (ls ++ ls' ++ rest)) by (destruct l as [s mt]; destruct HS as (_ & _ & HS); by rewrite <- app_assoc in HS).
    destruct (body_read _ _ _ _ HB fuel (InlineFile false false n []) st _ HY ltac:(lia)) as (es & f' & st1 & l1 & H1 & H2 & H3 & H4 & H5 & H6 & H7 & H8).
    destruct (IH fuel st1 l1 rest H3 ltac:(lia)) as (st' & l' & E & HS' & HO). exists st', l'. cbn [inlineContents].
    assert (f' = f) as ->.
    { destruct HF as (F1 & (es' & F2 & F3) & F4 & F5). cbn [fst snd] in F2, F4, F5. destruct f as [k1 u1 n1 c1], f' as [k2 u2 n2 c2]. cbn [if_name if_content if_keep if_unicode] in *. subst.
      assert (es = es') as ->. { clear -H1 F2. revert es' F2. induction H1 as [|c e cs es Hc _ IH]; intros es' F2; inversion F2 as [|? e' ? es2 H2 H3]; subst; [done|]. f_equal; [|by apply IH].
        rewrite <- (ended_compute _ _ Hc). by apply ended_compute. }
      f_equal.
      - apply bool_iff. rewrite H7, F4. split; [by intros [?|?]|by right].
      - apply bool_iff. rewrite H8, F5. split; [by intros [?|?]|by right]. }
    split_and!; [|done|congruence]. unfold bindR in H2 |- *. destruct (readL next true st) as [s1| | |]; [|done|done|done]. rewrite H2. by rewrite E.
Qed.
Lemma names_read (s line : list N) names : InlineSpec.inlines s line names -> inlineNames (List.length s) s = (line, names).
Proof. intros H. by apply inlines_compute. Qed.
Lemma command_read fuel st k mt s l0 ils c rest : tab (s_rd st) = mt -> s_silent st = k_silent k -> s_ignore st = k_ignore k -> commandText k mt s ils c ->
  stands st (l0 :: ils ++ rest) -> (List.length ils <= fuel)%nat ->
  exists st' l', parseCommandLine next tab fuel s false st = POk (c, st') /\ stands st' (l' :: rest) /\ other st' = other st.
Proof.
  intros Ht Hs Hi [s' t e ms text line names ils' c' H1 H2 -> H4 H5 H6 H7 H8 H9 H10 H11] HS Hf. unfold parseCommandLine. cbv zeta.
  rewrite (trims_trimmed _ _ H1), (expand_line st false t _ mt Ht H2). cbn [bindR].
  set (c0 := Command (modsText ms ++ text) [] (if s_ignore st then 4294967295 else 0) (s_silent st) false).
  destruct (evaluateModifiers_spec ms text c0 H4 eq_refl) as (E1 & E2 & E3 & E4 & E5). specialize (E5 H5).
  pose proof (names_read text line names H6) as EN. rewrite E1. unfold qstr, qchar in *. rewrite EN.
  destruct (bodies_read _ _ _ _ H7 fuel st l0 rest HS Hf) as (st' & l' & EB & HS' & HO). unfold qstr, qchar in *. rewrite EB. cbn [bindR]. exists st', l'. split; [|done]. do 2 f_equal.
  destruct c' as [cl ci cm cs cg]. cbn [c_line c_inline c_max c_silent c_single] in *. subst cl cm. f_equal.
  - rewrite E5. unfold c0. cbn [c_max]. by rewrite Hi.
  - apply bool_iff. rewrite E3, H9. unfold c0. cbn [c_silent]. by rewrite Hs.
  - apply bool_iff. rewrite E4, H10. unfold c0. cbn [c_single]. intuition congruence.
Qed.
Lemma ruleCommand_read fuel st k s l0 ils c rest : s_silent st = k_silent k -> s_ignore st = k_ignore k -> ruleCommand k s ils c ->
  stands st (l0 :: ils ++ rest) -> (List.length ils <= fuel)%nat ->
  exists st' l', parseCommandLine next tab fuel s true st = POk (c, st') /\ stands st' (l' :: rest) /\ other st' = other st.
Proof.
  intros Hs Hi [s' t line names ils' fs H1 H2 H3] HS Hf. unfold parseCommandLine. cbv zeta. rewrite (trims_trimmed _ _ H1). cbn [bindR c_line].
  pose proof (names_read t line names H2) as EN. unfold qstr, qchar in *. rewrite EN.
  destruct (bodies_read _ _ _ _ H3 fuel st l0 rest HS Hf) as (st' & l' & EB & HS' & HO). unfold qstr, qchar in *. rewrite EB. cbn [bindR c_max c_silent c_single]. exists st', l'. by rewrite Hs, Hi.
Qed.

(** Blank lines. *)
Ltac len := unfold tline, qstr, qchar in *; lia.
Definition atText (ls : list tline) : Prop := forall s mt ls', ls = (s, mt) :: ls' -> ~ spaces s.
Definition blankLine (l : tline) : Prop := mo_inline (snd l) = false /\ spaces (fst l).
Lemma plain_blank bl ls : Forall blankLine bl -> plainNext ls -> plainNext (bl ++ ls).
Proof. intros [|[s mt] bl' [H _] _] HP; [done|]. by intros s' mt' ls' [= _ <- _]. Qed.
Lemma skip_read bl : forall fuel st ls, Forall blankLine bl -> plainNext ls -> atText ls -> stands st (bl ++ ls) -> (List.length bl < fuel)%nat ->
  exists st', skipEmpty next fuel st = POk (negb (isNil ls), st') /\ stands st' ls /\ other st' = other st.
Proof.
  induction bl as [|[s mt] bl IH]; intros fuel st ls HB HPN HA HS Hf; (destruct fuel as [|fuel]; [cbn in Hf; lia|]); cbn [skipEmpty].
  - cbn [app] in HS. destruct ls as [|[s mt] ls].
    + destruct (read_end _ HS) as (st' & E & HS' & HO). destruct HS as [HS _]. unfold lineOf. rewrite HS. cbn [default isEmpty trimmed].
      change (isEmpty (trimmed [])) with true. cbv iota. rewrite E. cbn [bindR]. exists st'. destruct HS' as [HS' HS2]. rewrite HS'. by split_and!.
    + exists st. destruct HS as (HS & HS2). unfold lineOf. rewrite HS. cbn [default from_option]. rewrite spaces_empty_false by (by eapply HA). by split_and!.
  - apply Forall_cons in HB as [[_ Hb] HB]. cbn [app] in HS. destruct (read_next _ _ _ HS (plain_blank _ _ HB HPN)) as (st1 & E & HS1 & HO). destruct HS as (HS & _).
    unfold lineOf. rewrite HS. cbn [default from_option]. cbn [fst] in Hb. apply spaces_empty in Hb. unfold id. unfold qstr, qchar in *. rewrite Hb, E. cbn [bindR]. cbn in Hf.
    destruct (s_line st1) as [x|] eqn:El.
    + destruct (IH fuel st1 ls HB HPN HA HS1 ltac:(lia)) as (st' & E2 & HS' & HO'). exists st'. rewrite E2. split_and!; [done|done|congruence].
    + destruct bl as [|[a b] bl]; cbn in HS1; [|destruct HS1; congruence]. destruct ls as [|[a b] ls]; [|destruct HS1; congruence].
      exists st1. by split_and!.
Qed.
(** The first command. *)
Lemma lines_first k inf cls cs : commandLines k inf cls cs -> exists bl cls', cls = bl ++ cls' /\ Forall blankLine bl /\
  ((cls' = [] /\ cs = []) \/ exists s mt ils c cls2 cs2, cls' = (s, mt) :: ils ++ cls2 /\ cs = c :: cs2 /\ mo_inline mt = false /\ indented s /\
    (if inf then ruleCommand k s ils c else commandText k mt s ils c) /\ commandLines k inf cls2 cs2).
Proof.
  induction 1 as [|s mt ls cs Hi Hs _ IH|s mt ils c ls cs H0 H1 H2 H3 _].
  - exists [], []. split_and!; [done|constructor|by left].
  - destruct IH as (bl & cls' & -> & HB & HC). exists ((s, mt) :: bl), cls'. split_and!; [done|by constructor|done].
  - exists [], ((s, mt) :: ils ++ ls). split_and!; [done|constructor|]. right. by exists s, mt, ils, c, ls, cs.
Qed.
Lemma lines_plain k inf cls cs ls : commandLines k inf cls cs -> plainNext ls -> plainNext (cls ++ ls).
Proof. intros [|s mt cls' cs' Hi Hs _|s mt ils c cls' cs' Hi _ _ _] HP; [done|by intros ??? [= _ <- _]..]. Qed.
Lemma indented_spec (s : list N) : indented s -> startsWithSpaceOrTab s = true.
Proof. intros [(c & Hc & Hb) _]. destruct s as [|x s]; [done|]. injection Hc as ->. by apply isBlank_spec. Qed.
Lemma indented_conv (s : list N) : startsWithSpaceOrTab s = true -> ~ spaces s -> indented s.
Proof. destruct s as [|x s]; [done|]. intros H1 H2. split; [|done]. exists x. split; [done|]. by apply isBlank_spec. Qed.
Lemma commands_read fuel inf k n : forall cls cs ls st, commandLines k inf cls cs -> notCommand ls -> plainNext ls -> stands st (cls ++ ls) ->
  s_silent st = k_silent k -> s_ignore st = k_ignore k -> (List.length cls < n)%nat -> (List.length cls < fuel)%nat ->
  exists st', parseCommands next tab n fuel inf st = POk (cs, st') /\ stands st' ls /\ other st' = other st.
Proof.
  induction n as [|n IH]; intros cls cs ls st HC HN HPN HS Hs Hi Hn Hf; [lia|]. cbn [parseCommands].
  destruct (lines_first _ _ _ _ HC) as (bl & cls' & -> & HB & HF). rewrite <- app_assoc in HS. rewrite app_length in Hn, Hf. unfold parseCommand.
  assert (HA : atText (cls' ++ ls)).
  { destruct HF as [[-> _]|(s & mt & ils & c & cls2 & cs2 & -> & _ & _ & [_ Hx] & _)].
    - intros s mt ls' E. by destruct (HN s mt ls').
    - intros s' mt' ls' E. cbn in E. by injection E as <- _ _. }
  assert (HP1 : plainNext (cls' ++ ls)).
  { destruct HF as [[-> _]|(s & mt & ils & c & cls2 & cs2 & -> & _ & Hx & _)]; [done|]. intros s' mt' ls' E. cbn in E. by injection E as _ <- _. }
  destruct (skip_read bl fuel st _ HB HP1 HA HS ltac:(lia)) as (st1 & E1 & HS1 & HO1). rewrite E1. cbn [bindR].
  assert (Hs1 : s_silent st1 = k_silent k) by (injection HO1; congruence). assert (Hi1 : s_ignore st1 = k_ignore k) by (injection HO1; congruence).
  destruct HF as [[-> ->]|(s & mt & ils & c & cls2 & cs2 & -> & -> & Hm & Hx & Hc & HC2)].
  - cbn [app] in *. destruct ls as [|[s mt] ls].
    + exists st1. by split_and!.
    + exists st1. destruct HS1 as (HL & HT & HY). cbn [isNil negb andb].
      assert (F : startsWithSpaceOrTab (lineOf st1) = false).
      { unfold lineOf. rewrite HL. apply not_true_iff_false. intros H. destruct (HN s mt ls eq_refl) as [H1 H2]. by apply H2, indented_conv. }
      rewrite F. cbn [bindR]. split; [done|]. split; [exact (conj HL (conj HT HY))|done].
  - cbn [app] in HS1. cbn in Hn, Hf. rewrite app_length in Hn, Hf. rewrite <- app_assoc in HS1.
    assert (EC : exists st2 l2, parseCommandLine next tab fuel s inf st1 = POk (c, st2) /\ stands st2 (l2 :: cls2 ++ ls) /\ other st2 = other st1).
    { destruct inf; [eapply ruleCommand_read; [done|done|exact Hc|exact HS1|len]|]. destruct HS1 as (HL & HT & HY).
      eapply (command_read _ _ _ _ _ (s, mt)); [exact HT|done|done|exact Hc|exact (conj HL (conj HT HY))|len]. }
    destruct EC as (st2 & l2 & EC & HS2 & HO2). destruct (read_next _ _ _ HS2 (lines_plain _ _ _ _ _ HC2 HPN)) as (st3 & E3 & HS3 & HO3).
    destruct HS1 as (HL & HT & HY). cbn [isNil negb andb].
    assert (F : lineOf st1 = s) by (unfold lineOf; by rewrite HL). rewrite F, (indented_spec _ Hx). cbn [app isNil negb andb].
    rewrite EC. cbn [bindR]. rewrite E3. cbn [bindR].
    destruct (IH cls2 cs2 ls st3 HC2 HN HPN HS3) as (st' & E4 & HS' & HO4); [injection HO2; injection HO3; congruence|injection HO2; injection HO3; congruence|len|len|].
    rewrite E4. cbn [bindR]. exists st'. split_and!; [done|done|congruence].
Qed.

(** Rule lines. *)
Lemma namesFor_read st mt dep s l : tab (s_rd st) = mt -> namesFor mt dep s l -> exists x, expandL tab dep (trimmed s) st = POk x /\ splitTargetNames (toNative x) = l.
Proof.
  intros Ht (t & x & H1 & H2 & H3). exists x. split; [|by rewrite toNative_map; apply C27_names]. rewrite (trims_trimmed _ _ H1). by apply (expand_line st dep t x mt).
Qed.
Lemma qremove_drop n (s : list N) : qremove 0 n s = drop n s.
Proof. done. Qed.
Lemma commandText_trimmed k mt t ils c : commandText k mt t ils c -> commandText k mt (trimmed t) ils c.
Proof.
  intros [s t' e ms text line names ils' c' H1 H2 H3 H4 H5 H6 H7 H8 H9 H10 H11]. rewrite (trims_trimmed _ _ H1). destruct H1 as (a & b & _ & _ & _ & T1 & T2).
  apply (ct_mods k mt t' t' e ms text line names ils' c'); try done. exists [], []. split_and!; [by rewrite app_nil_r|constructor|constructor|done|done].
Qed.
Lemma rule_read fuel st k s mt double ts ds cmd cs0 ils cls cs ls :
  ruleHeader (s, mt) double ts ds cmd ->
  (match cmd with Some t => exists c, cs0 = [c] /\ commandText k mt t ils c | None => cs0 = [] /\ ils = [] end) ->
  (match cls with (l, _) :: _ => ~ spaces l | [] => True end) -> commandLines k false cls cs ->
  (match cls with [] => forall l mt' ls', ls = (l, mt') :: ls' -> ~ indented l | _ => notCommand ls end) ->
  plainNext ls -> (forall b mtb ls2, ls = (b, mtb) :: ls2 -> spaces b -> plainNext ls2) -> stands st ((s, mt) :: ils ++ cls ++ ls) -> s_silent st = k_silent k -> s_ignore st = k_ignore k -> (List.length ils + List.length cls < fuel)%nat ->
  exists l sep pos len st' ls', removeComments s = (l, sep) /\ findRule l = Some (pos, len) /\
    readRule next tab glob isRel fuel l pos len sep st = POk (Prule double ts ds (cs0 ++ cs), st') /\ stands st' ls' /\ other st' = other st /\
    (ls' = ls \/ exists b mtb, ls = (b, mtb) :: ls' /\ spaces b).
Proof.
  intros HH H0 H1 HC HN HPN HPB HS Hs Hi Hf. destruct (header_read _ _ _ _ _ _ HH) as (l & sep & pos & body & E1 & E2 & E3 & E4 & E5 & HT & HD & HW).
  pose proof HS as (HL & Htab & HY). destruct (namesFor_read st mt false _ _ Htab HT) as (x & Ex & Nx). destruct (namesFor_read st mt true _ _ Htab HD) as (y & Ey & Ny).
  assert (EC : exists st1 l1, match sep with Some k0 => let+ (c, st1) := parseCommandLine next tab fuel (trimmed (qremove 0 (k0 + 1) l)) false st in POk ([c], st1) | None => POk ([], st) end = POk (cs0, st1) /\
    stands st1 (l1 :: cls ++ ls) /\ other st1 = other st).
  { destruct sep as [k0|], cmd as [t|]; try done.
    - destruct H0 as (c & -> & H0). unfold qstr, qchar in *. rewrite qremove_drop. replace (k0 + 1)%nat with (S k0) by lia. rewrite <- E5.
      apply commandText_trimmed in H0. destruct (command_read fuel st k mt (trimmed t) (s, mt) ils c (cls ++ ls) Htab Hs Hi H0 HS ltac:(len)) as (st1 & l1 & R1 & R2 & R3).
      exists st1, l1. unfold qstr, qchar in *. rewrite R1. done.
    - destruct H0 as [-> ->]. exists st, (s, mt). by split_and!. }
  destruct EC as (st1 & l1 & EC & HS1 & HO1). pose proof (lines_plain _ _ _ _ _ HC HPN) as HPN1.
  destruct (read_next _ _ _ HS1 HPN1) as (st2 & R2 & HS2 & HO2'). assert (HO2 : other st2 = other st) by congruence. clear HO2'.
  exists l, sep, pos, (if double then 2 else 1)%nat.
  assert (HCS : exists st3 ls', (if isEmpty (trimmed (lineOf st2)) then let+ st3 := readL next false st2 in POk ([], st3) else parseCommands next tab fuel fuel false st2) = POk (cs, st3) /\
    stands st3 ls' /\ other st3 = other st /\ (ls' = ls \/ exists b mtb, ls = (b, mtb) :: ls' /\ spaces b)).
  { assert (Hs2 : s_silent st2 = k_silent k) by (injection HO2; congruence). assert (Hi2 : s_ignore st2 = k_ignore k) by (injection HO2; congruence).
    assert (G : notCommand ls -> (forall l mtl rest, cls ++ ls = (l, mtl) :: rest -> ~ spaces l) -> cls ++ ls <> [] -> exists st3 ls', (if isEmpty (trimmed (lineOf st2)) then let+ st3 := readL next false st2 in POk ([], st3) else parseCommands next tab fuel fuel false st2) = POk (cs, st3) /\
      stands st3 ls' /\ other st3 = other st /\ (ls' = ls \/ exists b mtb, ls = (b, mtb) :: ls' /\ spaces b)).
    { intros G1 G2 G3. destruct (commands_read fuel false k fuel cls cs ls st2 HC G1 HPN HS2 Hs2 Hi2 ltac:(len) ltac:(len)) as (st3 & E & S3 & O3). exists st3, ls. split_and!; [|done|congruence|by left].
      destruct (cls ++ ls) as [|[a b] rest]; [done|]. destruct HS2 as (HL2 & _). assert (lineOf st2 = a) as -> by (unfold lineOf; by rewrite HL2).
      rewrite spaces_empty_false by (by eapply G2). exact E. }
    destruct cls as [|[a b] cls].
    - inversion HC; subst. destruct ls as [|[a b] ls].
      + destruct (read_end _ HS2) as (st3 & R3 & HS3 & HO3). exists st3, []. destruct HS2 as [HL2 _]. assert (lineOf st2 = []) as -> by (unfold lineOf; by rewrite HL2).
        change (isEmpty (trimmed [])) with true. cbv iota. rewrite R3. cbn [bindR]. split; [done|]. split; [done|]. split; [congruence|by left].
      + destruct (decide (spaces a)) as [Ha|Ha].
        * destruct (read_next _ _ _ HS2 (HPB _ _ _ eq_refl Ha)) as (st3 & R3 & HS3 & HO3). exists st3, ls. destruct HS2 as [HL2 _]. assert (lineOf st2 = a) as -> by (unfold lineOf; by rewrite HL2).
          pose proof (proj2 (spaces_empty a) Ha) as Ea. rewrite Ea, R3. cbn [bindR]. split; [done|]. split; [done|]. split; [congruence|right; by exists a, b].
        * apply G; [|by intros ??? [= <- _ _]|done]. intros ??? [= <- <- <-]. split; [done|]. by eapply HN.
    - apply G; [done| |done]. by intros ??? [= <- _ _]. }
  destruct HCS as (st3 & ls' & R3 & HS3 & HO3 & HLS). exists st3, ls'. split; [done|]. split; [done|]. split; [|done].
  unfold readRule. change (qleft pos l) with (take pos l). rewrite E3, Ex. cbn [bindR].
  replace (match sep with Some k0 => qleft k0 l | None => l end) with body by (rewrite <- E4; by destruct sep).
  rewrite qremove_drop. unfold qstr, qchar in *. rewrite Ey. cbn [bindR].
  rewrite EC. cbn [bindR]. rewrite R2. cbn [bindR]. rewrite R3. cbn [bindR]. do 2 f_equal. f_equal; [by destruct double|done|]. rewrite Ny. by apply wildcard_id.
Qed.

(** The whole file. *)
Definition inState (fuel : nat) (dir : qstr) (k : said) (st : pst) : Prop :=
  applyRules fuel (k_blocks k) (first dir) = POk (s_mk st, s_serial st, s_sync st) /\ kept (k_rules k) (s_rules st) /\ s_suffixes st = k_suffixes k /\
  once (k_precious k) (s_precious st) /\ s_silent st = k_silent k /\ s_ignore st = k_ignore k.
Lemma inState_other fuel dir k st st' : inState fuel dir k st -> other st' = other st -> inState fuel dir k st'.
Proof.
  unfold inState, other. intros H E. injection E as E1 E2 E3 E4 E5 E6 E7 E8. by rewrite E1, E2, E3, E4, E5, E6, E7, E8.
Qed.
Lemma kept_snoc l rs p r : kept l rs -> keeps (List.length rs) p r -> kept (l ++ [p]) (rs ++ [r]).
Proof.
  intros [H1 H2] H. split; [by rewrite !app_length, H1|]. intros i p' r' E1 E2.
  apply lookup_app_Some in E1 as [E1|[E1 E1']]; apply lookup_app_Some in E2 as [E2|[E2 E2']].
  - by eapply H2.
  - apply lookup_lt_Some in E1. lia.
  - apply lookup_lt_Some in E2. lia.
  - apply list_lookup_singleton_Some in E1' as [E1' <-], E2' as [E2' <-]. by replace i with (List.length rs) by lia.
Qed.
Lemma spaces_not_ordinary (s : list N) : spaces s -> (forall d v, ~ dotLine s d v) /\ forall r, ~ ruleParts s r.
Proof.
  intros H. unfold spaces in H. rewrite Forall_forall in H. split.
  - intros d v (sp & _ & ->). specialize (H 58). feed specialize H; [|done]. rewrite !elem_of_app. right. right. left. by apply elem_of_list_here.
  - intros r (-> & _). specialize (H 58). feed specialize H; [|done]. rewrite !elem_of_app. do 4 right. destruct (ir_double r); by apply elem_of_list_here.
Qed.
Lemma says_blank k s mt ls k' : spaces s -> says k ((s, mt) :: ls) k' -> says k ls k'.
Proof.
  intros Hs H. destruct (spaces_not_ordinary _ Hs) as [N1 N2].
  inversion H as [|? ? ? e ? ? _ E1 E2 E3|? ? ? e d v ws ? ? _ E1 E2 E3 E4|? ? ? e r cls cs ? ? _ E1 [E2 _]|? ? ? e ? ? ? ? ? ? ? ? ? ? _ E1 [E2 _]]; subst.
  - done.
  - rewrite (spaces_expand _ _ _ _ Hs E1) in E2. by destruct (N1 d v).
  - rewrite (spaces_expand _ _ _ _ Hs E1) in E2. by destruct (N2 r).
  - by rewrite (spaces_expand _ _ _ _ Hs E1) in E2.
Qed.
Lemma says_plain k ls k' : says k ls k' -> plainNext ls.
Proof. intros [ | ? ? ? ? ? ? Hi | ? ? ? ? ? ? ? ? ? Hi | ? ? ? ? ? ? ? ? ? Hi | ? ? ? ? ? ? ? ? ? ? ? ? ? ? Hi ] ? ? ?; [done|by intros [= _ <- _]..]. Qed.
Lemma says_blocks k ls k' : says k ls k' -> exists rs, k_blocks k' = k_blocks k ++ rs.
Proof.
  induction 1 as [k|k s mt e ls k' _ _ _ _ IH|k s mt e d v ws ls k' _ _ _ _ _ IH|k s mt e r cls cs ls k' _ _ _ _ _ _ IH|k s mt e double ts ds cmd cs0 ils cls cs ls k' _ _ _ _ _ _ _ _ _ IH].
  - exists []. by rewrite app_nil_r.
  - done.
  - destruct IH as [rs IH]. exists rs. rewrite IH. by destruct d.
  - done.
  - destruct IH as [rs ->]. cbn [k_blocks set]. eexists. by rewrite <- app_assoc.
Qed.
Definition agree (fuel : nat) (dir : qstr) (k : said) (y : pres pst) : Prop :=
  match applyRules fuel (k_blocks k) (first dir) with
  | POk _ => exists st, y = POk st /\ inState fuel dir k st
  | PErr e => y = PErr e
  | PUb => y = PUb
  | POut => y = POut
  end.
Lemma dot_read_step fuel dir st e d v ws k l ls : inState fuel dir k st -> stands st (l :: ls) -> plainNext ls -> dotLine e d v -> wordsOf v ws ->
  exists st', parseDotDirective next (dotKey d) v st = POk st' /\ stands st' ls /\ inState fuel dir (sayDot d ws k) st'.
Proof.
  intros HI HS HPN HD HW. apply words_spec in HW. destruct l as [s mt]. destruct HI as (I1 & I2 & I3 & I4 & I5 & I6).
  assert (G : forall st0 k0, s_rd st0 = s_rd st -> inState fuel dir k0 st0 -> exists st', readL next false st0 = POk st' /\ stands st' ls /\ inState fuel dir k0 st').
  { intros st0 k0 E HI. destruct HS as (_ & _ & HY). rewrite <- E in HY. destruct (read_first _ _ HY HPN) as (st' & R1 & R2 & R3). exists st'. split_and!; [done|done|]. by eapply inState_other. }
  unfold parseDotDirective. rewrite HW. destruct d; cbn [dotKey dotName drop].
  - change (qeqb (drop 1 (s2q ".IGNORE")) (s2q "SUFFIXES")) with false. change (qeqb (drop 1 (s2q ".IGNORE")) (s2q "IGNORE")) with true. cbv iota. apply G; [done|]. unfold inState. by split_and!.
  - change (qeqb (drop 1 (s2q ".PRECIOUS")) (s2q "SUFFIXES")) with false. change (qeqb (drop 1 (s2q ".PRECIOUS")) (s2q "IGNORE")) with false.
    change (qeqb (drop 1 (s2q ".PRECIOUS")) (s2q "PRECIOUS")) with true. cbv iota. apply G; [done|]. unfold inState. split_and!; try done. by apply once_add.
  - change (qeqb (drop 1 (s2q ".SILENT")) (s2q "SUFFIXES")) with false. change (qeqb (drop 1 (s2q ".SILENT")) (s2q "IGNORE")) with false.
    change (qeqb (drop 1 (s2q ".SILENT")) (s2q "PRECIOUS")) with false. cbv iota. apply G; [done|]. unfold inState. by split_and!.
  - change (qeqb (drop 1 (s2q ".SUFFIXES")) (s2q "SUFFIXES")) with true. cbv iota. apply G; [done|]. unfold inState. split_and!; try done. cbn [s_suffixes k_suffixes sayDot set]. rewrite I3. by destruct ws.
Qed.
Lemma loop_read fuel dir n : forall ls st k k', says k ls k' -> stands st ls -> inState fuel dir k st -> (List.length ls < n)%nat -> (List.length ls < fuel)%nat ->
  agree fuel dir k' (parseLoop next tab glob isRel n fuel st).
Proof.
  induction n as [|n IH]; intros ls st k k' HY HS HI Hn Hf; [lia|]. cbn [parseLoop].
  inversion HY as [k0|k0 s mt e ls0 k0' E0 E1 E2 E3|k0 s mt e d v ws ls0 k0' E0 E1 E2 E3 E4|k0 s mt e r cls cs ls0 k0' E0 E1 E2 E3 E4 E5
    |k0 s mt e double ts ds cmd cs0 ils cls cs ls0 k0' E0 E1 E2 E3 E4 E5 E6 E7 E8]; subst.
  - destruct HS as [HL _]. rewrite HL. unfold agree. destruct HI as (I1 & I2). rewrite I1. exists st. split; [done|]. by split.
  - pose proof HS as (HL & HT & _). rewrite HL, (expand_line st false s e mt HT E1). cbn [bindR]. apply spaces_empty in E2. rewrite E2.
    destruct (read_next _ _ _ HS (says_plain _ _ _ E3)) as (st1 & R1 & HS1 & HO1). rewrite R1. cbn [bindR]. cbn in Hn, Hf. apply (IH ls0 st1 k k'); [done|done| |lia|lia]. by eapply inState_other.
  - pose proof HS as (HL & HT & _). rewrite HL, (expand_line st false s e mt HT E1). cbn [bindR].
    replace (isEmpty (trimmed e)) with false. 2:{ symmetry. apply spaces_empty_false. intros Hs. by destruct (spaces_not_ordinary _ Hs) as [N1 _], (N1 d v). }
    rewrite (dot_read _ _ _ E2). destruct (dot_read_step fuel dir st e d v ws k _ ls0 HI HS (says_plain _ _ _ E4) E2 E3) as (st1 & R1 & HS1 & HI1). rewrite R1. cbn [bindR]. cbn in Hn, Hf.
    apply (IH ls0 st1 (sayDot d ws k) k'); [done|done|done|lia|lia].
  - pose proof HS as (HL & HT & _). rewrite HL, (expand_line st false s e mt HT E1). cbn [bindR].
    replace (isEmpty (trimmed e)) with false. 2:{ symmetry. apply spaces_empty_false. intros Hs. destruct E2 as [E2 _]. by destruct (spaces_not_ordinary _ Hs) as [_ N2], (N2 r). }
    assert (ED : dotDirective e = None).
    { destruct (dotDirective e) as [[d v]|] eqn:ED; [|done]. apply dot_sound in ED as (d' & _ & ED). destruct E2 as [E2 _]. by destruct (dot_rule _ _ _ _ ED E2). }
    rewrite ED, (rule_complete _ _ E2). unfold capsOf, parseInferenceRule. pose proof (says_plain _ _ _ E5) as HPN.
    destruct (read_next _ _ _ HS (lines_plain _ _ _ _ _ E3 HPN)) as (st1 & R1 & HS1 & HO1). rewrite R1. cbn [bindR]. pose proof (inState_other _ _ _ _ _ HI HO1) as HI1.
    pose proof HI1 as (I1 & I2 & I3 & I4 & I5 & I6). cbn in Hn, Hf. rewrite app_length in Hn, Hf.
    destruct (commands_read fuel true k fuel cls cs ls0 st1 E3 E4 HPN HS1 I5 I6 ltac:(len) ltac:(len)) as (st2 & R2 & HS2 & HO2). rewrite R2. cbn [bindR].
    match goal with |- agree _ _ _ (parseLoop _ _ _ _ _ _ ?s) => set (st3 := s) end.
    apply (IH ls0 st3 (k <| k_rules ::= fun l => l ++ [(r, cs)] |>) k'); [done| | |lia|lia].
    + destruct ls0 as [|[a b] ls0]; exact HS2.
    + pose proof (inState_other _ _ _ _ _ HI1 HO2) as (J1 & J2 & J3 & J4 & J5 & J6). unfold inState. split_and!; try done.
      apply kept_snoc; [done|]. destruct E2 as [(_ & B1 & _ & B2 & _) _]. unfold keeps. cbn [fst snd r_id r_batch r_fromPath r_fromExt r_toPath r_toExt r_prio r_cmds]. split_and!; try done.
      * by destruct (ir_double r).
      * by apply rulePath_spec.
      * by apply rulePath_spec.
  - pose proof HS as (HL & HT & _). rewrite HL, (expand_line st false s e mt HT E1). cbn [bindR]. destruct E2 as (O1 & O2 & O3).
    rewrite (spaces_empty_false _ O1).
    assert (ED : dotDirective e = None). { destruct (dotDirective e) as [[d v]|] eqn:ED; [|done]. apply dot_sound in ED as (d' & _ & ED). by destruct (O2 d' v). }
    assert (HPB : forall b mtb ls2, ls0 = (b, mtb) :: ls2 -> spaces b -> plainNext ls2) by (intros b mtb ls2 -> Hb; eapply says_plain, says_blank; [exact Hb|exact E8]).
    rewrite ED, (rule_none _ O3). cbn in Hn, Hf. rewrite !app_length in Hn, Hf. pose proof HI as (I1 & I2 & I3 & I4 & I5 & I6).
    destruct (rule_read fuel st k s mt double ts ds cmd cs0 ils cls cs ls0 E3 E4 E5 E6 E7 (says_plain _ _ _ E8) HPB HS I5 I6 ltac:(lia)) as (l & sep & pos & len & st1 & ls' & R1 & R2 & R3 & HS1 & HO1 & HLS).
    rewrite R1, R2. unfold parseDescriptionBlock. rewrite R3. cbn [bindR].
    pose proof (inState_other _ _ _ _ _ HI HO1) as (J1 & J2 & J3 & J4 & J5 & J6).
    set (k1 := k <| k_blocks ::= fun l => l ++ [Prule double ts ds (cs0 ++ cs)] |>) in *.
    assert (EB : applyRules fuel (k_blocks k1) (first dir) = applyRule fuel (Prule double ts ds (cs0 ++ cs)) (s_mk st1, s_serial st1, s_sync st1)).
    { unfold k1. cbn [k_blocks set]. rewrite applyRules_app, J1. cbn [bindR applyRules]. by destruct (applyRule _ _ _). }
    destruct (says_blocks _ _ _ E8) as (more & EM). destruct (applyRule fuel _ _) as [[[mk ser] sync]|er| |] eqn:EA.
    + cbn [bindR].
      match goal with |- agree _ _ _ (parseLoop _ _ _ _ _ _ ?s) => set (st3 := s) end.
      assert (HI3 : inState fuel dir k1 st3) by (unfold inState; by split_and!).
      assert (HS3 : stands st3 ls') by (destruct ls' as [|[a b] ls']; exact HS1).
      destruct HLS as [->|(b & mtb & -> & Hb)].
      * apply (IH ls0 st3 k1 k'); [done|done|done|unfold tline, qstr, qchar in *; lia|unfold tline, qstr, qchar in *; lia].
      * apply (IH ls' st3 k1 k'); [by eapply says_blank|done|done|cbn in Hn; unfold tline, qstr, qchar in *; lia|cbn in Hf; unfold tline, qstr, qchar in *; lia].
    + unfold agree. rewrite EM, applyRules_app, EB. done.
    + unfold agree. rewrite EM, applyRules_app, EB. done.
    + unfold agree. rewrite EM, applyRules_app, EB. done.
Qed.
Lemma file_read n fuel dir silent stop r ls k : yields r ls -> says (silence silent (negb stop)) ls k -> (List.length ls < n)%nat -> (List.length ls < fuel)%nat ->
  agree fuel dir k (parseFile next tab glob isRel n fuel dir silent stop r).
Proof.
  intros HY HK Hn Hf. unfold parseFile.
  destruct (read_first (Pst None r (Mkfile ∅ None dir 0) [] defaultSuffixes [] false [] silent (negb stop)) ls HY (says_plain _ _ _ HK)) as (st & R1 & HS & HO). rewrite R1. cbn [bindR].
  apply (loop_read fuel dir n ls st (silence silent (negb stop)) k); [done|done| |done|done]. eapply inState_other; [|exact HO].
  unfold inState. cbn [silence k_blocks k_rules k_suffixes k_precious k_silent k_ignore s_mk s_serial s_sync s_rules s_suffixes s_precious s_silent s_ignore]. split_and!; try done; try constructor; try done.
Qed.
End reading.
