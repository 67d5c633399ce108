(** Lemmas about inline files in commands. *)
From Coq Require Import Ascii String.
From stdpp Require Import prelude gmap.
From RecordUpdate Require Import RecordSet.
From Verif Require Import Base BaseProofs Data Macro MacroProofs LineReader LineReaderProofs Preproc MkParse InlineSpec.
Import RecordSetNotations.
Local Open Scope N_scope.

(** ** Names *)
Lemma marks_start s : startsWith [60; 60] s = true <-> marked s 0.
Proof.
  unfold marked. destruct s as [|a [|b s]]; cbn [startsWith lookup list_lookup].
  - split; [done|by intros []].
  - rewrite andb_false_r. split; [done|by intros []].
  - destruct (N.eqb_spec 60 a) as [<-|]; destruct (N.eqb_spec 60 b) as [<-|]; cbn; split; try done; intros [[=] [=]]; congruence.
Qed.
Lemma indexOf_none s : indexOf [60; 60] s = None <-> forall i, ~ marked s i.
Proof.
  induction s as [|c s IH].
  - split; [intros _ i [? ?]; done|done].
  - cbn [indexOf]. destruct (startsWith [60; 60] (c :: s)) eqn:E.
    + apply marks_start in E. split; [done|]. intros H. by destruct (H 0%nat).
    + assert (E' : ~ marked (c :: s) 0) by (rewrite <- marks_start, E; done).
      destruct (indexOf [60; 60] s) as [k|]; cbn [option_map]; split; try done.
      * intros H. assert (Some k = None); [|done]. apply IH. intros i Hi. by destruct (H (S i)).
      * intros _ [|i]; [done|]. by apply (proj1 IH).
Qed.
Lemma indexOf_some s i : indexOf [60; 60] s = Some i -> s = take i s ++ [60; 60] ++ drop (i + 2) s /\ forall j, ~ marked (take i s ++ [60]) j.
Proof.
  revert i. induction s as [|c s IH]; intros i; [done|]. cbn [indexOf]. destruct (startsWith [60; 60] (c :: s)) eqn:E.
  - intros [= <-]. apply marks_start in E as [E1 E2]. destruct s as [|d s]; [done|]. injection E1 as ->. injection E2 as ->. split; [done|].
    intros [|j] [H1 H2]; done.
  - assert (E' : ~ marked (c :: s) 0) by (rewrite <- marks_start, E; done).
    destruct (indexOf [60; 60] s) as [k|]; cbn [option_map]; [|done]. intros [= <-]. destruct (IH k eq_refl) as [H1 H2].
    split; [cbn [take drop app Nat.add]; f_equal; exact H1|]. intros [|j] Hj.
    + apply E'. unfold marked in *. destruct Hj as [Hc Hn]. split; [exact Hc|]. cbn [take app] in Hn. cbn [lookup list_lookup] in Hn |- *.
      rewrite H1. destruct (take k s); exact Hn.
    + by apply (H2 j).
Qed.
Lemma indexOf_at t r : (forall j, ~ marked (t ++ [60]) j) -> indexOf [60; 60] (t ++ [60; 60] ++ r) = Some (length t).
Proof.
  induction t as [|c t IH]; intros H; [done|]. cbn [app] in IH. cbn [app indexOf length]. destruct (startsWith [60; 60] (c :: t ++ 60 :: 60 :: r)) eqn:E.
  - exfalso. apply marks_start in E as [E1 E2]. apply (H 0%nat). split; [exact E1|]. cbn [app lookup list_lookup] in *. destruct t; exact E2.
  - rewrite IH; [done|]. intros j Hj. by apply (H (S j)).
Qed.
Lemma nonSpaces_app (w rest : list N) : Forall (fun c => ~ space c) w -> (forall c, head rest = Some c -> space c) -> nonSpaces (w ++ rest) = w.
Proof.
  intros HW HR. induction HW as [|c w Hc _ IH]; cbn [app nonSpaces].
  - destruct rest as [|c rest]; [done|]. cbn [nonSpaces]. by rewrite (HR c eq_refl).
  - unfold space in Hc. apply not_true_is_false in Hc. rewrite Hc. by rewrite IH.
Qed.
Lemma nonSpaces_spec (s : list N) : exists rest : list N, s = (nonSpaces s : list N) ++ rest /\ Forall (fun c => ~ space c) (nonSpaces s) /\ forall c, head rest = Some c -> space c.
Proof.
  induction s as [|c s (rest & H1 & H2 & H3)]; [exists []; split_and!; [done|constructor|done]|]. cbn [nonSpaces]. destruct (isSpace c) eqn:E.
  - exists (c :: s). split_and!; [done|constructor|]. by intros d [= <-].
  - exists rest. split_and!; [cbn [app]; by f_equal| |done]. constructor; [|done]. unfold space. by rewrite E.
Qed.
Lemma indexOfChar_at (c : N) (w r : list N) : c ∉ w -> indexOfChar c (w ++ c :: r) = Some (length w).
Proof.
  induction w as [|d w IH]; intros H; cbn [app indexOfChar length]; [by rewrite N.eqb_refl|].
  apply not_elem_of_cons in H as [H1 H2]. destruct (N.eqb_spec d c); [by subst|]. by rewrite IH.
Qed.
Lemma indexOfChar_none (c : N) (s : list N) : c ∉ s -> indexOfChar c s = None.
Proof.
  induction s as [|d s IH]; intros H; cbn [indexOfChar]; [done|]. apply not_elem_of_cons in H as [H1 H2]. destruct (N.eqb_spec d c); [by subst|]. by rewrite IH.
Qed.
Lemma indexOfChar_split (c : N) (s : list N) k : indexOfChar c s = Some k -> exists w r : list N, s = w ++ c :: r /\ k = length w /\ c ∉ w.
Proof.
  revert k. induction s as [|d s IH]; intros k; cbn [indexOfChar]; [done|]. destruct (N.eqb_spec d c) as [->|Hn].
  - intros [= <-]. exists [], s. split_and!; [done|done|apply not_elem_of_nil].
  - destruct (indexOfChar c s) as [j|]; [|done]. cbn. intros [= <-]. destruct (IH j eq_refl) as (w & r & -> & -> & Hw). exists (d :: w), r.
    split_and!; [done|done|]. apply not_elem_of_cons. split; [congruence|done].
Qed.
Lemma inlineNames_step fuel (t r : list N) : (forall j, ~ marked (t ++ [60]) j) ->
  inlineNames (S fuel) (t ++ [60; 60] ++ r) = let (name, rest) := inlineName r in let (line, names) := inlineNames fuel rest in (t ++ [60; 60] ++ line, name :: names).
Proof.
  intros H. cbn [inlineNames]. rewrite indexOf_at by done.
  assert (E1 : @drop N (length t + 2) (t ++ [60; 60] ++ r) = r) by (rewrite skipn_app, skipn_all2 by lia; replace (length t + 2 - length t)%nat with 2%nat by lia; done).
  assert (E2 : @take N (length t + 2) (t ++ [60; 60] ++ r) = t ++ [60; 60])
    by (rewrite firstn_app, firstn_all2 by lia; replace (length t + 2 - length t)%nat with 2%nat by lia; done).
  match goal with |- (let (_, _) := inlineName ?x in _) = _ => change x with (@drop N (length t + 2) (t ++ [60; 60] ++ r)) end. rewrite E1.
  destruct (inlineName r) as [name rest]. destruct (inlineNames fuel rest) as [line names].
  match goal with |- (?x ++ _, _) = _ => change x with (@take N (length t + 2) (t ++ [60; 60] ++ r)) end. rewrite E2. f_equal. symmetry. exact (app_assoc t [60; 60] line).
Qed.
Lemma inlineName_quoted (w rest : list N) : 34 ∉ w -> inlineName (34 :: w ++ 34 :: rest) = (w, rest).
Proof.
  intros Hw. cbn [inlineName]. change (isSpace 34) with false. cbn [N.eqb Pos.eqb]. rewrite indexOfChar_at by done. f_equal.
  - assert (E : @take N (length w) (w ++ 34 :: rest) = w) by (by rewrite firstn_app, firstn_all, Nat.sub_diag, app_nil_r). exact E.
  - assert (E : @drop N (S (length w)) (w ++ 34 :: rest) = rest) by (rewrite skipn_app, skipn_all2 by lia; replace (S (length w) - length w)%nat with 1%nat by lia; done). exact E.
Qed.
Lemma inlines_compute s line names : inlines s line names -> forall fuel, (length s <= fuel)%nat -> inlineNames fuel s = (line, names).
Proof.
  induction 1 as [s H|t w rest line names Hm Hw Hq Hr _ IH|t w rest line names Hm Hw _ IH|t rest line names Hm Hr _ IH]; intros fuel Hf.
  - destruct fuel; [done|]. cbn [inlineNames]. by rewrite (proj2 (indexOf_none s)).
  - rewrite !app_length in Hf. cbn [length] in Hf. destruct fuel as [|fuel]; [lia|]. rewrite inlineNames_step by done.
    replace (inlineName (w ++ rest)) with (w, rest); [rewrite IH by lia; done|].
    destruct w as [|c w].
    + cbn [app]. destruct rest as [|c rest]; [done|]. cbn [inlineName]. by rewrite (Hr c eq_refl).
    + cbn [app inlineName]. apply Forall_cons in Hw as Hw'. destruct Hw' as [Hc _]. unfold space in Hc. apply not_true_is_false in Hc. rewrite Hc.
      destruct (N.eqb_spec c 34) as [->|]; [done|]. change (c :: w ++ rest) with ((c :: w) ++ rest). rewrite nonSpaces_app by done.
      f_equal. by rewrite skipn_app, skipn_all, Nat.sub_diag.
  - rewrite !app_length in Hf. cbn [length] in Hf. destruct fuel as [|fuel]; [lia|].
    change (t ++ [60; 60; 34] ++ w ++ [34] ++ rest) with (t ++ [60; 60] ++ (34 :: w ++ 34 :: rest)). rewrite inlineNames_step by done.
    rewrite inlineName_quoted by done.
    rewrite IH by lia. done.
  - rewrite !app_length in Hf. cbn [length] in Hf. destruct fuel as [|fuel]; [lia|].
    change (t ++ [60; 60; 34] ++ rest) with (t ++ [60; 60] ++ (34 :: rest)). rewrite inlineNames_step by done.
    cbn [inlineName]. change (isSpace 34) with false. cbn [N.eqb Pos.eqb]. rewrite indexOfChar_none by done.
    rewrite IH by (cbn [length]; lia). done.
Qed.
Lemma inlines_exist n : forall s, (length s <= n)%nat -> exists line names, inlines s line names.
Proof.
  induction n as [|n IH]; intros s Hs.
  - destruct s; [|cbn in Hs; lia]. exists [], []. apply in_end. intros i [? ?]. done.
  - destruct (indexOf [60; 60] s) as [i|] eqn:E.
    + assert (G : exists t r : list N, s = t ++ [60; 60] ++ r /\ forall j, ~ marked (t ++ [60]) j) by (destruct (indexOf_some s i E) as [H1 H2]; by exists (take i s), (drop (i + 2) s)).
      clear E. destruct G as (t & r & -> & H2).
      rewrite app_length in Hs. cbn [app length] in Hs.
      destruct r as [|c r].
      * destruct (IH []) as (l & ns & H); [cbn; lia|]. exists (t ++ [60; 60] ++ l), ([] :: ns). apply (in_word t [] []); try done.
      * destruct (N.eqb_spec c 34) as [->|Hc].
        -- destruct (indexOfChar 34 r) as [k|] eqn:Ek.
           ++ destruct (indexOfChar_split _ _ _ Ek) as (w & r' & -> & -> & Hw). cbn [length] in Hs. rewrite app_length in Hs. cbn [length] in Hs.
              destruct (IH r') as (l & ns & H); [lia|]. exists (t ++ [60; 60] ++ l), (w :: ns). by apply (in_quoted t w r').
           ++ destruct (IH (34 :: r)) as (l & ns & H); [cbn [length] in *; lia|]. exists (t ++ [60; 60] ++ l), ([] :: ns). apply (in_open t r); try done.
              clear -Ek. induction r as [|d r IH]; [apply not_elem_of_nil|]. cbn [indexOfChar] in Ek. destruct (N.eqb_spec d 34) as [|Hn]; [done|].
              apply not_elem_of_cons. split; [congruence|]. apply IH. by destruct (indexOfChar 34 r).
        -- destruct (nonSpaces_spec (c :: r)) as (rest & R1 & R2 & R3). destruct (IH rest) as (l & ns & H).
           { pose proof (f_equal (@length N) R1) as HL. rewrite app_length in HL. cbn [length] in HL, Hs. lia. }
           exists (t ++ [60; 60] ++ l), (nonSpaces (c :: r) :: ns). pattern (c :: r) at 1. rewrite R1 at 1. apply in_word; try done. cbn [nonSpaces]. destruct (isSpace c); [done|]. cbn. congruence.
    + exists s, []. apply in_end. by apply indexOf_none.
Qed.

(** ** Lines *)
Lemma endsWith_snoc p (s : list N) : endsWith p (s ++ p) = true.
Proof. apply endsWith_spec. by exists s. Qed.
Lemma ended_compute s e : ended s e -> withLineEnd s = e.
Proof.
  unfold withLineEnd, qchop. intros [x|x Hx|x Hx].
  - by rewrite endsWith_snoc.
  - destruct (endsWith [13; 10] (x ++ [10])) eqn:E.
    + exfalso. apply endsWith_spec in E as [t Ht]. change [13; 10] with ([13] ++ [10]) in Ht. rewrite app_assoc in Ht. apply app_inj_tail in Ht as [-> _].
      apply Hx. apply last_snoc.
    + rewrite endsWith_snoc. rewrite app_length. cbn [length]. replace (length x + 1 - 1)%nat with (length x) by lia. by rewrite firstn_app, firstn_all, Nat.sub_diag, app_nil_r.
  - destruct (endsWith [13; 10] x) eqn:E.
    + exfalso. apply endsWith_spec in E as [t ->]. apply Hx. change [13; 10] with ([13] ++ [10]). rewrite app_assoc. apply last_snoc.
    + destruct (endsWith [10] x) eqn:E2; [|done]. exfalso. apply endsWith_spec in E2 as [t ->]. apply Hx. apply last_snoc.
Qed.
Lemma ended_exists s : exists e, ended s e.
Proof.
  destruct (decide (last s = Some 10)) as [H|H]; [|eexists; by apply ed_none]. apply last_Some in H as [x ->].
  destruct (decide (last x = Some 13)) as [H|H]; [|eexists; by apply ed_lf]. apply last_Some in H as [y ->]. rewrite <- app_assoc. eexists. apply ed_crlf.
Qed.

(** ** Words *)
Lemma word_unique (cur w s b : list N) : Forall (fun c => ~ space c) cur -> Forall (fun c => ~ space c) w -> (forall c, head s = Some c -> space c) ->
  (forall c, head b = Some c -> space c) -> cur ++ s = w ++ b -> w = cur.
Proof.
  intros H. revert w. induction H as [|c cur Hc _ IH]; intros w Hw Hs Hb E; destruct Hw as [|d w Hd Hw]; cbn [app] in E.
  - done.
  - subst s. destruct Hd. by apply Hs.
  - subst b. destruct Hc. by apply Hb.
  - injection E as -> E. f_equal. by apply IH.
Qed.
Lemma splitSpaceGo_in (s : list N) : forall (cur w : list N), w <> [] -> Forall (fun c => ~ space c) cur -> Forall (fun c => ~ space c) w ->
  w ∈ splitSpaceGo cur s <-> (exists b, cur ++ s = w ++ b /\ (forall c, head b = Some c -> space c)) \/
    (exists a b, s = a ++ w ++ b /\ (exists c, last a = Some c /\ space c) /\ (forall c, head b = Some c -> space c)).
Proof.
  induction s as [|c s IH]; intros cur w Hn Hc Hw; cbn [splitSpaceGo].
  - rewrite elem_of_list_singleton. split.
    + intros ->. left. exists []. by rewrite !app_nil_r.
    + intros [(b & E & Hb)|(a & b & E & _)].
      * by apply (word_unique cur w [] b).
      * destruct a, w; done.
  - destruct (isSpace c) eqn:Es.
    + rewrite elem_of_cons, IH by (done || constructor). cbn [app]. split.
      * intros [->|[(b & -> & Hb)|(a & b & -> & (d & Hd & Hs) & Hb)]].
        -- left. exists (c :: s). split; [done|]. by intros d [= <-].
        -- right. exists [c], b. split_and!; [done|by exists c|done].
        -- right. exists (c :: a), b. split_and!; [done| |done]. exists d. split; [|done]. destruct a; done.
      * intros [(b & E & Hb)|(a & b & E & (d & Hd & Hs) & Hb)].
        -- left. apply (word_unique cur w (c :: s) b); try done. by intros d [= <-].
        -- right. destruct a as [|x a]; [done|]. injection E as <- E. destruct a as [|y a].
           ++ left. by exists b.
           ++ right. exists (y :: a), b. split_and!; [done| |done]. by exists d.
    + rewrite IH; [|done| |done]. 2: { apply Forall_app. split; [done|]. constructor; [unfold space; by rewrite Es|constructor]. }
      rewrite <- app_assoc. cbn [app]. split.
      * intros [H|(a & b & -> & (d & Hd & Hs) & Hb)]; [by left|]. right. exists (c :: a), b. split_and!; [done| |done]. exists d. split; [|done]. destruct a; done.
      * intros [H|(a & b & E & (d & Hd & Hs) & Hb)]; [by left|]. right. destruct a as [|x a]; [done|]. injection E as <- E. destruct a as [|y a].
        -- cbn in Hd. injection Hd as <-. unfold space in Hs. congruence.
        -- exists (y :: a), b. split_and!; [done| |done]. by exists d.
Qed.
Lemma splitSpace_word (s w : list N) : w <> [] -> Forall (fun c => ~ space c) w -> w ∈ splitSpace s <-> isWord s w.
Proof.
  intros Hn Hw. unfold splitSpace. rewrite splitSpaceGo_in by (done || constructor). unfold isWord. cbn [app]. split.
  - intros [(b & -> & Hb)|(a & b & -> & (d & Hd & Hs) & Hb)].
    + exists [], b. by split_and!.
    + exists a, b. split_and!; try done. intros c Hc. congruence.
  - intros (a & b & -> & _ & _ & Ha & Hb). destruct (last a) as [c|] eqn:E.
    + right. exists a, b. split_and!; [done| |done]. exists c. split; [done|by apply Ha].
    + apply last_None in E as ->. left. by exists b.
Qed.
Lemma word_lf (s w : list N) : isWord (s ++ [10]) w <-> isWord s w.
Proof.
  unfold isWord. split.
  - intros (a & b & E & Hn & Hw & Ha & Hb). destruct (decide (b = [])) as [->|Hb0].
    + exfalso. rewrite app_nil_r in E. destruct (last w) as [c|] eqn:El; [|by apply last_None in El]. apply last_Some in El as [w' ->].
      rewrite app_assoc in E. apply app_inj_tail in E as [_ <-]. apply Forall_app in Hw as [_ Hw]. apply Forall_cons in Hw as [Hw _]. by apply Hw.
    + destruct (last b) as [c|] eqn:El; [|by apply last_None in El]. apply last_Some in El as [b' ->]. rewrite !app_assoc in E. apply app_inj_tail in E as [E _].
      exists a, b'. split_and!; try done; [by rewrite <- app_assoc in E|]. intros d Hd. apply Hb. destruct b'; done.
  - intros (a & b & -> & Hn & Hw & Ha & Hb). exists a, (b ++ [10]). split_and!; try done; [by rewrite <- !app_assoc|].
    intros c Hc. destruct b as [|d b]; [|by apply Hb]. by injection Hc as <-.
Qed.
Lemma containsStr_in (x : qstr) l : containsStr x l = true <-> x ∈ l.
Proof.
  unfold containsStr. rewrite existsb_exists. split.
  - intros (y & Hy & E). apply qeqb_spec in E as ->. by apply elem_of_list_In.
  - intros H. exists x. split; [by apply elem_of_list_In|by apply qeqb_spec].
Qed.

(** ** Reading *)
Lemma cutLine_at (l text : list N) n : 10 ∉ l -> (length l + 1 <= n)%nat -> cutLine n (l ++ 10 :: text) = (l ++ [10], text).
Proof.
  revert n. induction l as [|c l IH]; intros n H Hn; (destruct n as [|n]; [cbn in Hn; lia|]); cbn [app cutLine].
  - by rewrite N.eqb_refl.
  - apply not_elem_of_cons in H as [H1 H2]. destruct (N.eqb_spec c 10); [by subst|]. rewrite IH by (done || cbn [length] in Hn; lia). done.
Qed.
Lemma notDirective t (e : qstr) : ~ directive e -> isDirective t e [] [] = Got (false, [], []).
Proof.
  intros H. unfold isDirective. cbv zeta. destruct e as [|c e]; [done|]. destruct (isSpaceOrTab c); [done|].
  assert (Hc : (c =? 33) = false). { apply N.eqb_neq. intros ->. apply H. by left. }
  rewrite Hc. cbn [negb andb]. destruct (Nat.ltb 8 (length (c :: e))) eqn:El.
  - destruct (isSpaceOrTab (nth 7 (c :: e) 0) && qeqb (toLower (qleft 7 (c :: e))) (s2q "include")) eqn:E; [|done]. exfalso. apply andb_true_iff in E as [E1 E2]. apply qeqb_spec in E2. apply Nat.ltb_lt in El.
    apply H. right. exists (take 7 (c :: e)), (nth 7 (c :: e) 0), (drop 8 (c :: e)). split_and!.
    + rewrite <- (take_drop 7 (c :: e)) at 1. f_equal. do 8 (destruct e as [|? e]; [cbn in El; lia|]). done.
    + exact E2.
    + unfold isSpaceOrTab in E1. apply orb_true_iff in E1 as [E1|E1]; apply N.eqb_eq in E1; auto.
    + do 8 (destruct e as [|? e]; [cbn in El; lia|]). done.
  - cbn [splitDirective]. rewrite Hc. unfold expandP. rewrite expand_plain by apply not_elem_of_nil. done.
Qed.
Lemma readLine_inline fs n (st : pp) (l text c : list N) : pp_back st = [] -> pp_files st <> [] -> 10 ∉ l -> last l <> Some 13 ->
  nodirective (ppTab st) (l ++ [10]) c ->
  Preproc.readLine true fs (S n) (withText st (l ++ 10 :: text)) = Got (Some (l ++ [10]), withText st text).
Proof.
  intros Hb Hf H10 H13 (Hh & He & Hd). unfold Preproc.readLine. cbn [readLoop]. unfold readStep, basicReadLine.
  destruct (pp_files st) as [|f rest] eqn:Ef; [done|].
  assert (E0 : pp_back (withText st (l ++ 10 :: text)) = []) by exact Hb. rewrite E0.
  assert (E1 : pp_files (withText st (l ++ 10 :: text)) = Tfile (tf_name f) (tf_dir f) (Reader (rd_uni (tf_reader f)) (rd_size (tf_reader f)) (l ++ 10 :: text)) :: rest)
    by (unfold withText; rewrite Ef; done).
  rewrite E1. cbn [nextLine].
  assert (E2 : readerLine true (Reader (rd_uni (tf_reader f)) (rd_size (tf_reader f)) (l ++ 10 :: text)) =
    Some (MLine (Some (l ++ [10])) CNone, Reader (rd_uni (tf_reader f)) (rd_size (tf_reader f)) text)).
  { unfold readerLine. cbn [rd_text rd_uni rd_size]. destruct (l ++ 10 :: text) as [|x y] eqn:El; [by destruct l|]. rewrite <- El.
    rewrite cutLine_at; [|done|rewrite app_length; cbn; lia]. by rewrite (crlf_other l 10 H13). }
  cbn [tf_reader]. rewrite E2. cbn [ml_content bindP].
  assert (E3 : withText st (l ++ 10 :: text) <| pp_files := Tfile (tf_name f) (tf_dir f) (Reader (rd_uni (tf_reader f)) (rd_size (tf_reader f)) text) :: rest |> = withText st text).
  { unfold withText. rewrite Ef. done. }
  cbn [tf_name tf_dir]. rewrite E3. unfold contentOf at 1. cbn [ml_content default].
  assert (E4 : startsWith [33] (l ++ [10]) = false).
  { destruct l as [|x l]; [done|]. cbn [app startsWith]. destruct (N.eqb_spec 33 x) as [<-|]; [|done]. by destruct Hh. }
  match goal with |- context [if startsWith [33] ?x then _ else _] => replace (startsWith [33] x) with false by (symmetry; exact E4) end. cbn [isComplete ml_cont negb bindP]. unfold contentOf. cbn [ml_content default from_option].
  unfold parseDirective. unfold expandP at 1. change (mt_macros (pp_macros (withText st text))) with (ppTab st). unfold id. rewrite He. cbn [bindP].
  rewrite notDirective by done. cbn [bindP]. done.
Qed.
Lemma keepWord_ok : keepWord <> [] /\ Forall (fun c => ~ space c) keepWord.
Proof. split; [done|]. repeat constructor; unfold space; by vm_compute. Qed.
Lemma unicodeWord_ok : unicodeWord <> [] /\ Forall (fun c => ~ space c) unicodeWord.
Proof. split; [done|]. repeat constructor; unfold space; by vm_compute. Qed.
Lemma starts_marks (l : list N) : startsWith [60; 60] (l ++ [10]) = true -> exists s, l = [60; 60] ++ s.
Proof.
  destruct l as [|a [|b l]]; cbn [app startsWith]; try done.
  - rewrite andb_false_r. done.
  - destruct (N.eqb_spec 60 a) as [<-|]; [|done]. destruct (N.eqb_spec 60 b) as [<-|]; [|done]. intros _. by exists l.
Qed.
Section reading.
Context (fs : fsenv) (k : nat) (st : pp) (Hb : pp_back st = []) (Hf : pp_files st <> []).
Notation next := (ppNext fs (S k)).
Lemma readL_text (s : pst pp) l text c : s_rd s = withText st (l ++ 10 :: text) -> 10 ∉ l -> last l <> Some 13 -> nodirective (ppTab st) (l ++ [10]) c ->
  readL next true s = POk (s <| s_line := Some (l ++ [10]) |> <| s_rd := withText st text |>).
Proof.
  intros Hs H10 H13 Hn. unfold readL. rewrite Hs. unfold ppNext. by rewrite (readLine_inline fs k st l text c).
Qed.
Lemma inlineContent_text text cs o rest : inlineText (ppTab st) text cs o rest -> forall fuel f (s : pst pp), s_rd s = withText st text -> (length cs < fuel)%nat ->
  exists es f', Forall2 ended cs es /\
    bindR (readL next true s) (inlineContent next ppTab fuel false f) = POk (f', s <| s_line := Some ([60; 60] ++ o ++ [10]) |> <| s_rd := withText st rest |>) /\
    if_name f' = if_name f /\ if_content f' = if_content f ++ concat es /\
    (if_keep f' = true <-> if_keep f = true \/ isWord o keepWord) /\ (if_unicode f' = true <-> if_unicode f = true \/ isWord o unicodeWord).
Proof.
  induction 1 as [o c rest H10 H13 Hn|l c text cs o rest H10 H13 Hm Hn _ IH]; intros fuel f s Hs Hfu.
  - exists []. destruct fuel as [|fuel]; [cbn in Hfu; lia|]. eexists. split; [constructor|].
    erewrite (readL_text s ([60; 60] ++ o) rest c).
    + cbn [bindR inlineContent]. cbn [s_line set]. cbn [app startsWith N.eqb Pos.eqb andb skipn]. split; [reflexivity|]. cbn [if_name if_content if_keep if_unicode].
      split_and!; [done|cbn; by rewrite app_nil_r| |].
      * rewrite orb_true_iff. rewrite containsStr_in. destruct keepWord_ok as [K1 K2].
        pose proof (splitSpace_word (o ++ [10]) keepWord K1 K2) as H1. rewrite word_lf in H1. split; (intros [?|H]; [by left|right; by apply H1]).
      * rewrite orb_true_iff. rewrite containsStr_in. destruct unicodeWord_ok as [K1 K2].
        pose proof (splitSpace_word (o ++ [10]) unicodeWord K1 K2) as H1. rewrite word_lf in H1. split; (intros [?|H]; [by left|right; by apply H1]).
    + exact Hs.
    + cbn [app]. rewrite !not_elem_of_cons. done.
    + destruct o as [|x o]; [done|]. exact H13.
    + exact Hn.
  - destruct fuel as [|fuel]; [lia|]. cbn [length] in Hfu.
    erewrite (readL_text s l text c); [|exact Hs|done|done|done]. cbn [bindR inlineContent]. cbn [s_line set].
    replace (startsWith [60; 60] (l ++ [10])) with false.
    2: { destruct (startsWith [60; 60] (l ++ [10])) eqn:E; [|done]. apply starts_marks in E as [x Hx]. by destruct (Hm x). }
    destruct Hn as (Hh & He & Hd). unfold expandL. cbn [s_rd set]. change (ppTab (withText st text)) with (ppTab st). unfold ppTab in He |- *. rewrite He. cbn [bindR].
    destruct (ended_exists c) as [e Hee]. pose proof (ended_compute _ _ Hee) as Ew.
    set (f1 := InlineFile (if_keep f) (if_unicode f) (if_name f) (if_content f ++ withLineEnd c)).
    destruct (IH fuel f1 (s <| s_line := Some (l ++ [10]) |> <| s_rd := withText st text |>)) as (es & f' & HF & HE & H1 & H2 & H3 & H4); [done|lia|].
    exists (e :: es), f'. split; [by constructor|]. split.
    + unfold bindR in HE |- *. destruct (readL next true _) as [s1| | |]; [|done|done|done]. exact HE.
    + split_and!; [done| |done|done]. rewrite H2. cbn [f1 if_content concat]. rewrite Ew. by rewrite <- app_assoc.
Qed.
Lemma inlineContents_text text l rest : inlineTexts (ppTab st) text l rest -> forall fuel names (s : pst pp), s_rd s = withText st text ->
  length names = length l -> Forall (fun p => length (fst p) < fuel)%nat l ->
  exists files s', inlineContents next ppTab fuel false names s = POk (files, s') /\ s_rd s' = withText st rest /\ length files = length l /\
    forall i n p f, names !! i = Some n -> l !! i = Some p -> files !! i = Some f -> fileFor n p f.
Proof.
  induction 1 as [rest|text cs o text' l rest H1 _ IH]; intros fuel names s Hs Hl HF; (destruct names as [|n names]; [try done|try done]).
  - exists [], s. done.
  - apply Forall_cons in HF as [Hfu HF]. cbn [fst] in Hfu.
    destruct (inlineContent_text _ _ _ _ H1 fuel (InlineFile false false n []) s Hs Hfu) as (es & f' & He & HE & K1 & K2 & K3 & K4).
    destruct (IH fuel names (s <| s_line := Some ([60; 60] ++ o ++ [10]) |> <| s_rd := withText st text' |>)) as (files & s' & E & E1 & E2 & E3); [done|cbn in Hl; congruence|done|].
    exists (f' :: files), s'. cbn [inlineContents]. split_and!; [|done|cbn [length]; congruence|].
    + unfold bindR in HE |- *. destruct (readL next true s) as [s1| | |]; [|done|done|done]. rewrite HE. rewrite E. done.
    + intros [|i] n' p f Hn Hp Hff; [|by eapply E3]. injection Hn as <-. injection Hp as <-. injection Hff as <-. split_and!.
      * done.
      * exists es. done.
      * rewrite K3. cbn. split; [by intros [?|?]|by right].
      * rewrite K4. cbn. split; [by intros [?|?]|by right].
Qed.
End reading.
