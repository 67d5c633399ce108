(** Lemmas about rule lines. *)
From Coq Require Import Ascii String.
From stdpp Require Import prelude.
From Verif Require Import Base MkParse MkLineSpec.
Local Open Scope N_scope.

Lemma count_app c a b : count c (a ++ b) = (count c a + count c b)%nat.
Proof. unfold count. by rewrite filter_app, app_length. Qed.
Lemma count_cons c x s : count c (x :: s) = ((if N.eqb x c then 1 else 0) + count c s)%nat.
Proof.
  unfold count. rewrite filter_cons. destruct (decide (x = c)) as [->|Hn].
  - by rewrite N.eqb_refl.
  - apply N.eqb_neq in Hn. by rewrite Hn.
Qed.
Lemma take_pre {A} (pre rest : list A) : take (length pre) (pre ++ rest) = pre.
Proof. by rewrite take_app. Qed.
Lemma snoc_assoc {A} (pre : list A) c rest : pre ++ c :: rest = (pre ++ [c]) ++ rest.
Proof. by rewrite <- app_assoc. Qed.
Definition oddq (s : list N) : bool := Nat.odd (count (34 : N) s).
Lemma oddq_snoc s c : oddq (s ++ [c]) = if c =? 34 then negb (oddq s) else oddq s.
Proof.
  unfold oddq. rewrite count_app, count_cons. cbn [count]. change (count 34 []) with 0%nat. destruct (c =? 34).
  - replace (count 34 s + (1 + 0))%nat with (S (count 34 s)) by lia. rewrite Nat.odd_succ. by rewrite <- Nat.negb_odd.
  - by replace (count 34 s + (0 + 0))%nat with (count 34 s) by lia.
Qed.
Lemma outside_pre pre rest : outside (pre ++ rest) (length pre) <-> oddq pre = false.
Proof. unfold outside, oddq. rewrite take_pre, <- Nat.negb_odd. by destruct (Nat.odd _). Qed.

(** ** Comments and in-line commands *)
Lemma comment_here pre rest : commentAt (pre ++ 35 :: rest) (length pre) <-> oddq pre = false /\ last pre <> Some 94.
Proof.
  unfold commentAt. rewrite outside_pre, list_lookup_middle by done. split.
  - intros (_ & H & Hc). split; [done|]. destruct pre as [|x pre _] using rev_ind; [done|]. rewrite last_snoc. intros [= ->].
    apply (Hc (length pre)); [rewrite app_length; cbn; lia|]. rewrite <- app_assoc. by apply list_lookup_middle.
  - intros [H Hc]. split_and!; [done..|]. intros j Hj. destruct pre as [|x pre _] using rev_ind; [done|].
    rewrite app_length in Hj. cbn in Hj. assert (j = length pre) as -> by lia. rewrite <- app_assoc. cbn [app].
    rewrite list_lookup_middle by done. rewrite last_snoc in Hc. intros [= ->]. by apply Hc.
Qed.
Lemma no_comment pre c rest : c <> 35 -> ~ commentAt (pre ++ c :: rest) (length pre).
Proof. intros Hn (H & _). rewrite list_lookup_middle in H by done. injection H as H. by apply Hn. Qed.
Lemma findComment_pos (rest : list N) : forall (pre : list N) prev q, prev = default 0 (last pre) -> q = oddq pre ->
  match fst (findComment (length pre) prev q rest) with
  | Some k => (length pre <= k)%nat /\ commentAt (pre ++ rest) k /\ forall j, (length pre <= j < k)%nat -> ~ commentAt (pre ++ rest) j
  | None => forall j, (length pre <= j)%nat -> ~ commentAt (pre ++ rest) j
  end.
Proof.
  induction rest as [|c rest IH]; intros pre prev q Hp Hq; cbn [findComment].
  - cbn [fst]. intros j Hj (H & _). rewrite app_nil_r in H. apply lookup_lt_Some in H. lia.
  - set (q' := if c =? 34 then negb q else q).
    assert (IH' : ~ commentAt (pre ++ c :: rest) (length pre) ->
      match fst (findComment (S (length pre)) c q' rest) with
      | Some k => (length pre <= k)%nat /\ commentAt (pre ++ c :: rest) k /\ forall j, (length pre <= j < k)%nat -> ~ commentAt (pre ++ c :: rest) j
      | None => forall j, (length pre <= j)%nat -> ~ commentAt (pre ++ c :: rest) j
      end).
    { intros Hn. specialize (IH (pre ++ [c]) c q').
      rewrite <- app_assoc in IH. cbn [app] in IH. rewrite app_length, last_snoc, oddq_snoc in IH. cbn [length default] in IH.
      replace (length pre + 1)%nat with (S (length pre)) in IH by lia. subst q'. rewrite Hq in *. specialize (IH eq_refl eq_refl).
      destruct (fst _) as [k|].
      - destruct IH as (H1 & H2 & H3). split_and!; [lia|done|]. intros j Hj. destruct (decide (j = length pre)) as [->|]; [done|apply H3; lia].
      - intros j Hj. destruct (decide (j = length pre)) as [->|]; [done|apply IH; lia]. }
    destruct (N.eqb_spec c 35) as [->|Hc].
    + destruct (N.eqb_spec prev 94) as [->|Hp94].
      * destruct (findComment _ _ _ _) as [r t] eqn:E. cbn [fst] in *. apply IH'. rewrite comment_here. intros [_ Hl]. apply Hl.
        destruct (last pre); cbn in Hp; [by rewrite <- Hp|done].
      * subst q'. cbn [N.eqb] in *. change (35 =? 34) with false in *. cbv iota in *. destruct q.
        -- apply IH'. rewrite comment_here. intros [H _]. by rewrite <- Hq in H.
        -- cbn [fst]. split_and!; [lia| |intros j Hj; lia]. apply comment_here. split; [done|]. intros Hl. by rewrite Hl in Hp.
    + apply IH'. by apply no_comment.
Qed.
Lemma unescaped_hash a r : unescaped (35 :: a) r -> exists r', r = 35 :: r' /\ unescaped a r'.
Proof. intros H. inversion H; subst. by eexists. Qed.
Lemma removeAll_app i t s : removeAll (i :: t) s = qremove i 1 (removeAll t s).
Proof. done. Qed.
Lemma findComment_unescaped (rest : list N) : forall (pre0 : list N) prev q k t, findComment (S (length pre0)) prev q rest = (Some k, t) ->
  exists a b, rest = a ++ 35 :: b /\ k = (S (length pre0) + length a)%nat /\
    exists r, unescaped (prev :: a) r /\ removeAll t (pre0 ++ prev :: a) = pre0 ++ r.
Proof.
  induction rest as [|c rest IH]; intros pre0 prev q k t; cbn [findComment]; [done|].
  set (q' := if c =? 34 then negb q else q).
  assert (Hrec : forall k t, ~ (prev = 94 /\ c = 35) -> findComment (S (S (length pre0))) c q' rest = (Some k, t) ->
    exists a b, c :: rest = a ++ 35 :: b /\ k = (S (length pre0) + length a)%nat /\
      exists r, unescaped (prev :: a) r /\ removeAll t (pre0 ++ prev :: a) = pre0 ++ r).
  { intros k' t' Hn H. specialize (IH (pre0 ++ [prev]) c q' k' t'). rewrite app_length in IH. cbn [length] in IH.
    replace (length pre0 + 1)%nat with (S (length pre0)) in IH by lia. destruct (IH H) as (a & b & -> & -> & r & H1 & H2).
    exists (c :: a), b. split_and!; [done|cbn [length]; lia|]. exists (prev :: r). split.
    - apply ue_char; [|done]. intros [-> Hh]. cbn in Hh. injection Hh as ->. by apply Hn.
    - rewrite <- app_assoc in H2. cbn [app] in H2. rewrite H2. by rewrite <- app_assoc. }
  destruct (N.eqb_spec c 35) as [->|Hc].
  - destruct (N.eqb_spec prev 94) as [->|Hp].
    + destruct (findComment _ _ _ rest) as [r0 t'] eqn:E. intros [= -> <-]. clear Hrec.
      specialize (IH (pre0 ++ [94]) 35 q' k t'). rewrite app_length in IH. cbn [length] in IH.
      replace (length pre0 + 1)%nat with (S (length pre0)) in IH by lia. destruct (IH E) as (a & b & -> & -> & r & H1 & H2).
      exists (35 :: a), b. split_and!; [done|cbn [length]; lia|]. exists r. split.
      * apply unescaped_hash in H1 as (r' & -> & H1). by constructor.
      * rewrite <- app_assoc in H2. cbn [app] in H2. rewrite removeAll_app, H2, <- app_assoc. cbn [app]. unfold qremove.
        rewrite Nat.sub_0_r. rewrite take_pre. f_equal. rewrite skipn_app, skipn_all2 by lia.
        by replace (length pre0 + 1 - length pre0)%nat with 1%nat by lia.
    + destruct q' eqn:Eq.
      * apply Hrec. intros [? _]. done.
      * intros [= <- <-]. exists [], rest. split_and!; [done|cbn [length]; lia|]. exists [prev]. split; [|done].
        apply ue_char; [|constructor]. by intros [-> ?].
  - apply Hrec. by intros [_ ?].
Qed.
Lemma unescaped_exists s : exists r, unescaped s r.
Proof.
  remember (length s) as n eqn:E. revert s E. induction n as [n IH] using lt_wf_ind. intros s ->. destruct s as [|c s]; [by eexists; constructor|].
  destruct (decide (c = 94 /\ head s = Some 35)) as [[-> Hh]|Hn].
  - destruct s as [|c s]; [done|]. injection Hh as ->. destruct (IH (length s)) with (s := s) as [r Hr]; [cbn; lia|done|].
    eexists. by apply ue_escape.
  - destruct (IH (length s)) with (s := s) as [r Hr]; [cbn; lia|done|]. eexists. by apply ue_char.
Qed.
Lemma findComment_line (s : list N) k t : findComment 0 0 false s = (Some k, t) -> unescaped (take k s) (removeAll t (take k s)).
Proof.
  destruct s as [|c s]; [done|]. cbn [findComment]. destruct (N.eqb_spec c 35) as [->|Hc].
  { intros [= <- <-]. constructor. }
  intros H. apply (findComment_unescaped _ []) in H as (a & b & -> & -> & r & H1 & H2). cbn [length Nat.add take].
  rewrite take_app. cbn [app] in H2. by rewrite H2.
Qed.

Lemma findSeparator_pos (rest : list N) : forall (pre : list N) q, q = oddq pre ->
  match findSeparator (length pre) q rest with
  | Some k => (length pre <= k)%nat /\ commandAt (pre ++ rest) k /\ forall j, (length pre <= j < k)%nat -> ~ commandAt (pre ++ rest) j
  | None => forall j, (length pre <= j)%nat -> ~ commandAt (pre ++ rest) j
  end.
Proof.
  induction rest as [|c rest IH]; intros pre q Hq; cbn [findSeparator].
  - intros j Hj (H & _). rewrite app_nil_r in H. apply lookup_lt_Some in H. lia.
  - set (q' := if c =? 34 then negb q else q).
    assert (IH' : ~ commandAt (pre ++ c :: rest) (length pre) ->
      match findSeparator (S (length pre)) q' rest with
      | Some k => (length pre <= k)%nat /\ commandAt (pre ++ c :: rest) k /\ forall j, (length pre <= j < k)%nat -> ~ commandAt (pre ++ c :: rest) j
      | None => forall j, (length pre <= j)%nat -> ~ commandAt (pre ++ c :: rest) j
      end).
    { intros Hn. specialize (IH (pre ++ [c]) q').
      rewrite <- app_assoc in IH. cbn [app] in IH. rewrite app_length, oddq_snoc in IH. cbn [length] in IH.
      replace (length pre + 1)%nat with (S (length pre)) in IH by lia. subst q'. rewrite Hq in *. specialize (IH eq_refl).
      destruct (findSeparator _ _ _) as [k|].
      - destruct IH as (H1 & H2 & H3). split_and!; [lia|done|]. intros j Hj. destruct (decide (j = length pre)) as [->|]; [done|apply H3; lia].
      - intros j Hj. destruct (decide (j = length pre)) as [->|]; [done|apply IH; lia]. }
    destruct (N.eqb_spec c 59) as [->|Hc].
    + subst q'. change (59 =? 34) with false in *. cbv iota in *. destruct q; cbn [negb andb].
      * apply IH'. intros [_ H]. apply outside_pre in H. by rewrite <- Hq in H.
      * split_and!; [lia| |intros j Hj; lia]. split; [by apply list_lookup_middle|]. by apply outside_pre.
    + cbn [andb]. apply IH'. intros [H _]. rewrite list_lookup_middle in H by done. injection H as H. by apply Hc.
Qed.

(** ** The separator *)
Lemma depth_snoc s c : depth (s ++ [c]) = (depth s + (if N.eqb c 40 then 1 else 0) - (if N.eqb c 41 then 1 else 0))%Z.
Proof.
  unfold depth. rewrite !count_app, !count_cons. change (chr "(") with 40. change (chr ")") with 41.
  change (count 40 []) with 0%nat. change (count 41 []) with 0%nat. destruct (c =? 40), (c =? 41); lia.
Qed.
(** The character before the last one. *)
Definition last2 (s : list N) : option N := match rev s with _ :: b :: _ => Some b | _ => None end.
Lemma last2_snoc s c : last2 (s ++ [c]) = last s.
Proof.
  unfold last2. rewrite rev_unit. destruct s as [|x s _] using rev_ind; [done|]. by rewrite rev_unit, last_snoc.
Qed.
Lemma drive_here pre rest : driveAt (pre ++ 58 :: rest) (length pre) <->
  match last pre, last2 pre with
  | Some l, None => isLetter l
  | Some l, Some b => isLetter l && (isSpace b || (b =? 34))
  | None, _ => false
  end = true.
Proof.
  unfold driveAt. destruct pre as [|l pre _] using rev_ind.
  { cbn. split; [|done]. by intros (j & l & ? & _). }
  rewrite last_snoc, last2_snoc, app_length. cbn [length].
  assert (E1 : forall x (r : list N), (((pre ++ [l]) ++ x :: r) !! length pre) = Some l).
  { intros x r. rewrite <- app_assoc. by apply list_lookup_middle. }
  destruct pre as [|b pre _] using rev_ind.
  { cbn [last length app Nat.add]. split.
    - intros (j & l' & Hj & Hl & Hi & _). assert (j = 0%nat) as -> by lia. by injection Hl as <-.
    - intros Hi. exists 0%nat, l. split_and!; [lia|done|done|by left]. }
  rewrite last_snoc. rewrite app_length in E1 |- *. cbn [length] in E1 |- *.
  assert (E2 : forall x (r : list N), ((((pre ++ [b]) ++ [l]) ++ x :: r) !! length pre) = Some b).
  { intros x r. rewrite <- !app_assoc. by apply list_lookup_middle. }
  rewrite andb_true_iff, orb_true_iff, N.eqb_eq. split.
  - intros (j & l' & Hj & Hl & Hi & H). assert (j = (length pre + 1)%nat) as -> by lia. rewrite E1 in Hl. injection Hl as <-.
    split; [done|]. destruct H as [H|(k & b' & Hk & Hb & H)]; [lia|]. assert (k = length pre) as -> by lia. rewrite E2 in Hb. by injection Hb as <-.
  - intros [Hi H]. exists (length pre + 1)%nat, l. split_and!; [lia|apply E1|done|]. right. exists (length pre), b. split_and!; [lia|apply E2|done].
Qed.
Lemma findColon_pos (rest : list N) : forall (pre : list N) level, level = depth pre ->
  match findColon (length pre) level (last pre) (last2 pre) rest with
  | Some k => (length pre <= k)%nat /\ colonAt (pre ++ rest) k /\ forall j, (length pre <= j < k)%nat -> ~ colonAt (pre ++ rest) j
  | None => forall j, (length pre <= j)%nat -> ~ colonAt (pre ++ rest) j
  end.
Proof.
  induction rest as [|c rest IH]; intros pre level Hl; cbn [findColon].
  - intros j Hj (H & _). rewrite app_nil_r in H. apply lookup_lt_Some in H. lia.
  - assert (IH' : forall level', ~ colonAt (pre ++ c :: rest) (length pre) -> level' = depth (pre ++ [c]) ->
      match findColon (S (length pre)) level' (Some c) (last pre) rest with
      | Some k => (length pre <= k)%nat /\ colonAt (pre ++ c :: rest) k /\ forall j, (length pre <= j < k)%nat -> ~ colonAt (pre ++ c :: rest) j
      | None => forall j, (length pre <= j)%nat -> ~ colonAt (pre ++ c :: rest) j
      end).
    { intros level' Hn Hl'. specialize (IH (pre ++ [c]) level' Hl').
      rewrite <- app_assoc in IH. cbn [app] in IH. rewrite app_length, last_snoc, last2_snoc in IH. cbn [length] in IH.
      replace (length pre + 1)%nat with (S (length pre)) in IH by lia.
      destruct (findColon _ _ _ _ _) as [k|].
      - destruct IH as (H1 & H2 & H3). split_and!; [lia|done|]. intros j Hj. destruct (decide (j = length pre)) as [->|]; [done|apply H3; lia].
      - intros j Hj. destruct (decide (j = length pre)) as [->|]; [done|apply IH; lia]. }
    assert (Hch : c <> 58 -> ~ colonAt (pre ++ c :: rest) (length pre)).
    { intros Hn [H _]. rewrite list_lookup_middle in H by done. injection H as H. by apply Hn. }
    rewrite depth_snoc in IH'.
    destruct (N.eqb_spec c 40) as [->|H40]; [apply IH'; [by apply Hch|]; change (40 =? 41) with false; cbv iota; lia|].
    destruct (N.eqb_spec c 41) as [->|H41]; [apply IH'; [by apply Hch|]; cbv iota; lia|].
    destruct (N.eqb_spec c 58) as [->|H58]; [|rewrite andb_false_r; apply IH'; [by apply Hch|]; lia].
    rewrite andb_true_r. destruct (Z.eqb_spec level 0) as [Hz|Hz].
    + pose proof (drive_here pre rest) as HD.
      destruct (match last pre with Some _ => _ | None => _ end) eqn:E.
      * apply IH'; [|lia]. intros (_ & _ & H). apply H. by apply HD.
      * split_and!; [lia| |intros j Hj; lia]. split_and!; [by apply list_lookup_middle|rewrite take_pre; lia|]. intros H. apply HD in H. congruence.
    + apply IH'; [|lia]. intros (_ & H & _). rewrite take_pre in H. lia.
Qed.

(** ** Names *)
Lemma isBlank_spec c : isSpaceOrTab c = true <-> blank c.
Proof. unfold isSpaceOrTab, blank. rewrite orb_true_iff, !N.eqb_eq. done. Qed.
Lemma blank_space c : blank c -> isSpace c = true.
Proof. by intros [-> | ->]. Qed.
Lemma dropSpaces_app (a s : list N) : spaces a -> dropSpaces (a ++ s) = dropSpaces s.
Proof. induction 1 as [|c a Hc _ IH]; cbn; [done|]. by rewrite Hc. Qed.
Lemma dropSpaces_head (s : list N) : (forall c, head s = Some c -> isSpace c = false) -> dropSpaces s = s.
Proof. destruct s as [|c s]; [done|]. intros H. cbn. by rewrite (H c). Qed.
Lemma spaces_rev a : spaces a -> spaces (rev a).
Proof. unfold spaces. rewrite !Forall_forall. intros H x. rewrite elem_of_list_In, <- in_rev, <- elem_of_list_In. apply H. Qed.
Lemma head_rev {A} (l : list A) : head (rev l) = last l.
Proof. destruct l as [|x l _] using rev_ind; [done|]. by rewrite rev_unit, last_snoc. Qed.
Lemma trims_trimmed (w m : list N) : trims w m -> trimmed w = m.
Proof.
  intros (a & b & -> & Ha & Hb & H1 & H2). unfold trimmed. rewrite dropSpaces_app by done.
  destruct m as [|c m].
  - cbn [app]. unfold trimRight. assert (E : forall l, spaces l -> dropSpaces l = []).
    { intros l Hl. by rewrite <- (app_nil_r l), dropSpaces_app by done. }
    by rewrite (E b Hb).
  - cbn [app dropSpaces]. rewrite (H1 c) by done. unfold trimRight. change (c :: m ++ b) with ((c :: m) ++ b).
    rewrite rev_app_distr, dropSpaces_app by (by apply spaces_rev). rewrite dropSpaces_head; [by rewrite rev_involutive|].
    intros x. rewrite head_rev. apply H2.
Qed.
Lemma dropSpaces_split (s : list N) : exists a, spaces a /\ s = a ++ dropSpaces s /\ forall c, head (dropSpaces s) = Some c -> isSpace c = false.
Proof.
  induction s as [|c s (a & Ha & Hs & Hh)]; [by exists []; split_and!; [constructor|..]|]. cbn [dropSpaces]. destruct (isSpace c) eqn:E.
  - exists (c :: a). split_and!; [by constructor|cbn; by rewrite <- Hs|done].
  - exists []. split_and!; [constructor|done|]. intros x [= <-]. done.
Qed.
Lemma trimmed_trims w : trims w (trimmed w).
Proof.
  destruct (dropSpaces_split w) as (a & Ha & Hw & Hh). set (s := dropSpaces w) in *.
  destruct (dropSpaces_split (rev s)) as (b & Hb & Hs & Hl). unfold trimmed, trimRight. fold s.
  set (m := dropSpaces (rev s)) in *. assert (Es : s = rev m ++ rev b) by (rewrite <- rev_app_distr, <- Hs; by rewrite rev_involutive).
  exists a, (rev b). split_and!; [rewrite Hw at 1; f_equal; exact Es|done|by apply spaces_rev| |].
  - intros c Hc. apply Hh. rewrite Es. destruct (rev m); [done|]. done.
  - intros c Hc. apply Hl. rewrite <- (rev_involutive m), head_rev. done.
Qed.
Lemma endsQuote (m : list N) : endsWith [34] m = true <-> last m = Some 34.
Proof.
  unfold endsWith. change (@rev qchar m) with (@rev N m). change (rev [34]) with [34]. rewrite <- head_rev. destruct (rev m) as [|x l]; cbn; [by split|].
  rewrite andb_true_r. rewrite N.eqb_eq. split; [by intros <-|by intros [= ->]].
Qed.
Lemma unquoted_remove m n : unquoted m n -> removeDoubleQuotes m = n.
Proof.
  intros H. unfold removeDoubleQuotes. destruct H as [n| |m Hm].
  - assert (E : endsWith [34] (34 :: n ++ [34]) = true) by (apply endsQuote; by rewrite app_comm_cons, last_snoc).
    rewrite E. cbn [startsWith]. rewrite N.eqb_refl. cbn [andb]. unfold qchop. rewrite app_comm_cons, app_length. cbn [length].
    replace (S (length n) + 1 - 1)%nat with (length (34 :: n)) by (cbn; lia). by rewrite take_app.
  - done.
  - destruct Hm as [Hm|Hm].
    + destruct m as [|c m]; [done|]. cbn [startsWith]. destruct (N.eqb_spec 34 c) as [<-|]; [done|done].
    + destruct (endsWith [34] m) eqn:E; [by apply endsQuote in E|]. by rewrite andb_false_r.
Qed.
Lemma unquoted_exists (m : list N) : unquoted m (removeDoubleQuotes m).
Proof.
  destruct m as [|c m]; [apply uq_plain; by left|]. destruct (decide (c = 34)) as [->|].
  2:{ assert (E : unquoted (c :: m) (c :: m)) by (apply uq_plain; left; by intros [= ?]). by rewrite (unquoted_remove _ _ E). }
  destruct m as [|x m _] using rev_ind; [constructor|]. destruct (decide (x = 34)) as [->|].
  - rewrite (unquoted_remove _ _ (uq_quoted m)). constructor.
  - assert (E : unquoted (34 :: m ++ [x]) (34 :: m ++ [x])) by (apply uq_plain; right; rewrite app_comm_cons, last_snoc; by intros [= ?]).
    by rewrite (unquoted_remove _ _ E).
Qed.
Lemma nameOf_append w l lst : nameOf w l -> appendName lst w = lst ++ l.
Proof.
  intros (m & n & Hm & Hn & ->). unfold appendName. rewrite (trims_trimmed _ _ Hm), (unquoted_remove _ _ Hn).
  destruct n; cbn; [by rewrite app_nil_r|done].
Qed.
Lemma nameOf_exists w : exists l, nameOf w l.
Proof. eexists _, (trimmed w), (removeDoubleQuotes (trimmed w)). split_and!; [apply trimmed_trims|apply unquoted_exists|done]. Qed.
Lemma nameOf_blanks bl w l : spaces bl -> nameOf w l -> nameOf (bl ++ w) l.
Proof.
  intros Hb (m & n & (a & b & -> & H1 & H2 & H3) & Hn & ->). exists m, n. split_and!; [|done|done].
  exists (bl ++ a), b. split_and!; [by rewrite <- !app_assoc|by apply Forall_app|done|apply H3|apply H3].
Qed.
Lemma oneWord_snoc w c : oneWord w -> (blank c -> ~ outside w (length w)) -> oneWord (w ++ [c]).
Proof.
  intros Hw Hc i x Hx Hb. assert (Hi : (i < length (w ++ [c]))%nat) by (by eapply lookup_lt_Some). rewrite app_length in Hi. cbn in Hi.
  unfold outside. rewrite take_app_le by lia. destruct (decide (i = length w)) as [->|].
  - rewrite list_lookup_middle in Hx by done. injection Hx as ->. by apply Hc.
  - rewrite lookup_app_l in Hx by lia. by apply (Hw i x).
Qed.
Lemma outside_end w : outside w (length w) <-> oddq w = false.
Proof. rewrite <- (app_nil_r w) at 1. apply outside_pre. Qed.
Lemma split_names (s : list N) : forall q (bl w : list N) lst, spaces bl -> oneWord w -> q = oddq w ->
  exists l, namesIn (w ++ s) l /\ splitNamesGo q (bl ++ w) lst s = lst ++ l.
Proof.
  induction s as [|c s IH]; intros q bl w lst Hbl Hw Hq; cbn [splitNamesGo].
  - destruct (nameOf_exists w) as [l Hl]. exists l. rewrite app_nil_r. split; [by apply ni_last|].
    assert (E : appendName lst (bl ++ w) = lst ++ l) by (apply nameOf_append; by apply nameOf_blanks).
    destruct (isEmpty (bl ++ w)) eqn:Ee; [|done]. destruct (bl ++ w); [|done]. rewrite <- E. done.
  - rewrite (snoc_assoc w). destruct (N.eqb_spec c 34) as [->|H34].
    + destruct (IH (negb q) bl (w ++ [34]) lst) as (l & H1 & H2); [done| |by rewrite oddq_snoc, Hq|].
      { apply oneWord_snoc; [done|]. intros [? | ?]; done. }
      exists l. split; [done|]. rewrite <- app_assoc. done.
    + destruct (negb q && isSpaceOrTab c) eqn:E.
      * apply andb_true_iff in E as [Hnq Hb]. apply isBlank_spec in Hb. apply negb_true_iff in Hnq. subst q.
        destruct (nameOf_exists w) as [l0 Hl0].
        assert (Ho : outside w (length w)) by (by apply outside_end).
        destruct (isEmpty (bl ++ w)) eqn:Ee.
        -- assert (Ee' : bl ++ w = []) by (by destruct (bl ++ w)). clear Ee. rename Ee' into Ee. apply app_eq_nil in Ee as [-> ->].
           destruct (IH (oddq []) [c] [] lst) as (l & H1 & H2); [constructor; [by apply blank_space|constructor]|done|done|].
           exists ([] ++ l). split; [|rewrite Hnq; done]. rewrite <- app_assoc. apply ni_more; [done|done|done| |done].
           exists [], []. split_and!; [|apply uq_plain; by left|done]. exists [], []. split_and!; try done; constructor.
        -- destruct (IH (oddq []) [] [] (lst ++ l0)) as (l & H1 & H2); [constructor|done|done|].
           exists (l0 ++ l). split; [rewrite <- app_assoc; by apply ni_more|]. rewrite Hnq.
           rewrite (nameOf_append _ l0); [|by apply nameOf_blanks]. rewrite app_assoc. exact H2.
      * destruct (IH q bl (w ++ [c]) lst) as (l & H1 & H2); [done| | |].
        { apply oneWord_snoc; [done|]. intros Hb. rewrite outside_end. apply isBlank_spec in Hb. rewrite Hb, andb_true_r in E.
          apply negb_false_iff in E. by rewrite <- Hq, E. }
        { rewrite oddq_snoc. apply N.eqb_neq in H34. by rewrite H34. }
        exists l. split; [done|]. rewrite <- app_assoc. done.
Qed.
Lemma go_word (w : list N) : forall q (pre cur : list N) lst (s : list N), oneWord (pre ++ w) -> q = oddq pre ->
  splitNamesGo q cur lst (w ++ s) = splitNamesGo (oddq (pre ++ w)) (cur ++ w) lst s.
Proof.
  induction w as [|c w IH]; intros q pre cur lst s Hw Hq; cbn [app splitNamesGo].
  - by rewrite !app_nil_r, Hq.
  - rewrite (snoc_assoc pre) in Hw |- *. rewrite (snoc_assoc cur c w). destruct (N.eqb_spec c 34) as [->|H34].
    + rewrite (IH (negb q) (pre ++ [34])); [done|done|]. by rewrite oddq_snoc, Hq.
    + assert (E : negb q && isSpaceOrTab c = false).
      { destruct (isSpaceOrTab c) eqn:Hb; [|by rewrite andb_false_r]. apply isBlank_spec in Hb.
        assert (H : ~ outside ((pre ++ [c]) ++ w) (length pre)).
        { apply (Hw _ c); [|done]. rewrite <- app_assoc. by apply list_lookup_middle. }
        rewrite <- app_assoc, outside_pre in H. destruct q; [done|]. by rewrite <- Hq in H. }
      rewrite E. rewrite (IH q (pre ++ [c])); [done|done|]. rewrite oddq_snoc. apply N.eqb_neq in H34. by rewrite H34.
Qed.
Lemma names_unique s l : namesIn s l -> forall bl lst, spaces bl -> splitNamesGo false bl lst s = lst ++ l.
Proof.
  induction 1 as [w l Hw Hl|w b s l l' Hw Ho Hb Hl Hs IH]; intros bl lst Hbl.
  - rewrite <- (app_nil_r w) at 1. rewrite (go_word w false []) by done. cbn [app splitNamesGo].
    assert (E : appendName lst (bl ++ w) = lst ++ l) by (apply nameOf_append; by apply nameOf_blanks).
    destruct (isEmpty (bl ++ w)) eqn:Ee; [|done]. rewrite <- E. by destruct (bl ++ w).
  - rewrite (go_word w false []) by done. cbn [app splitNamesGo]. apply outside_end in Ho. rewrite Ho.
    assert (H34 : b =? 34 = false) by (apply N.eqb_neq; by destruct Hb as [-> | ->]). rewrite H34.
    assert (Hb' : isSpaceOrTab b = true) by (by apply isBlank_spec). rewrite Hb'. cbn [negb andb].
    assert (E : appendName lst (bl ++ w) = lst ++ l) by (apply nameOf_append; by apply nameOf_blanks).
    rewrite app_assoc, <- E. destruct (isEmpty (bl ++ w)) eqn:Ee.
    + rewrite IH by (constructor; [by apply blank_space|constructor]). destruct (bl ++ w); done.
    + by rewrite IH by constructor.
Qed.
