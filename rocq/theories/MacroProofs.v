(** Lemmas about macro expansion. *)
From stdpp Require Import prelude gmap relations.
From Verif Require Import Base BaseProofs Macro MacroSpec.
Local Open Scope N_scope.

(** ** Scanning *)

Lemma fileChar_spec c : isFileMacroChar c = true <-> c ∈ [60; 42; 64; 63].
Proof. unfold isFileMacroChar. rewrite !orb_true_iff, !N.eqb_eq, !elem_of_cons, elem_of_nil. tauto. Qed.

Lemma scan_none s : scanInvocation s = None <-> 41 ∉ s.
Proof.
  induction s as [|c s IH]; cbn; [split; [set_solver|done]|]. destruct (c =? 41) eqn:E.
  - apply N.eqb_eq in E as ->. split; [done|]. intros H. destruct H. left.
  - apply N.eqb_neq in E. destruct (scanInvocation s) as [[e col]|].
    + split; [done|]. intros H. exfalso. destruct IH as [_ IH]. discriminate IH. set_solver.
    + split; [|done]. intros _. destruct IH as [IH _]. specialize (IH eq_refl). set_solver.
Qed.
Lemma scan_app p s : 41 ∉ p -> scanInvocation (p ++ 41 :: s) = Some (length p, indexOfChar 58 p).
Proof.
  induction p as [|c p IH]; intros H; cbn; [done|]. apply not_elem_of_cons in H as [H1 H2].
  destruct (c =? 41) eqn:E; [apply N.eqb_eq in E; congruence|]. rewrite IH by done. done.
Qed.
Lemma split_at (x : N) (s : qstr) : x ∈ s -> exists p r, s = p ++ x :: r /\ x ∉ p.
Proof.
  induction s as [|c s IH]; [by intros ?%elem_of_nil|]. intros H. destruct (decide (c = x)) as [->|Hc].
  - exists [], s. split; [done|]. apply not_elem_of_nil.
  - apply elem_of_cons in H as [->|H]; [done|]. destruct (IH H) as (p & r & -> & Hp). exists (c :: p), r.
    split; [done|]. apply not_elem_of_cons. done.
Qed.
Lemma index_none c s : indexOfChar c s = None <-> c ∉ s.
Proof.
  induction s as [|x s IH]; cbn; [split; [intros _; apply not_elem_of_nil|done]|].
  destruct (x =? c) eqn:E.
  - apply N.eqb_eq in E as ->. split; [done|]. intros H. destruct H. left.
  - apply N.eqb_neq in E. rewrite not_elem_of_cons. destruct (indexOfChar c s); cbn.
    + split; [done|]. intros [_ H]. apply IH in H. done.
    + split; [|done]. intros _. split; [done|]. by apply IH.
Qed.
Lemma index_app c p s : c ∉ p -> indexOfChar c (p ++ c :: s) = Some (length p).
Proof.
  induction p as [|x p IH]; intros H; cbn; [by rewrite N.eqb_refl|]. apply not_elem_of_cons in H as [H1 H2].
  destruct (x =? c) eqn:E; [apply N.eqb_eq in E; congruence|]. by rewrite IH.
Qed.

Fixpoint caretPos (i : nat) (s : qstr) : list nat :=
  match s with
  | [] => []
  | c :: s' => if c =? 94 then i :: caretPos (S i) s' else caretPos (S i) s'
  end.
Definition lastEq (i : nat) (eq : option nat) (s : qstr) : option nat :=
  match lastIndexOfChar 61 s with Some k => Some (i + k)%nat | None => eq end.

Lemma lastEq_cons i eq c s : lastEq i eq (c :: s) = lastEq (S i) (if c =? 61 then Some i else eq) s.
Proof.
  unfold lastEq. cbn. destruct (lastIndexOfChar 61 s); [f_equal; lia|]. destruct (c =? 61); [f_equal; lia|done].
Qed.

Lemma subScan_spec body s i q eq qs : quotedOk q body ->
  subScan (body ++ 41 :: s) i q eq qs = Some (lastEq i eq body, (i + length body)%nat, qs ++ caretPos i body).
Proof.
  revert i q eq qs. induction body as [|c body IH]; intros i q eq qs H.
  - cbn in H. subst. cbn. rewrite app_nil_r. by replace (i + 0)%nat with i by lia.
  - destruct H as [H1 H2]. rewrite lastEq_cons. cbn [app subScan caretPos length].
    replace (i + S (length body))%nat with (S i + length body)%nat by lia.
    destruct (c =? 61) eqn:E61.
    + apply N.eqb_eq in E61 as ->. cbn. by rewrite IH.
    + destruct ((c =? 41) && negb q) eqn:E41.
      { apply andb_true_iff in E41 as [->%N.eqb_eq E]. rewrite (H1 eq_refl) in E. done. }
      destruct (c =? 94) eqn:E94.
      * apply N.eqb_eq in E94 as ->. rewrite IH by exact H2. by rewrite <- app_assoc.
      * apply N.eqb_neq in E94. rewrite bool_decide_eq_false_2 in H2 by done. by rewrite IH.
Qed.
Lemma subScan_inv s i q eq qs x : subScan s i q eq qs = Some x ->
  exists body rest, s = body ++ 41 :: rest /\ quotedOk q body.
Proof.
  revert i q eq qs. induction s as [|c s IH]; intros i q eq qs; cbn [subScan]; [done|].
  destruct (c =? 61) eqn:E61.
  - intros H. apply N.eqb_eq in E61 as ->. destruct (IH _ _ _ _ H) as (b & r & -> & Hb). exists (61 :: b), r. split; [done|].
    split; [done|]. by rewrite bool_decide_eq_false_2.
  - destruct ((c =? 41) && negb q) eqn:E41.
    + apply andb_true_iff in E41 as [->%N.eqb_eq E]. intros _. exists [], s. split; [done|]. cbn. by destruct q.
    + assert (c = 41 -> q = true) as Hq. { intros ->. by destruct q. }
      destruct (c =? 94) eqn:E94.
      * apply N.eqb_eq in E94 as ->. intros H. destruct (IH _ _ _ _ H) as (b & r & -> & Hb). exists (94 :: b), r. split; [done|].
        split; [done|]. by rewrite bool_decide_eq_true_2.
      * apply N.eqb_neq in E94. intros H. destruct (IH _ _ _ _ H) as (b & r & -> & Hb). exists (c :: b), r. split; [done|].
        split; [done|]. by rewrite bool_decide_eq_false_2.
Qed.

Lemma lastIndex_none c s : lastIndexOfChar c s = None <-> c ∉ s.
Proof.
  induction s as [|x s IH]; cbn; [split; [intros _; apply not_elem_of_nil|done]|].
  rewrite not_elem_of_cons. destruct (lastIndexOfChar c s).
  - split; [done|]. intros [_ H]. apply IH in H. done.
  - destruct (x =? c) eqn:E; [apply N.eqb_eq in E; split; [done|intros [? _]; congruence]|].
    apply N.eqb_neq in E. split; [|done]. intros _. split; [congruence|]. by apply IH.
Qed.
Lemma lastIndex_app c p s : c ∉ s -> lastIndexOfChar c (p ++ c :: s) = Some (length p).
Proof.
  intros H. induction p as [|x p IH]; cbn.
  - apply lastIndex_none in H as ->. by rewrite N.eqb_refl.
  - by rewrite IH.
Qed.
Lemma split_last (x : N) (s : qstr) : x ∈ s -> exists p r, s = p ++ x :: r /\ x ∉ r.
Proof.
  intros H. destruct (split_at x (reverse s)) as (p & r & E & Hp); [by apply elem_of_reverse|].
  exists (reverse r), (reverse p). split; [|by rewrite elem_of_reverse].
  apply (f_equal reverse) in E. rewrite reverse_involutive, reverse_app, reverse_cons in E. by rewrite E, <- app_assoc.
Qed.

Lemma caretPos_app i a b : caretPos i (a ++ b) = caretPos i a ++ caretPos (i + length a) b.
Proof.
  revert i. induction a as [|c a IH]; intros i; cbn; [by replace (i + 0)%nat with i by lia|].
  replace (i + S (length a))%nat with (S i + length a)%nat by lia. destruct (c =? 94); cbn; by rewrite IH.
Qed.
Lemma caretPos_none i s : 94 ∉ s -> caretPos i s = [].
Proof.
  revert i. induction s as [|c s IH]; intros i H; [done|]. apply not_elem_of_cons in H as [H1 H2]. cbn.
  destruct (c =? 94) eqn:E; [apply N.eqb_eq in E; congruence|]. by apply IH.
Qed.

Lemma remove_carets k pre s :
  fold_right (fun q a => qremoveZ (Z.of_nat q - Z.of_nat k - 1) a) (pre ++ s) (caretPos (S k + length pre) s)
  = pre ++ List.filter (fun c => negb (c =? 94)) s.
Proof.
  revert pre. induction s as [|c s IH]; intros pre; [done|]. cbn [caretPos List.filter].
  specialize (IH (pre ++ [c])). rewrite app_length in IH. cbn [length] in IH.
  replace (S k + (length pre + 1))%nat with (S (S k + length pre)) in IH by lia.
  rewrite <- !app_assoc in IH. cbn [app] in IH.
  destruct (c =? 94) eqn:E; cbn [negb fold_right].
  - rewrite IH.
    replace (Z.of_nat (S k + length pre) - Z.of_nat k - 1)%Z with (Z.of_nat (length pre)) by lia.
    generalize (List.filter (fun c => negb (c =? 94)) s). intros fs. unfold qremoveZ. cbv zeta.
    destruct (Z.of_nat (length pre) <? 0)%Z eqn:E0; [apply Z.ltb_lt in E0; lia|]. rewrite E0. cbn [orb].
    destruct (Z.of_nat (length (pre ++ c :: fs)) <=? Z.of_nat (length pre))%Z eqn:E1.
    { apply Z.leb_le in E1. rewrite app_length in E1. cbn [length] in E1. lia. }
    rewrite Nat2Z.id. unfold qremove. rewrite take_app, drop_app_ge by lia.
    replace (length pre + 1 - length pre)%nat with 1%nat by lia. done.
  - exact IH.
Qed.

Lemma parseSub_spec before after s : 61 ∉ after -> quotedOk false (before ++ 61 :: after) ->
  parseSubstitution (before ++ 61 :: after ++ 41 :: s)
  = Some (before, unquote before after, length (before ++ 61 :: after)).
Proof.
  intros H1 H2.
  assert (forall s, parseSubstitution (before ++ 61 :: after ++ 41 :: s) =
    Some (before, fold_right (fun q a => qremoveZ (Z.of_nat q - Z.of_nat (length before) - 1) a) after
       (caretPos 0 (before ++ 61 :: after)), length (before ++ 61 :: after))) as E.
  { intros s'. unfold parseSubstitution.
    replace (before ++ 61 :: after ++ 41 :: s') with ((before ++ 61 :: after) ++ 41 :: s') by (by rewrite <- app_assoc).
    rewrite subScan_spec by done. unfold lastEq. rewrite lastIndex_app by done. cbn [plus app].
    do 3 f_equal.
    - unfold qleft. rewrite <- app_assoc. by rewrite take_app.
    - f_equal. unfold qmid. rewrite <- app_assoc. rewrite app_length. cbn [length app].
      replace (S (length before)) with (length (before ++ [61])) at 1 by (rewrite app_length; cbn; lia).
      replace (before ++ 61 :: after ++ 41 :: s') with ((before ++ [61]) ++ after ++ 41 :: s') by (by rewrite <- app_assoc).
      rewrite drop_app. match goal with |- take ?n _ = _ => replace n with (length after) by (unfold qstr, qchar; lia) end.
      apply take_app. }
  rewrite E. match goal with |- Some (_, ?a, _) = _ => enough (a = unquote before after) as -> by done end.
  unfold unquote. case_decide as Hc.
  - specialize (E []). change (before ++ [61] ++ after ++ [41]) with (before ++ 61 :: after ++ [41]).
    unfold qstr, qchar in *. by rewrite E.
  - rewrite caretPos_app, caretPos_none by done. cbn [app caretPos]. change (61 =? 94) with false. cbn iota.
    pose proof (remove_carets (length before) [] after) as R. cbn [app length] in R.
    by replace (S (length before) + 0)%nat with (S (length before)) in R by lia.
Qed.
Lemma parseSub_inv s x : parseSubstitution s = Some x ->
  exists before after rest, s = before ++ 61 :: after ++ 41 :: rest /\ 61 ∉ after /\ quotedOk false (before ++ 61 :: after).
Proof.
  unfold parseSubstitution. destruct (subScan s 0 false None []) as [[[[eq|] e] qs]|] eqn:E; try done. intros _.
  destruct (subScan_inv _ _ _ _ _ _ E) as (body & rest & -> & Hq). rewrite subScan_spec in E by done.
  unfold lastEq in E. destruct (lastIndexOfChar 61 body) eqn:El; [|done].
  assert (61 ∈ body) as Hin.
  { destruct (decide (61 ∈ body)) as [|Hn]; [done|]. apply lastIndex_none in Hn. congruence. }
  destruct (split_last _ _ Hin) as (p & r & -> & Hr). exists p, r, rest. rewrite <- app_assoc. done.
Qed.

(** ** Reading one piece *)

Definition lex1 (dep : bool) (s : qstr) : option (seg * qstr) :=
  match s with
  | [] => None
  | c :: s1 =>
    match s1 with
    | [] => Some (STxt [c], [])
    | d :: s2 =>
      if negb (c =? 36) then Some (STxt [c], s1)
      else if d =? 40 then
        match scanInvocation s2 with
        | None => None
        | Some (e, col) =>
          let name := qleft (match col with Some k => k | None => e end) s2 in
          match name with
          | [] => None
          | f :: _ =>
            if isFileMacroChar f then Some (SFile (40 :: qleft (S e) s2), skipn (S e) s2)
            else match col with
                 | None => Some (SMac name, skipn (S e) s2)
                 | Some k => match parseSubstitution (skipn (S k) s2) with
                             | None => None
                             | Some (b, a, e') => Some (SSub name b a, skipn (S e') (skipn (S k) s2))
                             end
                 end
          end
        end
      else if d =? 36 then
        match dep, s2 with
        | true, 64 :: s3 => Some (SFile [64], s3)
        | true, 40 :: 64 :: s3 => Some (SFile [40; 64], s3)
        | _, _ => Some (STxt [36], s2)
        end
      else if isLetterOrNumber d then Some (SMac [d], s2)
      else if isFileMacroChar d then Some (SFile [d], s2)
      else None
    end
  end.
(** The macro whose value is looked up before the error in its substitution is found. *)
Definition cutName (s : qstr) : option qstr :=
  match s with
  | c :: d :: s2 =>
    if negb ((c =? 36) && (d =? 40)) then None else
    match scanInvocation s2 with
    | Some (e, Some k) => match qleft k s2 with
                          | [] => None
                          | f :: _ => if isFileMacroChar f then None
                                     else match parseSubstitution (skipn (S k) s2) with None => Some (qleft k s2) | Some _ => None end
                          end
    | _ => None
    end
  | _ => None
  end.

Definition evalSeg (call : qstr -> xres) (g : seg) (k : xres) : xres :=
  match g with
  | STxt t => xbind k (fun r => XOk (t ++ r))
  | SFile t => xbind k (fun r => XOk (magicEscape :: t ++ r))
  | SMac m => xbind (call m) (fun v => xbind k (fun r => XOk (v ++ r)))
  | SSub m b a => xbind (call m) (fun v => xbind k (fun r => XOk (replaceAll b a v ++ r)))
  end.

Lemma xbind_ext a f g : (forall r, f r = g r) -> xbind a f = xbind a g.
Proof. intros H. destruct a; cbn; auto. Qed.

Lemma loop_step call dep n c s : expandLoop call dep (S n) (c :: s) =
  match lex1 dep (c :: s) with
  | Some (g, s') => evalSeg call g (match s with [] => XOk [] | _ => expandLoop call dep n s' end)
  | None => match cutName (c :: s) with Some m => xbind (call m) (fun _ => XErr) | None => XErr end
  end.
Proof.
  cbn [expandLoop lex1]. destruct s as [|d s2]; [done|].
  destruct (c =? 36) eqn:E36; cbn [negb]; [|done]. apply N.eqb_eq in E36 as ->.
  destruct (d =? 40) eqn:E40.
  - apply N.eqb_eq in E40 as ->. unfold cutName. change (negb ((36 =? 36) && (40 =? 40))) with false. cbn iota.
    destruct (scanInvocation s2) as [[e [k|]]|]; [| |done].
    + destruct (qleft k s2) as [|f name] eqn:En; [done|]. destruct (isFileMacroChar f) eqn:Ef.
      * apply xbind_ext. intros r. cbn. done.
      * destruct (parseSubstitution (drop (S k) s2)) as [[[b a] e']|]; done.
    + destruct (qleft e s2) as [|f name] eqn:En; [done|]. destruct (isFileMacroChar f) eqn:Ef; [|done].
      apply xbind_ext. intros r. cbn. done.
  - destruct (d =? 36) eqn:E36'.
    + apply N.eqb_eq in E36' as ->.
      assert (forall s3, xbind (expandLoop call dep n s3) (fun r => XOk (36 :: r)) = evalSeg call (STxt [36]) (expandLoop call dep n s3)) as E by done.
      destruct dep; [|apply E].
      repeat first [apply E | done | match goal with |- context [match ?x with _ => _ end] => destruct x end].
    + destruct (isLetterOrNumber d); [done|]. destruct (isFileMacroChar d); [done|].
      unfold cutName. rewrite E40. by rewrite andb_false_r.
Qed.

Lemma not_file c : isFileMacroChar c = false <-> c ∉ [60; 42; 64; 63].
Proof. rewrite <- fileChar_spec. by destruct (isFileMacroChar c). Qed.

Lemma qleft_app (p s : qstr) : qleft (length p) (p ++ s) = p.
Proof. apply take_app. Qed.
Lemma skipn_S_app (p : qstr) c s : skipn (S (length p)) (p ++ c :: s) = s.
Proof. induction p; cbn; [done|]. done. Qed.

Lemma qleft_S_app (p : qstr) c s : qleft (S (length p)) (p ++ c :: s) = p ++ [c].
Proof. unfold qleft. induction p as [|x p IH]; [done|]. cbn [length app]. rewrite <- IH. done. Qed.

Lemma dolDol dep s : lex1 dep (36 :: 36 :: s) =
  match dep, s with
  | true, 64 :: s3 => Some (SFile [64], s3)
  | true, 40 :: 64 :: s3 => Some (SFile [40; 64], s3)
  | _, _ => Some (STxt [36], s)
  end.
Proof. done. Qed.

Lemma lex1_complete dep s g s' : one dep s g s' -> lex1 dep s = Some (g, s').
Proof.
  destruct 1 as [c s H| |s H|s H|s H|c s H|c s H|m s H|m b a s H H1 H2|c t s H H1].
  - cbn [lex1]. destruct s as [|d s]; [done|]. apply N.eqb_neq in H as ->. done.
  - done.
  - rewrite dolDol. destruct dep; [|done]. specialize (H eq_refl).
    destruct s as [|c [|d s]]; [done| |].
    + destruct (decide (c = 64)) as [->|Hc]; [by destruct (H []) as [? _]|].
      clear H. repeat first [done | match goal with |- context [match ?x with _ => _ end] => destruct x end].
    + destruct (decide (c = 64)) as [->|Hc]; [by destruct (H (d :: s)) as [? _]|].
      destruct (decide (c = 40)) as [->|Hc'].
      * destruct (decide (d = 64)) as [->|Hd]; [by destruct (H s) as [_ ?]|].
        clear H. repeat first [done | match goal with |- context [match ?x with _ => _ end] => destruct x end].
      * clear H. repeat first [done | match goal with |- context [match ?x with _ => _ end] => destruct x end].
  - subst. done.
  - subst. done.
  - cbn [lex1]. change (negb (36 =? 36)) with false. cbn iota.
    destruct (c =? 40) eqn:E; [apply N.eqb_eq in E as ->; done|].
    destruct (c =? 36) eqn:E'; [apply N.eqb_eq in E' as ->; done|]. by rewrite H.
  - apply fileChar_spec in H as H'. cbn [lex1]. change (negb (36 =? 36)) with false. cbn iota.
    destruct (c =? 40) eqn:E; [apply N.eqb_eq in E as ->; done|].
    destruct (c =? 36) eqn:E'; [apply N.eqb_eq in E' as ->; done|]. rewrite H'.
    rewrite !elem_of_cons, elem_of_nil in H. destruct H as [->|[->|[->|[->|[]]]]]; done.
  - destruct H as (H1 & H2 & f & m' & Hm & H3). cbn [lex1]. change (negb (36 =? 36)) with false. change (40 =? 40) with true.
    cbn iota. rewrite scan_app by done. assert (indexOfChar 58 m = None) as -> by (by apply index_none).
    cbn zeta. rewrite qleft_app. rewrite Hm. apply not_file in H3. rewrite H3, <- Hm. by rewrite skipn_S_app.
  - destruct H as (H3 & H4 & f & m' & Hm & H5). cbn [lex1]. change (negb (36 =? 36)) with false. change (40 =? 40) with true.
    cbn iota.
    assert (exists e, scanInvocation (m ++ 58 :: b ++ 61 :: a ++ 41 :: s) = Some (e, Some (length m))) as [e ->].
    { assert (41 ∈ 58 :: b ++ 61 :: a ++ 41 :: s) as Hin by (clear; set_solver).
      apply split_at in Hin as (p & r & E & Hp). destruct p as [|x p]; [done|]. injection E as <- E. rewrite E.
      change (m ++ 58 :: p ++ 41 :: r) with (m ++ (58 :: p) ++ 41 :: r). rewrite app_assoc.
      rewrite scan_app by (rewrite elem_of_app; by intros [?|?]). rewrite index_app by done. eauto. }
    cbn zeta. rewrite qleft_app. rewrite Hm. apply not_file in H5. rewrite H5, <- Hm.
    rewrite skipn_S_app, parseSub_spec by done.
    replace (b ++ 61 :: a ++ 41 :: s) with ((b ++ 61 :: a) ++ 41 :: s) by (by rewrite <- app_assoc).
    by rewrite skipn_S_app.
  - apply fileChar_spec in H as H'. cbn [lex1]. change (negb (36 =? 36)) with false. change (40 =? 40) with true.
    cbn iota. change (c :: t ++ 41 :: s) with ((c :: t) ++ 41 :: s).
    assert (c <> 41 /\ c <> 58) as [N1 N2].
    { rewrite !elem_of_cons, elem_of_nil in H. destruct H as [->|[->|[->|[->|[]]]]]; done. }
    rewrite scan_app by (rewrite not_elem_of_cons; done). cbn zeta.
    assert (exists r, qleft (match indexOfChar 58 (c :: t) with Some k => k | None => length (c :: t) end) ((c :: t) ++ 41 :: s) = c :: r) as [r ->].
    { cbn [indexOfChar]. apply N.eqb_neq in N2 as ->. destruct (indexOfChar 58 t); cbn; eauto. }
    rewrite H'. rewrite skipn_S_app. rewrite qleft_S_app. done.
Qed.

Lemma lex1_sound dep s g s' : lex1 dep s = Some (g, s') -> one dep s g s'.
Proof.
  destruct s as [|c s1]; [done|]. cbn [lex1]. destruct s1 as [|d s2].
  - intros [= <- <-]. destruct (decide (c = 36)) as [->|]; by constructor.
  - destruct (c =? 36) eqn:E36; cbn [negb].
    2: { apply N.eqb_neq in E36. intros [= <- <-]. by constructor. }
    apply N.eqb_eq in E36 as ->. destruct (d =? 40) eqn:E40.
    + apply N.eqb_eq in E40 as ->. destruct (decide (41 ∈ s2)) as [Hin|Hin].
      2: { apply scan_none in Hin as ->. done. }
      apply split_at in Hin as (p & r & -> & Hp). rewrite scan_app by done. cbn zeta.
      destruct (indexOfChar 58 p) as [k|] eqn:Ek.
      * assert (58 ∈ p) as Hin.
        { destruct (decide (58 ∈ p)) as [|Hn]; [done|]. apply index_none in Hn. congruence. }
        apply split_at in Hin as (m & t & -> & Hm). rewrite index_app in Ek by done. injection Ek as <-.
        apply not_elem_of_app in Hp as [Hp1 Hp2].
        rewrite <- app_assoc. rewrite qleft_app. cbn [app].
        destruct m as [|f m]; [done|]. destruct (isFileMacroChar f) eqn:Ef.
        -- apply fileChar_spec in Ef.
           assert (41 ∉ m ++ 58 :: t) as Hn.
           { rewrite not_elem_of_app. split; [|done]. by apply not_elem_of_cons in Hp1 as [_ ?]. }
           pose proof (one_filepar dep f (m ++ 58 :: t) r Ef Hn) as O.
           assert (E : (f :: m) ++ 58 :: t ++ 41 :: r = ((f :: m) ++ 58 :: t) ++ 41 :: r) by (by rewrite <- app_assoc).
           rewrite E, qleft_S_app, skipn_S_app. intros H. injection H as <- <-. exact O.
        -- change (f :: m) with (f :: m : qstr). rewrite skipn_S_app.
           destruct (parseSubstitution (t ++ 41 :: r)) as [[[b a] e]|] eqn:Es; [|done]. intros [= <- <-].
           pose proof (parseSub_inv _ _ Es) as (b' & a' & rest & E & H1 & H2). rewrite E in *.
           rewrite parseSub_spec in Es by done. injection Es as <- <- <-.
           replace (b' ++ 61 :: a' ++ 41 :: rest) with ((b' ++ 61 :: a') ++ 41 :: rest) by (by rewrite <- app_assoc).
           rewrite skipn_S_app. rewrite <- app_assoc. apply one_sub; [|done|done].
           split; [done|]. split; [done|]. exists f, m. split; [done|]. by apply not_file.
      * apply index_none in Ek. rewrite qleft_app. destruct p as [|f p]; [done|].
        destruct (isFileMacroChar f) eqn:Ef.
        -- apply fileChar_spec in Ef.
           assert (41 ∉ p) as Hn by (by apply not_elem_of_cons in Hp as [_ ?]).
           pose proof (one_filepar dep f p r Ef Hn) as O.
           rewrite qleft_S_app, skipn_S_app. intros H. injection H as <- <-. exact O.
        -- rewrite skipn_S_app. intros [= <- <-]. apply (one_mac dep (f :: p)).
           split; [done|]. split; [done|]. exists f, p. split; [done|]. by apply not_file.
    + destruct (d =? 36) eqn:E36'.
      * apply N.eqb_eq in E36' as ->. destruct dep.
        2: { intros [= <- <-]. by apply one_dollar. }
        assert (Hdef : (forall s3, s2 <> 64 :: s3 /\ s2 <> 40 :: 64 :: s3) ->
          Some (STxt [36], s2) = Some (g, s') -> one true (36 :: 36 :: s2) g s').
        { intros Hn [= <- <-]. by apply one_dollar. }
        destruct s2 as [|x s2]; [intros H; by apply Hdef|].
        destruct (decide (x = 64)) as [->|N1]; [intros [= <- <-]; by constructor|].
        destruct (decide (x = 40)) as [->|N2].
        -- destruct s2 as [|y s2]; [intros H; apply Hdef; [done|exact H]|].
           destruct (decide (y = 64)) as [->|N3]; [intros [= <- <-]; by constructor|].
           intros H. apply Hdef; [intros s3; split; congruence|]. rewrite <- H. clear -N3.
           repeat first [done | match goal with |- context [match ?x with _ => _ end] => destruct x end].
        -- intros H. apply Hdef; [intros s3; split; congruence|]. rewrite <- H. clear -N1 N2.
           repeat first [done | match goal with |- context [match ?x with _ => _ end] => destruct x end].
      * destruct (isLetterOrNumber d) eqn:El; [intros [= <- <-]; by constructor|].
        destruct (isFileMacroChar d) eqn:Ef; [|done]. intros [= <- <-]. apply fileChar_spec in Ef. by constructor.
Qed.
Lemma one_lex dep s g s' : one dep s g s' <-> lex1 dep s = Some (g, s').
Proof. split; [apply lex1_complete|apply lex1_sound]. Qed.

Lemma one_det dep s g s1 g' s1' : one dep s g s1 -> one dep s g' s1' -> g = g' /\ s1 = s1'.
Proof. rewrite !one_lex. intros -> [= -> ->]. done. Qed.
Lemma one_shorter dep s g s' : one dep s g s' -> (length s' < length s)%nat.
Proof. destruct 1; unfold qstr, qchar in *; repeat (rewrite app_length || cbn [length]); lia. Qed.
Lemma one_nil dep g s' : ~ one dep [] g s'.
Proof. rewrite one_lex. done. Qed.

Lemma cutName_spec s m : cutName s = Some m ->
  invName m /\ exists t, s = 36 :: 40 :: m ++ 58 :: t /\ 41 ∈ t.
Proof.
  destruct s as [|c [|d s2]]; try done. cbn [cutName].
  destruct (negb ((c =? 36) && (d =? 40))) eqn:E; [done|].
  apply negb_false_iff, andb_true_iff in E as [->%N.eqb_eq ->%N.eqb_eq].
  destruct (decide (41 ∈ s2)) as [Hin|Hin].
  2: { apply scan_none in Hin as ->. done. }
  apply split_at in Hin as (p & r & -> & Hp). rewrite scan_app by done.
  destruct (indexOfChar 58 p) as [k|] eqn:Ek; [|done].
  assert (58 ∈ p) as Hin.
  { destruct (decide (58 ∈ p)) as [|Hn]; [done|]. apply index_none in Hn. congruence. }
  apply split_at in Hin as (n & t & -> & Hn). rewrite index_app in Ek by done. injection Ek as <-.
  rewrite <- app_assoc. rewrite qleft_app. apply not_elem_of_app in Hp as [Hp1 Hp2]. cbn [app].
  destruct n as [|f n]; [done|]. destruct (isFileMacroChar f) eqn:Ef; [done|].
  destruct (parseSubstitution _); [done|]. intros [= <-]. split.
  - split; [done|]. split; [done|]. exists f, n. split; [done|]. by apply not_file.
  - exists (t ++ 41 :: r). split; [done|]. set_solver.
Qed.

(** A reference with a colon refers to the name before it. *)
Lemma one_colon dep m t g s' : invName m -> 41 ∈ t -> one dep (36 :: 40 :: m ++ 58 :: t) g s' -> exists b a, g = SSub m b a.
Proof.
  intros (H3 & H4 & f & m' & Hm & H5) Hin. rewrite one_lex. cbn [lex1].
  change (negb (36 =? 36)) with false. change (40 =? 40) with true. cbn iota.
  apply split_at in Hin as (p & r & -> & Hp).
  change (m ++ 58 :: p ++ 41 :: r) with (m ++ (58 :: p) ++ 41 :: r). rewrite app_assoc.
  rewrite scan_app by (rewrite elem_of_app, elem_of_cons; intros [?|[?|?]]; done).
  rewrite index_app by done. cbn zeta. rewrite <- app_assoc, qleft_app. rewrite Hm. apply not_file in H5. rewrite H5, <- Hm.
  destruct (parseSubstitution _) as [[[b a] e]|]; [|done]. intros [= <- _]. eauto.
Qed.

Lemma takes_app dep s l1 s1 l2 s2 : takes dep s l1 s1 -> takes dep s1 l2 s2 -> takes dep s (l1 ++ l2) s2.
Proof. induction 1; [done|]. intros. cbn. by econstructor; eauto. Qed.
Lemma pieces_prefix dep s l rest ps : takes dep s l rest -> pieces dep s ps -> exists l', ps = l ++ l' /\ pieces dep rest l'.
Proof.
  intros H. revert ps. induction H as [s|s g s1 l rest Ho Ht IH]; intros ps Hp; [by exists ps|].
  inversion Hp as [|? g' s1' ps' ? Ho' Ht']; subst; [by apply one_nil in Ho|].
  destruct (one_det _ _ _ _ _ _ Ho Ho') as [<- <-]. destruct (IH _ Ht') as (l' & -> & ?). by exists l'.
Qed.
Lemma pieces_det dep s ps ps' : pieces dep s ps -> pieces dep s ps' -> ps = ps'.
Proof.
  intros H H'. destruct (pieces_prefix _ _ _ _ _ H H') as (l' & -> & Hl).
  inversion Hl; subst; [by rewrite app_nil_r|]. exfalso. by eapply one_nil.
Qed.

(** In a string that can be read to its end, mentions are pieces. *)
Lemma mentions_pieces dep s ps m : pieces dep s ps -> mentions dep s m <-> exists g, g ∈ ps /\ refersTo g m.
Proof.
  intros Hp. split.
  - intros (l & rest & Ht & [(g & Hg & Hr)|(Hm & t & -> & Hin)]);
      destruct (pieces_prefix _ _ _ _ _ Ht Hp) as (l' & -> & Hl).
    + exists g. split; [set_solver|done].
    + inversion Hl as [|? g s1 l'' ? Ho ?]; subst. exists g. split; [set_solver|]. right. by eapply one_colon.
  - intros (g & Hg & Hr). exists ps, []. split; [done|]. left. eauto.
Qed.
Lemma not_malformed dep s ps : pieces dep s ps -> ~ malformed dep s.
Proof.
  intros Hp (l & rest & Ht & Hne & Hno). destruct (pieces_prefix _ _ _ _ _ Ht Hp) as (l' & -> & Hl).
  inversion Hl; subst; [done|]. by eapply Hno.
Qed.

Lemma mentions_step dep s g s1 m : one dep s g s1 -> mentions dep s1 m -> mentions dep s m.
Proof.
  intros Ho (l & rest & Ht & H). exists (g :: l), rest. split; [by econstructor|].
  destruct H as [(x & Hx & Hr)|?]; [left|by right]. exists x. split; [by right|done].
Qed.
Lemma mentions_here dep s g s1 m : one dep s g s1 -> refersTo g m -> mentions dep s m.
Proof.
  intros Ho Hr. exists [g], s1. split; [econstructor; [done|constructor]|]. left. exists g. split; [left|done].
Qed.
Lemma malformed_step dep s g s1 : one dep s g s1 -> malformed dep s1 -> malformed dep s.
Proof. intros Ho (l & rest & Ht & H). exists (g :: l), rest. split; [by econstructor|done]. Qed.

(** ** One call of expandMacros *)

Inductive standsC (call : qstr -> xres) : list seg -> qstr -> Prop :=
| sc_nil : standsC call [] []
| sc_txt t l r : standsC call l r -> standsC call (STxt t :: l) (t ++ r)
| sc_file t l r : standsC call l r -> standsC call (SFile t :: l) (magicEscape :: t ++ r)
| sc_mac m v l r : call m = XOk v -> standsC call l r -> standsC call (SMac m :: l) (v ++ r)
| sc_sub m b a v l r : call m = XOk v -> standsC call l r -> standsC call (SSub m b a :: l) (replaceAll b a v ++ r).

Definition loopPost (call : qstr -> xres) (dep : bool) (s : qstr) (x : xres) : Prop :=
  match x with
  | XOk r => exists ps, pieces dep s ps /\ standsC call ps r
  | XErr => malformed dep s \/ exists m, mentions dep s m /\ call m = XErr
  | XCycle k => exists m, mentions dep s m /\ call m = XCycle k
  | XFuel => exists m, mentions dep s m /\ call m = XFuel
  end.

Lemma evalSeg_post call dep s g s1 k : one dep s g s1 -> loopPost call dep s1 k -> loopPost call dep s (evalSeg call g k).
Proof.
  intros Ho Hk.
  assert (Hpass : forall m x, refersTo g m -> call m = x -> match x with XOk _ => True | _ => loopPost call dep s x end).
  { intros m x Hr Hx. pose proof (mentions_here _ _ _ _ _ Ho Hr) as Hm. destruct x; [done| | |]; cbn; eauto. }
  assert (Hrest : forall x, k = x -> match x with XOk _ => True | _ => loopPost call dep s x end).
  { intros x Hx. subst x. destruct k as [r|c| |]; [done| | |]; cbn in *.
    - destruct Hk as (m & Hm & ?). exists m. split; [by eapply mentions_step|done].
    - destruct Hk as [Hk|(m & Hm & ?)]; [left; by eapply malformed_step|]. right. exists m. split; [by eapply mentions_step|done].
    - destruct Hk as (m & Hm & ?). exists m. split; [by eapply mentions_step|done]. }
  destruct g as [t|m|m b a|t]; cbn [evalSeg].
  - destruct k as [r|c| |]; cbn [xbind]; try (exact (Hrest _ eq_refl)).
    destruct Hk as (ps & Hp & Hs). exists (STxt t :: ps). split; [by econstructor|by constructor].
  - destruct (call m) as [v|c| |] eqn:Ec; cbn [xbind]; try (exact (Hpass m _ ltac:(by left) Ec)).
    destruct k as [r|c| |]; cbn [xbind]; try (exact (Hrest _ eq_refl)).
    destruct Hk as (ps & Hp & Hs). exists (SMac m :: ps). split; [by econstructor|by constructor].
  - destruct (call m) as [v|c| |] eqn:Ec; cbn [xbind]; try (exact (Hpass m _ ltac:(right; eauto) Ec)).
    destruct k as [r|c| |]; cbn [xbind]; try (exact (Hrest _ eq_refl)).
    destruct Hk as (ps & Hp & Hs). exists (SSub m b a :: ps). split; [by econstructor|by constructor].
  - destruct k as [r|c| |]; cbn [xbind]; try (exact (Hrest _ eq_refl)).
    destruct Hk as (ps & Hp & Hs). exists (SFile t :: ps). split; [by econstructor|by constructor].
Qed.

Lemma loop_post call dep n s : (length s <= n)%nat -> loopPost call dep s (expandLoop call dep n s).
Proof.
  revert s. induction n as [|n IH]; intros s Hs.
  { destruct s; [|cbn in Hs; lia]. cbn. exists []. split; constructor. }
  destruct s as [|c s1]; [cbn; exists []; split; constructor|].
  rewrite loop_step. destruct (lex1 dep (c :: s1)) as [[g s']|] eqn:E.
  - apply one_lex in E. eapply evalSeg_post; [done|]. pose proof (one_shorter _ _ _ _ E) as Hl.
    destruct s1 as [|d s1].
    + destruct s'; [|cbn in Hl; lia]. cbn. exists []. split; constructor.
    + apply IH. cbn in *. lia.
  - assert (Hbad : malformed dep (c :: s1)).
    { exists [], (c :: s1). split; [constructor|]. split; [done|]. intros g s'. rewrite one_lex. congruence. }
    destruct (cutName (c :: s1)) as [m|] eqn:Ec; [|by left].
    apply cutName_spec in Ec as (Hm & t & Et & Hin).
    assert (mentions dep (c :: s1) m) as Hmen.
    { exists [], (c :: s1). split; [constructor|]. right. split; [done|]. exists t. done. }
    destruct (call m) as [v|k| |] eqn:Ec; cbn; eauto.
Qed.

Lemma standsC_calls call ps r g m : standsC call ps r -> g ∈ ps -> refersTo g m -> exists v, call m = XOk v.
Proof.
  induction 1 as [|t l r H IH|t l r H IH|m' v l r Hc H IH|m' b a v l r Hc H IH]; intros Hg Hr; [by apply elem_of_nil in Hg|..];
    (apply elem_of_cons in Hg as [->|Hg]; [|by apply IH]); destruct Hr as [Hr|(b' & a' & Hr)]; try done; injection Hr as ->; eauto.
Qed.

Lemma replaceGo_skip b a p s : replaceGo b a (length p) (p ++ s) = replaceGo b a 0 s.
Proof. induction p as [|c p IH]; [done|]. cbn. done. Qed.
Lemma starts_spec p s : startsWith p s = true <-> exists t, s = p ++ t.
Proof.
  revert s. induction p as [|c p IH]; intros s; cbn; [split; [eauto|done]|].
  destruct s as [|d s]; [split; [done|intros [? ?]; done]|]. rewrite andb_true_iff, N.eqb_eq, IH. split.
  - intros [-> [t ->]]. eauto.
  - intros [t [= -> ->]]. eauto.
Qed.
Lemma replaceGo_replaced b a s : b <> [] -> replaced b a s (replaceGo b a 0 s).
Proof.
  intros Hb. remember (length s) as n eqn:En. revert s En. induction (lt_wf n) as [n _ IH]. intros s ->.
  destruct s as [|c s]; [constructor|]. cbn [replaceGo]. destruct (startsWith b (c :: s)) eqn:E.
  - apply starts_spec in E as [t Ht]. destruct b as [|c' b]; [done|]. injection Ht as -> ->.
    cbn [length]. rewrite Nat.sub_succ, Nat.sub_0_r, replaceGo_skip. apply (rp_here (c' :: b)).
    eapply IH; [|done]. cbn. rewrite app_length. lia.
  - apply rp_skip; [|eapply IH; [|done]; cbn; lia].
    intros t Ht. enough (startsWith b (c :: s) = true) by congruence. apply starts_spec. eauto.
Qed.
Lemma replaced_det b a s r r' : b <> [] -> replaced b a s r -> replaced b a s r' -> r = r'.
Proof.
  intros Hb H. revert r'. induction H as [|s r H IH|c s r Hn H IH]; intros r' H'.
  - inversion H' as [|s' r'' ? E|]; subst; [done|]. destruct b; done.
  - inversion H' as [E|s' r'' ? E|c s' r'' Hn ? E]; subst.
    + destruct b; done.
    + apply app_inv_head in E as ->. f_equal. by apply IH.
    + destruct b as [|c' b]; [done|]. injection E as -> ->. by destruct (Hn s).
  - inversion H' as [|s' r'' ? E|]; subst.
    + by destruct (Hn s').
    + f_equal. by apply IH.
Qed.
Lemma substituted_ok b a v : substituted b a v (replaceAll b a v).
Proof.
  destruct b as [|c b].
  - right. split; [done|]. cbn. destruct a; [|done]. rewrite app_nil_r. induction v as [|x v IH]; [done|]. cbn. by f_equal.
  - left. split; [done|]. by apply replaceGo_replaced.
Qed.
Lemma substituted_det b a v w w' : substituted b a v w -> substituted b a v w' -> w = w'.
Proof. intros [[? ?]|[? ->]] [[? ?]|[? ->]]; try done. by eapply replaced_det. Qed.

(** ** The recursion *)
Section Rec.
Context (mt : gmap qstr mdata) (dep : bool).

Lemma mentions_nil m : ~ mentions dep [] m.
Proof.
  intros (l & rest & Ht & H). inversion Ht; subst; [|by eapply one_nil].
  destruct H as [(g & Hg & _)|(_ & t & ? & _)]; [by apply elem_of_nil in Hg|done].
Qed.
Lemma needs_defined a b : needs mt dep a b -> a ∈ dom mt.
Proof.
  unfold needs, macroValue. intros H. apply elem_of_dom. destruct (mt !! a) eqn:E; [eauto|]. by apply mentions_nil in H.
Qed.

Definition exPost (used : list qstr) (s : qstr) (x : xres) : Prop :=
  match x with
  | XOk r => expandsTo mt dep s r
  | XErr => meetsMalformed mt dep s
  | XCycle k => recursive mt dep s k
  | XFuel => False
  end.

Lemma expandWith_post fuel used s :
  NoDup used -> (forall u, u ∈ tail used -> u ∈ dom mt) ->
  (forall m, mentions dep s m -> forall u, u ∈ used -> u ∈ dom mt) ->
  (forall u m, u ∈ used -> mentions dep s m -> tc (needs mt dep) u m) ->
  (S (S (size mt)) <= fuel + length used)%nat ->
  exPost used s (expandWith fuel mt dep used s).
Proof.
  revert used s. induction fuel as [|fuel IH]; intros used s Hnd Htl Hdom Hchain Hsz.
  { exfalso. assert (length (tail used) <= size mt)%nat.
    { rewrite <- size_dom. rewrite <- (size_list_to_set (C:=gset qstr) (tail used)); [|by destruct used as [|? u]; [constructor|apply NoDup_cons in Hnd as []]].
      apply subseteq_size. intros u Hu. apply elem_of_list_to_set in Hu. by apply Htl. }
    destruct used; cbn in *; lia. }
  cbn [expandWith].
  match goal with |- context [expandLoop ?c _ _ _] => set (call := c) end.
  pose proof (loop_post call dep (length s) s ltac:(done)) as HL.
  assert (Hcall : forall m, mentions dep s m -> match call m with
     | XOk v => m ∉ used /\ expandsTo mt dep (macroValue mt m) v
     | XErr => meetsMalformed mt dep (macroValue mt m)
     | XCycle k => (k = m /\ tc (needs mt dep) m m) \/ recursive mt dep (macroValue mt m) k
     | XFuel => False end).
  { intros m Hm. unfold call. destruct (containsStr m used) eqn:Ec.
    - left. split; [done|]. apply Hchain; [|done]. unfold containsStr in Ec. apply existsb_exists in Ec as (x & Hx & E%qeqb_spec).
      subst. by apply elem_of_list_In.
    - assert (Hnin : m ∉ used).
      { intros Hin. enough (containsStr m used = true) by congruence. apply existsb_exists. exists m. split; [by apply elem_of_list_In|]. apply qeqb_refl. }
      pose proof (IH (m :: used) (macroValue mt m)) as P. 
      assert (exPost (m :: used) (macroValue mt m) (expandWith fuel mt dep (m :: used) (macroValue mt m))) as P'.
      { apply P; clear P.
        - by constructor.
        - cbn. by apply (Hdom m).
        - intros m' Hm' u Hu. apply elem_of_cons in Hu as [->|Hu]; [by eapply needs_defined|by apply (Hdom m)].
        - intros u m' Hu Hm'. apply elem_of_cons in Hu as [->|Hu]; [by apply tc_once|].
          eapply tc_r; [by apply Hchain|done].
        - cbn. lia. }
      destruct (expandWith fuel mt dep (m :: used) (macroValue mt m)); cbn in P'; eauto. }
  unfold exPost. destruct (expandLoop call dep (length s) s) as [r|k| |]; cbn in HL.
  - destruct HL as (ps & Hp & Hs). exists ps. split; [done|].
    assert (Hall : forall g m, g ∈ ps -> refersTo g m -> mentions dep s m).
    { intros g m Hg Hr. apply (mentions_pieces _ _ _ _ Hp). eauto. }
    clear Hp. induction Hs as [|t l r H IHs|t l r H IHs|m v l r Hc H IHs|m b a v l r Hc H IHs].
    + constructor.
    + constructor. apply IHs. intros g m Hg. apply Hall. by right.
    + constructor. apply IHs. intros g m Hg. apply Hall. by right.
    + pose proof (Hcall m ltac:(eapply Hall; [left|by left])) as P. rewrite Hc in P. destruct P as [_ (ps' & P1 & P2)].
      econstructor; [done|done|]. apply IHs. intros g m' Hg. apply Hall. by right.
    + pose proof (Hcall m ltac:(eapply Hall; [left|right; eauto])) as P. rewrite Hc in P. destruct P as [_ (ps' & P1 & P2)].
      econstructor; [done|done|apply substituted_ok|]. apply IHs. intros g m' Hg. apply Hall. by right.
  - destruct HL as (m & Hm & Hc). pose proof (Hcall m Hm) as P. rewrite Hc in P. destruct P as [[-> P]|(n & Hn & Hr & Ht)].
    + exists m. done.
    + exists m. split; [done|]. split; [|done]. eapply rtc_l; [exact Hn|done].
  - destruct HL as [HL|(m & Hm & Hc)]; [by left|]. pose proof (Hcall m Hm) as P. rewrite Hc in P. right.
    destruct P as [P|(n & n' & Hn & Hr & Hb)].
    + exists m, m. done.
    + exists m, n'. split; [done|]. split; [|done]. eapply rtc_l; [exact Hn|done].
  - destruct HL as (m & Hm & Hc). pose proof (Hcall m Hm) as P. by rewrite Hc in P.
Qed.

Lemma expand_post s : exPost [] s (expandMacros mt dep s).
Proof.
  apply expandWith_post.
  - constructor.
  - cbn. intros u Hu. by apply elem_of_nil in Hu.
  - intros m _ u Hu. by apply elem_of_nil in Hu.
  - intros u m Hu. by apply elem_of_nil in Hu.
  - cbn. lia.
Qed.

(** ** The meaning of a string is unique and excludes recursion and malformed parts *)

Lemma stands_det ps r r' : stands mt dep ps r -> stands mt dep ps r' -> r = r'.
Proof.
  intros H. revert r'. induction H as [|t l r H IH|t l r H IH|m ps v l r Hp Hv IHv H IH|m b a ps v w l r Hp Hv IHv Hw H IH];
    intros r' H'; inversion H'; subst.
  - done.
  - f_equal. by apply IH.
  - do 2 f_equal. by apply IH.
  - match goal with P : pieces dep (macroValue mt m) _ |- _ => pose proof (pieces_det _ _ _ _ P Hp); clear P; subst end.
    f_equal; [by apply IHv|by apply IH].
  - match goal with P : pieces dep (macroValue mt m) ?x |- _ => assert (x = ps) by (by eapply pieces_det); subst end.
    f_equal; [|by apply IH]. match goal with P : stands mt dep ps ?x |- _ => match x with v => fail 1 | _ => rewrite <- (IHv _ P) in * end end.
    by eapply substituted_det.
Qed.

Lemma stands_acc ps r : stands mt dep ps r -> forall g m, g ∈ ps -> refersTo g m ->
  Acc (fun b a => needs mt dep a b) m /\ (forall n, rtc (needs mt dep) m n -> ~ malformed dep (macroValue mt n)).
Proof.
  assert (Hone : forall m ps', pieces dep (macroValue mt m) ps' ->
    (forall g m', g ∈ ps' -> refersTo g m' -> Acc (fun b a => needs mt dep a b) m' /\ (forall n, rtc (needs mt dep) m' n -> ~ malformed dep (macroValue mt n))) ->
    Acc (fun b a => needs mt dep a b) m /\ (forall n, rtc (needs mt dep) m n -> ~ malformed dep (macroValue mt n))).
  { intros m ps' Hp Hall. split.
    - constructor. intros b Hb. apply (mentions_pieces _ _ _ _ Hp) in Hb as (g & Hg & Hr). by destruct (Hall g b Hg Hr).
    - intros n Hn. inversion Hn as [|? b ? Hb Hr]; subst; [by eapply not_malformed|].
      apply (mentions_pieces _ _ _ _ Hp) in Hb as (g & Hg & Hr'). destruct (Hall g b Hg Hr') as [_ A]. by apply A. }
  induction 1 as [|t l r H IH|t l r H IH|m' ps v l r Hp Hv IHv H IH|m' b a ps v w l r Hp Hv IHv Hw H IH];
    intros g m Hg Hr; [by apply elem_of_nil in Hg|..];
    (apply elem_of_cons in Hg as [->|Hg]; [|exact (IH g m Hg Hr)]); destruct Hr as [Hr|(b' & a' & Hr)]; try discriminate Hr; injection Hr; intros; subst; exact (Hone _ _ Hp IHv).
Qed.

Lemma acc_irrefl m : Acc (fun b a => needs mt dep a b) m -> ~ tc (needs mt dep) m m.
Proof.
  induction 1 as [m _ IH]. intros H. inversion H as [? ? Hn|? b ? Hn Ht]; subst.
  - apply (IH m Hn). done.
  - apply (IH b Hn). eapply tc_rtc_r; [exact Ht|]. by apply rtc_once.
Qed.
Lemma acc_rtc m n : Acc (fun b a => needs mt dep a b) m -> rtc (needs mt dep) m n -> Acc (fun b a => needs mt dep a b) n.
Proof. intros H Hr. induction Hr as [|m x n Hn Hr IH]; [done|]. apply IH. by apply (Acc_inv H). Qed.

Lemma expandsTo_no_recursion s r n : expandsTo mt dep s r -> ~ recursive mt dep s n.
Proof.
  intros (ps & Hp & Hs) (m & Hm & Hr & Ht). apply (mentions_pieces _ _ _ _ Hp) in Hm as (g & Hg & Hm).
  destruct (stands_acc _ _ Hs g m Hg Hm) as [A _]. eapply acc_irrefl; [by eapply acc_rtc|done].
Qed.
Lemma expandsTo_wellformed s r : expandsTo mt dep s r -> ~ meetsMalformed mt dep s.
Proof.
  intros (ps & Hp & Hs) [Hb|(m & n & Hm & Hr & Hb)]; [by eapply not_malformed|].
  apply (mentions_pieces _ _ _ _ Hp) in Hm as (g & Hg & Hm). destruct (stands_acc _ _ Hs g m Hg Hm) as [_ A]. by eapply A.
Qed.
Lemma expandsTo_det s r r' : expandsTo mt dep s r -> expandsTo mt dep s r' -> r = r'.
Proof.
  intros (ps & Hp & Hs) (ps' & Hp' & Hs'). rewrite (pieces_det _ _ _ _ Hp' Hp) in Hs'. by eapply stands_det.
Qed.
End Rec.

Lemma plain_takes dep s : 36 ∉ s -> exists ps, pieces dep s ps /\ forall mt, stands mt dep ps s.
Proof.
  induction s as [|c s IH]; intros H.
  - exists []. split; constructor.
  - destruct IH as (ps & Hp & Hs); [set_solver|]. exists (STxt [c] :: ps). split.
    + econstructor; [constructor; set_solver|done].
    + intros mt. apply (st_txt mt dep [c]). apply Hs.
Qed.
Lemma expand_ok_iff mt dep s r : expandMacros mt dep s = XOk r <-> expandsTo mt dep s r.
Proof.
  pose proof (expand_post mt dep s) as P. split.
  - intros E. by rewrite E in P.
  - intros H. destruct (expandMacros mt dep s) as [r'|k| |]; cbn in P.
    + f_equal. by eapply expandsTo_det.
    + by eapply expandsTo_no_recursion in P.
    + by eapply expandsTo_wellformed in P.
    + done.
Qed.
Lemma expand_plain mt dep s : 36 ∉ s -> expandMacros mt dep s = XOk s.
Proof. intros H. apply expand_ok_iff. destruct (plain_takes dep s H) as (ps & Hp & Hs). exists ps. split; [done|apply Hs]. Qed.

(** ** Definitions *)

Lemma valid_plain n : isMacroNameValid n = true -> 36 ∉ n.
Proof.
  unfold isMacroNameValid. destruct n as [|c n]; [done|]. intros H Hin. rewrite forallb_forall in H.
  apply elem_of_list_In in Hin. apply H in Hin. vm_compute in Hin. done.
Qed.
Lemma internalSet_valid t n v ro : isMacroNameValid n = true -> internalSet t n v ro =
  MOk (Mtable (<[n := let d := default newMacro (mt_macros t !! n) in
     if ro || negb (md_ro d) then Mdata (md_source d) (md_ro d) (replaceLazy (invocationOf n) (macroValue (mt_macros t) n) v) else d]> (mt_macros t)) (mt_env t), Some n).
Proof. intros H. unfold internalSet. rewrite expand_plain by (by apply valid_plain). rewrite H. done. Qed.

(** A read-only macro keeps its value. *)
Definition keeps (m v : qstr) (t : mtable) : Prop := exists d, mt_macros t !! m = Some d /\ md_value d = v /\ md_ro d = true.
Lemma keeps_internalSet m v t n w t' k : keeps m v t -> internalSet t n w false = MOk (t', k) -> keeps m v t'.
Proof.
  intros (d & Hd & Hv & Hr) H. unfold internalSet in H. destruct (expandMacros _ _ _) as [en| | |]; try done.
  destruct (isMacroNameValid en); [|by injection H as <- _; exists d].
  injection H as <- _. unfold keeps. cbn. destruct (decide (en = m)) as [->|Hne].
  - rewrite Hd. cbn. rewrite Hr. cbn. rewrite lookup_insert. eauto.
  - rewrite lookup_insert_ne by done. eauto.
Qed.
Lemma keeps_setSource m v t k src : keeps m v t -> keeps m v (setSource k src t).
Proof.
  intros (d & Hd & Hv & Hr). unfold keeps, setSource. cbn. destruct (decide (k = m)) as [->|Hne].
  - rewrite lookup_alter, Hd. cbn. eauto.
  - rewrite lookup_alter_ne by done. eauto.
Qed.
Lemma keeps_setEnv m v t k x : keeps m v t -> keeps m v (setEnv k x t).
Proof. done. Qed.
Lemma keeps_setRo m v t k b : k <> m -> keeps m v t -> keeps m v (setRo k b t).
Proof. intros Hne (d & Hd & Hv & Hr). unfold keeps, setRo. cbn. rewrite lookup_alter_ne by done. eauto. Qed.

Lemma upper_no_dollar n : 36 ∉ n -> 36 ∉ toUpper n.
Proof.
  unfold toUpper. intros H Hin. apply elem_of_list_In, in_flat_map in Hin as (c & Hc & Hin).
  apply elem_of_list_In in Hc. assert (c <> 36) by (intros ->; done).
  unfold upperChar in Hin. repeat (case_match; cbn in Hin; [repeat (destruct Hin as [Hin|Hin]; [try done|]); try done|]).
  - apply N.ltb_lt in H0 || idtac. 
    repeat match goal with H : _ || _ = true |- _ => apply orb_true_iff in H as [H|H] | H : _ && _ = true |- _ => apply andb_true_iff in H as [H ?] end;
      repeat match goal with H : (_ <=? _) = true |- _ => apply N.leb_le in H end; lia.
  - destruct Hin as [Hin|[]]. lia.
Qed.

Lemma keeps_setMacro m v t n w src t' : keeps m v t -> setMacroImpl n w src t = MOk t' -> keeps m v t'.
Proof.
  intros Hk H. unfold setMacroImpl in H. destruct (internalSet t n w false) as [[t1 [k|]]|] eqn:E; try done.
  pose proof (keeps_internalSet _ _ _ _ _ _ _ Hk E) as Hk1.
  destruct (srcEqb src SrcEnvironment).
  - destruct (expandMacros _ _ _); try done. injection H as <-. apply keeps_setEnv. by apply keeps_setSource.
  - injection H as <-. by apply keeps_setSource.
Qed.
Lemma keeps_environment m v t n w ro t' : 36 ∉ n -> keeps m v t -> defineEnvironment n w ro t = MOk t' -> keeps m v t'.
Proof.
  intros Hn Hk H. unfold defineEnvironment in H. cbn zeta in H. destruct (mt_macros t !! toUpper n) as [d|] eqn:Ed.
  - destruct (srcEqb _ _); [|by injection H as <-]. destruct (expandMacros _ _ (md_value d)); try done.
    injection H as <-. apply keeps_setEnv. by apply keeps_setSource.
  - destruct (expandMacros (mt_macros t) false w); try (by injection H as <-).
    destruct (internalSet t (toUpper n) w false) as [[t1 [k|]]|] eqn:E; try done.
    + pose proof (keeps_internalSet _ _ _ _ _ _ _ Hk E) as Hk1. injection H as <-.
      apply keeps_setEnv. apply keeps_setRo; [|by apply keeps_setSource].
      unfold internalSet in E. rewrite expand_plain in E by (by apply upper_no_dollar).
      destruct (isMacroNameValid (toUpper n)); [|done]. injection E as _ <-. destruct Hk as (d & Hd & _). congruence.
    + injection H as <-. by eapply keeps_internalSet.
Qed.
Lemma env_setMacro t n w src t' : src <> SrcEnvironment -> setMacroImpl n w src t = MOk t' -> mt_env t' = mt_env t.
Proof.
  intros Hs H. unfold setMacroImpl in H. destruct (internalSet t n w false) as [[t1 [k|]]|] eqn:E; try done.
  destruct src; cbn in H; try done; injection H as <-; cbn;
    unfold internalSet in E; destruct (expandMacros _ _ _) as [en| | |]; try done;
    destruct (isMacroNameValid en); try done; by injection E as <- _.
Qed.

Lemma lex1_none dep s : s <> [] -> lex1 dep s = None <-> unreadable s.
Proof.
  intros Hne. split.
  - destruct s as [|c [|d s2]]; [done|done|]. cbn [lex1]. destruct (c =? 36) eqn:E36; cbn [negb]; [|done]. apply N.eqb_eq in E36 as ->.
    destruct (d =? 40) eqn:E40.
    + apply N.eqb_eq in E40 as ->. destruct (decide (41 ∈ s2)) as [Hin|Hin]; [|intros; by constructor].
      apply split_at in Hin as (p & r & -> & Hp). rewrite scan_app by done. cbn zeta.
      destruct (indexOfChar 58 p) as [k|] eqn:Ek.
      * assert (58 ∈ p) as Hin.
        { destruct (decide (58 ∈ p)) as [|Hn]; [done|]. apply index_none in Hn. congruence. }
        apply split_at in Hin as (n & t & -> & Hn). rewrite index_app in Ek by done. injection Ek as <-.
        rewrite <- app_assoc. rewrite qleft_app. apply not_elem_of_app in Hp as [Hp1 Hp2]. cbn [app].
        destruct n as [|f n]; [intros _; cbn; apply un_colon; set_solver|]. destruct (isFileMacroChar f) eqn:Ef; [done|].
        rewrite skipn_S_app. destruct (parseSubstitution (t ++ 41 :: r)) as [[[b a] e]|] eqn:Es; [done|]. intros _.
        apply (un_subst (f :: n)); [|set_solver|].
        -- split; [done|]. split; [done|]. exists f, n. split; [done|]. by apply not_file.
        -- intros b a s E H1 H2. rewrite E, parseSub_spec in Es by done. done.
      * rewrite qleft_app. destruct p as [|f p]; [intros _; apply un_empty|]. destruct (isFileMacroChar f); done.
    + destruct (d =? 36) eqn:E36.
      * repeat first [done | match goal with |- context [match ?x with _ => _ end] => destruct x end].
      * destruct (isLetterOrNumber d) eqn:El; [done|]. destruct (isFileMacroChar d) eqn:Ef; [done|]. intros _.
        apply N.eqb_neq in E40, E36. constructor; try done. by apply not_file.
  - destruct 1 as [c s H1 H2 H3 H4|s H|s|s H|m t H1 H2 H3]; cbn [lex1]; change (negb (36 =? 36)) with false; cbn iota.
    + apply N.eqb_neq in H1 as ->. apply N.eqb_neq in H2 as ->. rewrite H3. apply not_file in H4 as ->. done.
    + destruct s as [|d s]; change (40 =? 40) with true; cbn iota.
      * done.
      * apply scan_none in H as ->. done.
    + done.
    + change (40 =? 40) with true. cbn iota.
      apply split_at in H as (p & r & -> & Hp). change (58 :: p ++ 41 :: r) with ((58 :: p) ++ 41 :: r).
      rewrite scan_app by (rewrite elem_of_cons; intros [?|?]; done). done.
    + change (40 =? 40) with true. cbn iota. destruct H1 as (H4 & H5 & f & m' & Hm & H6).
      apply split_at in H2 as (p & r & -> & Hp).
      change (m ++ 58 :: p ++ 41 :: r) with (m ++ (58 :: p) ++ 41 :: r). rewrite app_assoc.
      rewrite scan_app by (rewrite elem_of_app, elem_of_cons; intros [?|[?|?]]; done).
      rewrite index_app by done. cbn zeta. rewrite <- app_assoc, qleft_app. rewrite Hm. apply not_file in H6. rewrite H6, <- Hm.
      cbn [app]. rewrite skipn_S_app. destruct (parseSubstitution (p ++ 41 :: r)) as [x|] eqn:Ep; [|done].
      apply parseSub_inv in Ep as (b & a & s & E & Ha & Hq). by destruct (H3 b a s).
Qed.
Lemma unreadable_spec dep s : s <> [] -> (forall g s', ~ one dep s g s') <-> unreadable s.
Proof.
  intros Hne. rewrite <- (lex1_none dep) by done. split.
  - intros H. destruct (lex1 dep s) as [[g s']|] eqn:E; [|done]. apply one_lex in E. by destruct (H g s').
  - intros H g s' Ho. apply one_lex in Ho. congruence.
Qed.
