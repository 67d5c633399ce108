(** Lemmas about splitCommandLine. *)
From Coq Require Import List NArith Arith Bool Lia Ascii String.
From Verif Require Import Base SplitCmd SplitCmdSpec.
Import ListNotations.
Local Open Scope N_scope.

Lemma quotes_app a b : quotes (a ++ b) = (quotes a + quotes b)%nat.
Proof. apply count_occ_app. Qed.

Lemma quotes_cons c a : quotes (c :: a) = ((if (c =? 34)%N then 1 else 0) + quotes a)%nat.
Proof.
  unfold quotes. cbn [count_occ]. destruct (N.eq_dec c 34) as [->|n].
  - reflexivity.
  - rewrite (proj2 (N.eqb_neq c 34) n). reflexivity.
Qed.

(** Whether a text ends in an unpaired quote. *)
Fixpoint pending (k : bool) (w : qstr) : bool :=
  match w with
  | [] => k
  | c :: w' => if c =? 34 then pending (negb k) w' else pending false w'
  end.

Lemma odd_add_b (b : bool) n :
  Nat.odd ((if b then 1 else 0) + n) = xorb b (Nat.odd n).
Proof.
  destruct b; cbn [Nat.add]; [|now destruct (Nat.odd n)].
  rewrite Nat.odd_succ, <- Nat.negb_odd. now destruct (Nat.odd n).
Qed.

Lemma fold_text w : forall str args k i,
  (forall a c b, w = a ++ c :: b -> isSpace c = true -> xorb i (Nat.odd (quotes a)) = true) ->
  fold_left splitStep w (SplitSt str args k i)
  = SplitSt (str ++ value k w) args (pending k w) (xorb i (Nat.odd (quotes w))).
Proof.
  induction w as [|c w IH]; intros str args k i H.
  - cbn. now rewrite app_nil_r, xorb_false_r.
  - cbn [fold_left value pending].
    assert (Hc : isSpace c && negb i = false).
    { destruct (isSpace c) eqn:E; [|reflexivity].
      specialize (H [] c w eq_refl E). cbn in H. rewrite xorb_false_r in H. now rewrite H. }
    unfold splitStep at 2. cbn [sp_str sp_args sp_esc sp_in]. rewrite Hc.
    rewrite quotes_cons, odd_add_b.
    destruct (c =? 34) eqn:E.
    + assert (H' : forall a d b, w = a ++ d :: b -> isSpace d = true ->
          xorb (negb i) (Nat.odd (quotes a)) = true).
      { intros a d b -> Hd. specialize (H (c :: a) d b eq_refl Hd).
        rewrite quotes_cons, odd_add_b, E in H. destruct i, (Nat.odd (quotes a)); cbn in *; congruence. }
      destruct k; rewrite (IH _ _ _ _ H'); cbn [negb];
        [rewrite <- app_assoc; cbn [app]|];
        f_equal; destruct i, (Nat.odd (quotes w)); reflexivity.
    + assert (H' : forall a d b, w = a ++ d :: b -> isSpace d = true ->
          xorb i (Nat.odd (quotes a)) = true).
      { intros a d b -> Hd. specialize (H (c :: a) d b eq_refl Hd).
        rewrite quotes_cons, odd_add_b, E in H. destruct i, (Nat.odd (quotes a)); cbn in *; congruence. }
      rewrite (IH _ _ _ _ H'). rewrite <- app_assoc. cbn [app].
      f_equal. destruct i, (Nat.odd (quotes w)); reflexivity.
Qed.

Lemma fold_word w args : word w ->
  fold_left splitStep w (SplitSt [] args false false)
  = SplitSt (value false w) args (pending false w) false.
Proof.
  intros (_ & Hb & Hs). rewrite fold_text.
  - cbn [app]. f_equal. unfold balanced in Hb. rewrite <- Nat.even_spec in Hb.
    rewrite <- Nat.negb_even, Hb. reflexivity.
  - intros a c b E Hc. specialize (Hs a c b E Hc). rewrite <- Nat.odd_spec in Hs. now rewrite Hs.
Qed.

Lemma fold_blank b args : blank b ->
  fold_left splitStep b (SplitSt [] args false false) = SplitSt [] args false false.
Proof.
  induction 1 as [|c b Hc _ IH]; [reflexivity|]. cbn [fold_left].
  unfold splitStep at 2. cbn [sp_str sp_args sp_esc sp_in]. rewrite Hc. cbn. exact IH.
Qed.

(** What the words of a line are as arguments. *)
Definition argsOf (ws : list qstr) : list qstr :=
  filter (fun a => negb (isEmpty a)) (map (fun w => trimmed (value false w)) ws).

Lemma step_end c str args k : isSpace c = true ->
  splitStep (SplitSt str args k false) c
  = SplitSt [] (args ++ (if isEmpty (trimmed str) then [] else [trimmed str])) false false.
Proof.
  intros Hc. unfold splitStep. cbn [sp_str sp_args sp_esc sp_in]. rewrite Hc. cbn [andb negb].
  destruct (isEmpty (trimmed str)) eqn:E.
  - rewrite app_nil_r. f_equal. now destruct (trimmed str).
  - reflexivity.
Qed.

Lemma argsOf_cons w ws :
  argsOf (w :: ws) = (if isEmpty (trimmed (value false w)) then [] else [trimmed (value false w)]) ++ argsOf ws.
Proof. unfold argsOf. cbn. now destruct (isEmpty _). Qed.

Lemma split_sentence s ws : sentence s ws -> forall args,
  sp_args (fold_left splitStep (s ++ [32]) (SplitSt [] args false false)) = args ++ argsOf ws.
Proof.
  induction 1 as [b Hb|b w Hb Hw|b w c s ws Hb Hw Hc _ IH]; intros args.
  - rewrite fold_left_app, (fold_blank _ _ Hb). cbn. now rewrite app_nil_r.
  - rewrite !fold_left_app, (fold_blank _ _ Hb), (fold_word _ _ Hw). cbn [fold_left].
    rewrite step_end by reflexivity. cbn [sp_args]. rewrite argsOf_cons. cbn. now rewrite app_nil_r.
  - rewrite <- !app_assoc. cbn [app]. rewrite fold_left_app, (fold_blank _ _ Hb), fold_left_app,
      (fold_word _ _ Hw). cbn [fold_left]. rewrite step_end by exact Hc. rewrite IH.
    rewrite argsOf_cons, app_assoc. reflexivity.
Qed.

(** Every balanced line has words. *)
Fixpoint cutWord (i : bool) (s : qstr) : qstr * qstr :=
  match s with
  | [] => ([], [])
  | c :: s' =>
    if isSpace c && negb i then ([], s)
    else let (w, r) := cutWord (if c =? 34 then negb i else i) s' in (c :: w, r)
  end.

Lemma cutWord_app s : forall i, fst (cutWord i s) ++ snd (cutWord i s) = s.
Proof.
  induction s as [|c s IH]; intros i; [reflexivity|]. cbn [cutWord].
  destruct (isSpace c && negb i); [reflexivity|].
  specialize (IH (if c =? 34 then negb i else i)).
  destruct (cutWord _ s) as [w r]. cbn in *. now rewrite IH.
Qed.

Lemma cutWord_space s : forall i a c b, fst (cutWord i s) = a ++ c :: b -> isSpace c = true ->
  xorb i (Nat.odd (quotes a)) = true.
Proof.
  induction s as [|d s IH]; intros i a c b; cbn [cutWord].
  - intros E; cbn in E; now destruct a.
  - destruct (isSpace d && negb i) eqn:Ed; [intros E; cbn in E; now destruct a|].
    specialize (IH (if d =? 34 then negb i else i)).
    destruct (cutWord _ s) as [w r]. cbn [fst] in *. intros E Hc.
    destruct a as [|a0 a]; cbn in E.
    + injection E as -> ->. rewrite Hc in Ed. cbn. now destruct i.
    + injection E as -> ->. specialize (IH a c b eq_refl Hc).
      rewrite quotes_cons, odd_add_b. destruct (a0 =? 34), i, (Nat.odd (quotes a)); cbn in *; congruence.
Qed.

Lemma cutWord_rest s : forall i,
  snd (cutWord i s) = [] \/
  (exists c r, snd (cutWord i s) = c :: r /\ isSpace c = true /\
    xorb i (Nat.odd (quotes (fst (cutWord i s)))) = false).
Proof.
  induction s as [|d s IH]; intros i; cbn [cutWord]; [now left|].
  destruct (isSpace d && negb i) eqn:Ed.
  - right. exists d, s. apply andb_prop in Ed as [-> Hi]. cbn. destruct i; [discriminate|auto].
  - specialize (IH (if d =? 34 then negb i else i)). destruct (cutWord _ s) as [w r]. cbn [fst snd] in *.
    destruct IH as [->|(c & r' & -> & Hc & Hp)]; [now left|right]. exists c, r'.
    split; [reflexivity|]. split; [exact Hc|].
    rewrite quotes_cons, odd_add_b. destruct (d =? 34), i, (Nat.odd (quotes w)); cbn in *; congruence.
Qed.

Lemma balanced_odd s : balanced s <-> Nat.odd (quotes s) = false.
Proof.
  unfold balanced. rewrite <- Nat.even_spec, <- Nat.negb_odd.
  destruct (Nat.odd _); cbn; split; congruence.
Qed.

Lemma blank_snoc b c s ws : isSpace c = true -> sentence s ws -> blank b -> sentence (b ++ c :: s) ws.
Proof.
  intros Hc Hs Hb. destruct Hs as [b' Hb'|b' w Hb' Hw|b' w c' s ws Hb' Hw Hc' Hs].
  - apply sen_nil. apply Forall_app. split; [assumption|constructor; assumption].
  - change (b ++ c :: b' ++ w) with (b ++ (c :: b') ++ w). rewrite app_assoc. apply sen_last; [|assumption].
    apply Forall_app. split; [assumption|constructor; assumption].
  - change (b ++ c :: b' ++ w ++ c' :: s) with (b ++ (c :: b') ++ w ++ c' :: s). rewrite app_assoc.
    apply sen_cons; try assumption.
    apply Forall_app. split; [assumption|constructor; assumption].
Qed.

Lemma sentence_exists_n n : forall s, (List.length s < n)%nat -> balanced s -> exists ws, sentence s ws.
Proof.
  induction n as [|n IH]; intros s Hn Hb; [lia|].
  destruct s as [|c s]; [exists []; apply sen_nil; constructor|].
  destruct (isSpace c) eqn:Hc.
  - destruct (IH s) as [ws Hws].
    + cbn in Hn; lia.
    + apply balanced_odd. apply balanced_odd in Hb. rewrite quotes_cons, odd_add_b in Hb.
      destruct (c =? 34) eqn:E; [|now destruct (Nat.odd (quotes s))]. apply N.eqb_eq in E. subst. discriminate.
    + exists ws. exact (blank_snoc [] c s ws Hc Hws (Forall_nil _)).
  - set (t := c :: s) in *. pose proof (cutWord_app t false) as Happ.
    pose proof (cutWord_space t false) as Hsp. pose proof (cutWord_rest t false) as Hr.
    assert (Hne : fst (cutWord false t) <> []).
    { unfold t. cbn [cutWord]. rewrite Hc. cbn [andb]. destruct (cutWord _ s). cbn. congruence. }
    destruct (cutWord false t) as [w r]. cbn [fst snd] in *. cbn [xorb] in *.
    assert (Hspw : forall a c b, w = a ++ c :: b -> isSpace c = true -> Nat.Odd (quotes a)).
    { intros a d b E Hd. rewrite <- Nat.odd_spec. specialize (Hsp a d b E Hd).
      now destruct (Nat.odd (quotes a)). }
    destruct Hr as [->|(d & r' & -> & Hd & Hp)].
    + rewrite app_nil_r in Happ. exists [w]. rewrite <- Happ in *.
      apply (sen_last [] w); [constructor|]. split; [exact Hne|]. split; [exact Hb|exact Hspw].
    + rewrite <- Happ in Hn, Hb |- *.
      assert (Hpw : balanced w) by (apply balanced_odd; now destruct (Nat.odd (quotes w))).
      destruct (IH r') as [ws Hws].
      * rewrite app_length in Hn. cbn in Hn. lia.
      * apply balanced_odd. apply balanced_odd in Hb. apply balanced_odd in Hpw.
        rewrite quotes_app, quotes_cons in Hb.
        assert ((d =? 34) = false) as Ed.
        { destruct (d =? 34) eqn:E; [|reflexivity]. apply N.eqb_eq in E. subst. discriminate. }
        rewrite Ed in Hb. cbn [Nat.add] in Hb. rewrite Nat.odd_add, Hpw in Hb. now destruct (Nat.odd (quotes r')).
      * exists (w :: ws). apply (sen_cons [] w d r' ws); try assumption; [constructor|].
        split; [exact Hne|]. split; [exact Hpw|exact Hspw].
Qed.

Lemma sentence_exists s : balanced s -> exists ws, sentence s ws.
Proof. apply (sentence_exists_n (S (List.length s))). lia. Qed.

(** ** Writing arguments. *)

Definition dbl (a : qstr) : qstr := flat_map (fun c => if c =? 34 then [34; 34] else [c]) a.

Lemma value_dbl_false a : value false (dbl a ++ [34]) = a.
Proof.
  induction a as [|c a IH]; [reflexivity|]. cbn [dbl flat_map].
  destruct (c =? 34) eqn:E; cbn [app value].
  - apply N.eqb_eq in E. subst c. cbn. f_equal. exact IH.
  - rewrite E. f_equal. exact IH.
Qed.

Lemma value_dbl_true a : (exists c, In c a /\ c <> 34) -> value true (dbl a ++ [34]) = a.
Proof.
  induction a as [|c a IH]; intros (d & Hd & Hn); [destruct Hd|].
  cbn [dbl flat_map]. destruct (c =? 34) eqn:E; cbn [app value].
  - apply N.eqb_eq in E. subst c. cbn. f_equal. apply IH. exists d. split; [|exact Hn].
    destruct Hd as [Hd|Hd]; [congruence|exact Hd].
  - rewrite E. f_equal. apply value_dbl_false.
Qed.

Lemma quote_value a : (exists c, In c a /\ c <> 34) -> value false (quote a) = a.
Proof. intros H. unfold quote. cbn [value]. exact (value_dbl_true a H). Qed.

Lemma quotes_dbl a : quotes (dbl a) = (2 * quotes a)%nat.
Proof.
  induction a as [|c a IH]; [reflexivity|]. cbn [dbl flat_map]. rewrite quotes_app.
  change (flat_map _ a) with (dbl a). rewrite IH, quotes_cons. destruct (c =? 34) eqn:E.
  - cbn. lia.
  - rewrite quotes_cons, E. cbn. lia.
Qed.

Lemma dbl_space a : forall x c b, dbl a = x ++ c :: b -> isSpace c = true -> Nat.Even (quotes x).
Proof.
  induction a as [|d a IH]; intros x c b E Hc; [now destruct x|].
  cbn [dbl flat_map] in E. change (flat_map _ a) with (dbl a) in E.
  destruct (d =? 34) eqn:Ed; cbn [app] in E.
  - destruct x as [|x0 [|x1 x]]; cbn in E.
    + injection E as <- _. discriminate.
    + injection E as <- <- _. discriminate.
    + injection E as <- <- E. specialize (IH x c b E Hc). rewrite !quotes_cons. cbn.
      now apply Nat.Even_succ_succ.
  - destruct x as [|x0 x]; cbn in E.
    + exists 0%nat. reflexivity.
    + injection E as <- E. rewrite quotes_cons, Ed. exact (IH x c b E Hc).
Qed.

Lemma quote_word a : word (quote a).
Proof.
  unfold quote. change (flat_map _ a) with (dbl a). split; [congruence|]. split.
  - unfold balanced. rewrite quotes_cons, quotes_app, quotes_dbl. cbn [N.eqb Pos.eqb].
    change (quotes [34]) with 1%nat. exists (S (quotes a)). lia.
  - intros x c b E Hc. destruct x as [|x0 x]; cbn in E.
    + injection E as <- _. discriminate.
    + injection E as <- E. rewrite quotes_cons. cbn [N.eqb Pos.eqb]. cbn [Nat.add].
      apply Nat.Odd_succ.
      destruct (exists_last (l := c :: b)) as (b' & l & El); [congruence|].
      rewrite El, app_assoc in E. apply app_inj_tail in E as [E <-].
      destruct b' as [|c' b'].
      * cbn in El. injection El as -> _. discriminate.
      * cbn in El. injection El as <- _. exact (dbl_space _ _ _ _ E Hc).
Qed.

Lemma writeArgs_sentence l : sentence (writeArgs l) (map quote l).
Proof.
  induction l as [|a l IH]; [apply sen_nil; constructor|].
  destruct l as [|a' l].
  - apply (sen_last [] (quote a)); [constructor|apply quote_word].
  - change (writeArgs (a :: a' :: l)) with (quote a ++ 32 :: writeArgs (a' :: l)).
    apply (sen_cons [] (quote a) 32); [constructor|apply quote_word|reflexivity|exact IH].
Qed.

Lemma dropSpaces_tight a : (forall c b, a = c :: b -> isSpace c = false) -> dropSpaces a = a.
Proof. destruct a as [|c a]; [reflexivity|]. intros H. cbn. now rewrite (H c a eq_refl). Qed.

Lemma tight_trimmed a : tight a -> trimmed a = a.
Proof.
  intros [H1 H2]. unfold trimmed, trimRight. rewrite (dropSpaces_tight a H1).
  rewrite dropSpaces_tight; [apply rev_involutive|].
  intros c b E. apply (H2 c (rev b)). apply (f_equal (@rev _)) in E. rewrite rev_involutive in E. exact E.
Qed.

Lemma argsOf_survives ws : Forall (fun w => survives (value false w)) ws -> argsOf ws = map (value false) ws.
Proof.
  induction 1 as [|w ws (Hn & Ht) _ IH]; [reflexivity|]. rewrite argsOf_cons, IH, (tight_trimmed _ Ht).
  cbn [map]. now destruct (value false w).
Qed.

Lemma argsOf_quote l : Forall plainArg l -> argsOf (map quote l) = l.
Proof.
  induction 1 as [|a l (Ht & Hq) _ IH]; [reflexivity|]. cbn [map].
  rewrite argsOf_cons, IH, (quote_value a Hq), (tight_trimmed a Ht). destruct a; [|reflexivity].
  destruct Hq as (? & [] & _).
Qed.

Lemma split_all s : balanced s -> exists ws, sentence s ws /\ splitCommandLine s = argsOf ws.
Proof.
  intros H. destruct (sentence_exists s H) as [ws Hw]. exists ws. split; [exact Hw|].
  exact (split_sentence s ws Hw []).
Qed.

(** ** Arguments that come out of splitting have no blank at the ends. *)

Lemma dropSpaces_idem s : dropSpaces (dropSpaces s) = dropSpaces s.
Proof.
  induction s as [|c s IH]; [reflexivity|]. cbn. destruct (isSpace c) eqn:E; [exact IH|].
  cbn. now rewrite E.
Qed.

Lemma dropSpaces_suffix s : exists p, s = p ++ dropSpaces s.
Proof.
  induction s as [|c s [p IH]]; [now exists []|]. cbn. destruct (isSpace c).
  - exists (c :: p). cbn. now rewrite <- IH.
  - now exists [].
Qed.

Lemma dropSpaces_prefix v p : dropSpaces (v ++ p) = v ++ p -> dropSpaces v = v.
Proof.
  destruct v as [|c v]; [reflexivity|]. cbn. destruct (isSpace c) eqn:E; [|reflexivity].
  intros H. exfalso. destruct (dropSpaces_suffix (v ++ p)) as [q Hq].
  apply (f_equal (@List.length N)) in H. apply (f_equal (@List.length N)) in Hq.
  cbn in H. rewrite (app_length q) in Hq. unfold qchar in *. lia.
Qed.

Lemma trimmed_idem s : trimmed (trimmed s) = trimmed s.
Proof.
  unfold trimmed, trimRight.
  set (u := dropSpaces s).
  assert (Hu : dropSpaces u = u) by apply dropSpaces_idem.
  destruct (dropSpaces_suffix (rev u)) as [p Hp].
  assert (Hpre : u = rev (dropSpaces (rev u)) ++ rev p).
  { rewrite <- rev_app_distr, <- Hp. now rewrite rev_involutive. }
  assert (Hv : dropSpaces (rev (dropSpaces (rev u))) = rev (dropSpaces (rev u))).
  { apply (dropSpaces_prefix _ (rev p)). now rewrite <- Hpre. }
  rewrite Hv, rev_involutive, dropSpaces_idem. reflexivity.
Qed.

Lemma step_trimmed st c :
  Forall (fun a => trimmed a = a /\ a <> []) (sp_args st) ->
  Forall (fun a => trimmed a = a /\ a <> []) (sp_args (splitStep st c)).
Proof.
  intros H. unfold splitStep. destruct (isSpace c && negb (sp_in st)).
  - destruct (isEmpty (trimmed (sp_str st))) eqn:E; [exact H|]. cbn. apply Forall_app. split; [exact H|].
    constructor; [|constructor]. split; [apply trimmed_idem|]. intros E'. now rewrite E' in E.
  - destruct (c =? 34); [destruct (sp_esc st)|]; exact H.
Qed.

Lemma split_trimmed s : Forall (fun a => trimmed a = a /\ a <> []) (splitCommandLine s).
Proof.
  unfold splitCommandLine.
  assert (forall l st, Forall (fun a => trimmed a = a /\ a <> []) (sp_args st) ->
    Forall (fun a => trimmed a = a /\ a <> []) (sp_args (fold_left splitStep l st))) as G.
  { induction l as [|c l IH]; intros st H; [exact H|]. cbn. apply IH. now apply step_trimmed. }
  apply G. constructor.
Qed.

Lemma trimmed_tight a : trimmed a = a -> tight a.
Proof.
  intros H.
  assert (H1 : dropSpaces a = a).
  { destruct (dropSpaces_suffix a) as [p Hp]. destruct (dropSpaces_suffix (rev (dropSpaces a))) as [q Hq].
    unfold trimmed, trimRight in H.
    apply (f_equal (@List.length N)) in H, Hp, Hq.
    rewrite (app_length p) in Hp. rewrite (app_length q), rev_length in Hq. rewrite rev_length in H.
    destruct p; [|cbn in Hp; unfold qchar in *; lia].
    destruct (dropSpaces_suffix a) as [p' Hp']. assert (p' = []) as ->.
    { apply (f_equal (@List.length N)) in Hp'. rewrite app_length in Hp'. cbn in Hp.
      unfold qchar in *. destruct p'; [reflexivity|cbn in Hp'; lia]. }
    symmetry. exact Hp'. }
  assert (H2 : dropSpaces (rev a) = rev a).
  { unfold trimmed, trimRight in H. rewrite H1 in H. apply (f_equal (@rev _)) in H.
    rewrite rev_involutive in H. exact H. }
  split.
  - intros c b ->. destruct (isSpace c) eqn:E; [|reflexivity]. cbn in H1. rewrite E in H1.
    destruct (dropSpaces_suffix b) as [p Hp]. apply (f_equal (@List.length N)) in H1, Hp.
    rewrite app_length in Hp. cbn in H1. unfold qchar in *. lia.
  - intros c b ->. destruct (isSpace c) eqn:E; [|reflexivity]. rewrite rev_app_distr in H2. cbn in H2.
    rewrite E in H2. destruct (dropSpaces_suffix (rev b)) as [p Hp].
    apply (f_equal (@List.length N)) in H2, Hp. rewrite app_length in Hp. cbn in H2. unfold qchar in *. lia.
Qed.

Lemma split_survives s : Forall survives (splitCommandLine s).
Proof.
  eapply Forall_impl; [|apply split_trimmed]. intros a [H1 H2]. split; [exact H2|].
  now apply trimmed_tight.
Qed.
