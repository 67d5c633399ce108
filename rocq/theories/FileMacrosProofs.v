(** Lemmas about file name macros. *)
From Coq Require Import Ascii String.
From stdpp Require Import prelude.
From Verif Require Import Base Data Macro MacroSpec MacroProofs FileMacros FileMacrosSpec.
Local Open Scope N_scope.

(** ** Parts of names *)

Lemma lastIndex_none c s : c ∉ s -> lastIndexOfChar c s = None.
Proof.
  induction s as [|x s IH]; intros H; [done|]. rewrite not_elem_of_cons in H. destruct H as [H1 H2]. cbn.
  rewrite IH by done. destruct (N.eqb_spec x c); [by subst|done].
Qed.
Lemma lastIndex_at c a b : c ∉ b -> lastIndexOfChar c (a ++ c :: b) = Some (List.length a).
Proof.
  intros H. induction a as [|x a IH]; cbn.
  - rewrite lastIndex_none by done. by rewrite N.eqb_refl.
  - by rewrite IH.
Qed.
Lemma take_length_app {A} (a b : list A) : take (List.length a) (a ++ b) = a.
Proof. apply take_app. Qed.

Lemma dirPart_modify v w : dirPart v w -> modify 68 v = w.
Proof.
  intros [d f H|u H]; cbn [modify]; unfold modify; cbn [N.eqb Pos.eqb].
  - change (ch "\") with 92 in *. rewrite lastIndex_at by done. apply take_app.
  - change (ch "\") with 92 in *. by rewrite lastIndex_none.
Qed.
Lemma noExt_base v w : noExt v w -> match lastIndexOfChar 46 v with Some i => take i v | None => v end = w.
Proof.
  intros [d f H|u H]; change (ch ".") with 46 in *.
  - rewrite lastIndex_at by done. apply take_app.
  - by rewrite lastIndex_none.
Qed.

Lemma contains_true c s : containsChar c s = true <-> c ∈ s.
Proof.
  unfold containsChar. rewrite existsb_exists. split.
  - intros (x & H & E). apply N.eqb_eq in E as <-. by apply elem_of_list_In.
  - intros H. exists c. split; [by apply elem_of_list_In|apply N.eqb_refl].
Qed.
Lemma contains_false c s : containsChar c s = false <-> c ∉ s.
Proof. rewrite <- not_true_iff_false. by rewrite contains_true. Qed.

Definition hasSep (s : qstr) : bool := containsChar 47 s || containsChar 92 s.
Lemma hasSep_false s : Forall (fun c => ~ isSep c) s -> hasSep s = false.
Proof.
  intros H. unfold hasSep. rewrite orb_false_iff, !contains_false. rewrite Forall_forall in H.
  split; intros Hin; apply (H _ Hin); [by left|by right].
Qed.
Lemma hasSep_true d c f : isSep c -> hasSep (d ++ c :: f) = true.
Proof.
  intros H. unfold hasSep. rewrite orb_true_iff, !contains_true.
  destruct H as [->| ->]; [left|right]; rewrite elem_of_app, elem_of_cons; auto.
Qed.
Lemma fileName_sep d c f : isSep c -> Forall (fun c => ~ isSep c) f -> fileNameFromFilePath (d ++ c :: f) = f.
Proof.
  intros Hc Hf.
  assert (E0 : fileNameFromFilePath f = f). { destruct f as [|x f]; [done|]. cbn [fileNameFromFilePath]. change (containsChar 47 (x :: f) || _) with (hasSep (x :: f)).
    by rewrite hasSep_false. }
  induction d as [|x d IH]; cbn [app fileNameFromFilePath].
  - change (containsChar 47 (c :: f) || _) with (hasSep ([] ++ c :: f)). by rewrite hasSep_true.
  - change (containsChar 47 (x :: d ++ c :: f) || _) with (hasSep ((x :: d) ++ c :: f)). by rewrite hasSep_true.
Qed.
Lemma filePart_name v w : filePart v w -> qfiFileName v = w.
Proof.
  intros [d c f Hc Hf|c f Hf|u Hf Hn]; unfold qfiFileName; match goal with |- (if containsChar 47 ?s || _ then _ else _) = _ => change (containsChar 47 s || _) with (hasSep s) end.
  - rewrite hasSep_true by done. by apply fileName_sep.
  - rewrite hasSep_false by done. done.
  - rewrite hasSep_false by done. destruct u as [|c [|x f]]; [done|done|]. destruct (decide (x = 58)) as [->|Hx].
    + by destruct (Hn c f).
    + clear -Hx. destruct x as [|p]; [done|]. do 6 (destruct p as [p|p|]; try done).
Qed.
Lemma upto_dot b e : ch "." ∉ b -> uptoChar 46 (b ++ ch "." :: e) = b.
Proof.
  induction b as [|x b IH]; intros H; [done|]. rewrite not_elem_of_cons in H. destruct H as [H1 H2]. cbn [app uptoChar].
  destruct (N.eqb_spec x 46); [by subst|]. by rewrite IH.
Qed.
Lemma upto_none b : ch "." ∉ b -> uptoChar 46 b = b.
Proof.
  induction b as [|x b IH]; intros H; [done|]. rewrite not_elem_of_cons in H. destruct H as [H1 H2]. cbn [uptoChar].
  destruct (N.eqb_spec x 46); [by subst|]. by rewrite IH.
Qed.
Lemma stem_base v w : stem v w -> qfiBaseName v = w.
Proof. intros [u b e H Hb|u b H Hb]; unfold qfiBaseName; rewrite (filePart_name _ _ H); [by apply upto_dot|by apply upto_none]. Qed.

Definition modChar (d : fmod) : qchar := match d with MDir => 68 | MFile => 70 | MStem => 66 | MNoExt => 82 end.
Lemma modified_modify d v w : modified (Some d) v w -> modify (modChar d) v = w.
Proof.
  destruct d; cbn [modified modChar]; intros H.
  - by apply dirPart_modify.
  - unfold modify. cbn [N.eqb Pos.eqb]. by apply filePart_name.
  - unfold modify. cbn [N.eqb Pos.eqb]. by apply stem_base.
  - unfold modify. cbn [N.eqb Pos.eqb]. by apply noExt_base.
Qed.

(** ** Lists of names *)

Lemma onLine_quote v t : onLine v t -> quoteIfNeeded v = t.
Proof.
  intros [u H|u H1 H2]; unfold quoteIfNeeded.
  - rewrite <- !contains_true, <- orb_true_iff in H. change (ch " ") with 32 in H. by rewrite H.
  - apply contains_false in H1, H2. change (ch " ") with 32 in H1. by rewrite H1, H2.
Qed.
Lemma listed_join l r : listed l r -> joinValues l = r.
Proof.
  induction 1 as [|v t H|v t v' l r H Hl IH]; cbn [joinValues]; [done|by apply onLine_quote|].
  rewrite (onLine_quote _ _ H). cbn [joinValues] in IH. rewrite IH. done.
Qed.

Section expand.
Context (target : qstr) (deps : list qstr) (tm : qstr -> N) (depIdx : option nat) (cand : list qstr) (forb : bool).
Context (Hcand : candidates deps depIdx forb = cand).

Lemma newer_filter l r : newer target tm l r -> List.filter (fun d => tm target <=? tm d) l = r.
Proof.
  induction 1 as [|d l r H _ IH|d l r H _ IH]; cbn; [done| |].
  - rewrite (proj2 (N.leb_le _ _)) by done. by rewrite IH.
  - rewrite (proj2 (N.leb_gt _ _)) by done. done.
Qed.

Lemma names_values m l x : (forb = true -> ofTarget m) -> names target cand tm m l -> (m = MBase -> startsWith [42] x = false) ->
  macroValues target deps tm (nameOf m ++ x) depIdx forb = FOk (l, List.length (nameOf m)).
Proof.
  intros Ho H Hx. destruct H as [|b H| |l H]; cbn [nameOf].
  - done.
  - change (s2q "*" ++ x) with (42 :: x). cbn [macroValues N.eqb Pos.eqb]. rewrite Hx by done. by rewrite (noExt_base _ _ H).
  - change (s2q "**" ++ x) with (42 :: 42 :: x). cbn [macroValues N.eqb Pos.eqb startsWith andb]. rewrite Hcand. destruct forb; [|done]. by destruct (Ho eq_refl).
  - change (s2q "?" ++ x) with (63 :: x). cbn [macroValues N.eqb Pos.eqb]. rewrite Hcand, (newer_filter _ _ H). destruct forb; [|done]. by destruct (Ho eq_refl).
Qed.

Lemma subst_apply a b l l2 : Forall2 (substitutes (Some (a, b))) l l2 -> map (applySubstitution a b) l = l2.
Proof.
  induction 1 as [|v w l l2 H _ IH]; [done|]. cbn. rewrite IH. f_equal. unfold applySubstitution. eapply substituted_det; [apply substituted_ok|done].
Qed.
Lemma mod_apply d l l2 : Forall2 (modified (Some d)) l l2 -> map (modify (modChar d)) l = l2.
Proof. induction 1 as [|v w l l2 H _ IH]; [done|]. cbn. rewrite IH. f_equal. by apply modified_modify. Qed.
Lemma none_apply (R : qstr -> qstr -> Prop) l l2 : (forall v w, R v w -> w = v) -> Forall2 R l l2 -> l2 = l.
Proof. intros HR. induction 1 as [|v w l l2 H _ IH]; [done|]. by rewrite IH, (HR _ _ H). Qed.

Lemma substClean_ok a b : substClean (Some (a, b)) -> 61 ∉ b /\ quotedOk false (a ++ 61 :: b) /\ unquote a b = b.
Proof.
  intros (H1 & H2 & H3). change (ch "=") with 61 in H1. change (ch ")") with 41 in H2. change (ch "^") with 94 in H3.
  rewrite not_elem_of_app in H1, H2, H3. destruct H1 as [? ?], H2 as [? ?], H3 as [? H5].
  assert (Q : forall s : list N, 41 ∉ s -> 94 ∉ s -> quotedOk false s).
  { induction s as [|c s IH]; intros A B; [done|]. rewrite not_elem_of_cons in A, B. destruct A, B. cbn. split; [congruence|].
    rewrite bool_decide_eq_false_2 by congruence. by apply IH. }
  split_and!; [done| |].
  - apply Q; (rewrite not_elem_of_app; split; [done|]); (rewrite not_elem_of_cons; split; done).
  - unfold unquote. rewrite decide_False by done. clear -H5. induction b as [|c b IH]; [done|]. apply not_elem_of_cons in H5 as [A B].
    cbn. destruct (N.eqb_spec c 94); [by subst|]. cbn. by rewrite IH.
Qed.
Lemma substitution_ok a b l l2 r q : substClean (Some (a, b)) -> Forall2 (substitutes (Some (a, b))) l l2 -> listed l2 r ->
  forall pre, withSubstitution l (pre ++ a ++ 61 :: b ++ 41 :: q) (List.length pre) = FOk (AReplace (r ++ q)).
Proof.
  intros Hc Hs Hl pre. destruct (substClean_ok _ _ Hc) as (H1 & H2 & H3). unfold withSubstitution.
  rewrite drop_app, parseSub_spec, H3 by done. rewrite (subst_apply _ _ _ _ Hs), (listed_join _ _ Hl). do 2 f_equal. f_equal.
  replace (pre ++ a ++ 61 :: b ++ 41 :: q) with ((pre ++ (a ++ 61 :: b) ++ [41]) ++ q).
  - apply drop_app_alt. rewrite !app_length. cbn. unfold qstr, qchar in *. lia.
  - rewrite <- !app_assoc. done.
Qed.

Lemma substitution_at a b l l2 r q s off pre : substClean (Some (a, b)) -> Forall2 (substitutes (Some (a, b))) l l2 -> listed l2 r ->
  s = pre ++ a ++ 61 :: b ++ 41 :: q -> off = List.length pre -> withSubstitution l s off = FOk (AReplace (r ++ q)).
Proof. intros H1 H2 H3 -> ->. by eapply substitution_ok. Qed.

Lemma lookup_at {A} (p : list A) x q : (p ++ x :: q) !! List.length p = Some x.
Proof. by apply list_lookup_middle. Qed.
Lemma drop_at {A} (p : list A) q k : drop (List.length p + k) (p ++ q) = drop k q.
Proof. by rewrite <- drop_drop, drop_app. Qed.

Lemma short_inv m r : means target cand tm (PShort m) r -> exists l, names target cand tm m l /\ listed l r.
Proof. clear Hcand. intros H. inversion H; subst. eauto. Qed.
Lemma long_inv m d sub r : means target cand tm (PLong m d sub) r -> exists l l1 l2, names target cand tm m l /\ Forall2 (modified d) l l1 /\
  Forall2 (substitutes sub) l1 l2 /\ listed l2 r.
Proof. clear Hcand. intros H. inversion H; subst. eauto 10. Qed.
Lemma names_det m l l' : names target cand tm m l -> names target cand tm m l' -> l = l'.
Proof.
  intros H H'. destruct H as [|b H| |l H]; inversion H' as [|b' B'| |l1 B']; subst; [done| |done|].
  - by rewrite <- (noExt_base _ _ H), <- (noExt_base _ _ B').
  - by rewrite <- (newer_filter _ _ H), <- (newer_filter _ _ B').
Qed.

(** One invocation that is expanded as it should be. *)
Lemma short_ok m r q : (forb = true -> ofTarget m) -> means target cand tm (PShort m) r -> (m = MBase -> startsWith [42] q = false) ->
  invocation target deps tm (nameOf m ++ q) depIdx forb = FOk (AReplace (r ++ q)).
Proof.
  intros Ho H Hq. apply short_inv in H as (l & Hn & Hl). pose proof (names_values m l q Ho Hn Hq) as E.
  unfold invocation. destruct (nameOf m ++ q) as [|c b'] eqn:En; [by destruct m|].
  replace (c =? 40) with false. 2:{ destruct m; cbn in En; injection En as <- _; done. }
  rewrite E, (listed_join _ _ Hl). do 2 f_equal. f_equal. rewrite <- En. by rewrite drop_app.
Qed.

Lemma long_ok m d sub r q : (forb = true -> ofTarget m) -> means target cand tm (PLong m d sub) r -> substClean sub ->
  (names target cand tm m [] -> d = None /\ sub = None) -> (d = None -> sub = None -> ~ names target cand tm m [] -> q = []) ->
  invocation target deps tm (drop 1 (writePiece (PLong m d sub)) ++ q) depIdx forb = FOk (AReplace (r ++ q)).
Proof.
  intros Ho H Hc Hem Hend. apply long_inv in H as (l & l1 & l2 & Hn & Hm & Hs & Hl).
  set (tail := match d with Some d => letterOf d | None => [] end ++ match sub with Some (a, b) => s2q ":" ++ a ++ s2q "=" ++ b | None => [] end ++ s2q ")" ++ q).
  replace (drop 1 (writePiece (PLong m d sub)) ++ q) with (40 :: nameOf m ++ tail).
  2:{ cbn [writePiece drop]. change (s2q "(") with [40]. rewrite drop_0. cbn [app]. f_equal. unfold tail. rewrite <- !app_assoc. done. }
  assert (Et : m = MBase -> startsWith [42] tail = false).
  { intros _. unfold tail. destruct d as [[]|]; [done..|]. destruct sub as [[a b]|]; done. }
  pose proof (names_values m l tail Ho Hn Et) as E. unfold invocation. cbn [N.eqb Pos.eqb]. rewrite E.
  destruct l as [|v l].
  { destruct (Hem Hn) as [-> ->]. apply Forall2_nil_inv_l in Hm as ->. apply Forall2_nil_inv_l in Hs as ->. rewrite <- (listed_join _ _ Hl). do 2 f_equal.
    replace (List.length (nameOf m) + 2)%nat with (S (List.length (nameOf m) + 1)) by lia. cbn [drop]. rewrite drop_at. done. }
  destruct d as [d|].
  - destruct sub as [[a b]|].
    + assert (Et2 : tail = [modChar d; 58] ++ a ++ 61 :: b ++ 41 :: q).
      { unfold tail. change (s2q ":") with [58]. change (s2q "=") with [61]. change (s2q ")") with [41]. destruct d; cbn [letterOf]; rewrite <- !app_assoc; done. }
      rewrite Et2. cbn [app]. rewrite lookup_at.
      replace (isModifier (modChar d)) with true by (by destruct d).
      replace ((nameOf m ++ modChar d :: 58 :: a ++ 61 :: b ++ 41 :: q) !! S (List.length (nameOf m))) with (Some 58).
      2:{ replace (nameOf m ++ modChar d :: 58 :: a ++ 61 :: b ++ 41 :: q) with ((nameOf m ++ [modChar d]) ++ 58 :: a ++ 61 :: b ++ 41 :: q) by (by rewrite <- app_assoc).
          replace (S (List.length (nameOf m))) with (List.length (nameOf m ++ [modChar d])) by (rewrite app_length; cbn; lia). by rewrite lookup_at. }
      cbn [N.eqb Pos.eqb]. rewrite (mod_apply _ _ _ Hm).
      apply (substitution_at a b l1 l2 r q _ _ (nameOf m ++ [modChar d; 58])); [done..|by rewrite <- app_assoc|by rewrite app_length].
    + assert (Et2 : tail = modChar d :: 41 :: q).
      { unfold tail. change (s2q ")") with [41]. destruct d; done. }
      rewrite Et2. rewrite lookup_at. replace (isModifier (modChar d)) with true by (by destruct d).
      replace ((nameOf m ++ modChar d :: 41 :: q) !! S (List.length (nameOf m))) with (Some 41).
      2:{ replace (nameOf m ++ modChar d :: 41 :: q) with ((nameOf m ++ [modChar d]) ++ 41 :: q) by (by rewrite <- app_assoc).
          replace (S (List.length (nameOf m))) with (List.length (nameOf m ++ [modChar d])) by (rewrite app_length; cbn; lia). by rewrite lookup_at. }
      cbn [N.eqb Pos.eqb]. rewrite (mod_apply _ _ _ Hm). apply none_apply in Hs; [|done]. subst l2. rewrite (listed_join _ _ Hl). do 2 f_equal. f_equal.
      replace (List.length (nameOf m) + 3)%nat with (S (List.length (nameOf m) + 2)) by lia. cbn [drop]. rewrite drop_at. done.
  - apply none_apply in Hm; [|done]. subst l1. destruct sub as [[a b]|].
    + assert (Et2 : tail = 58 :: a ++ 61 :: b ++ 41 :: q).
      { unfold tail. change (s2q ":") with [58]. change (s2q "=") with [61]. change (s2q ")") with [41]. cbn [app]. rewrite <- !app_assoc; done. }
      rewrite Et2. rewrite lookup_at. cbn [isModifier N.eqb Pos.eqb orb].
      apply (substitution_at a b (v :: l) l2 r q _ _ (nameOf m ++ [58])); [done..|by rewrite <- app_assoc|by rewrite app_length].
    + assert (q = []) as ->.
      { apply Hend; [done|done|]. intros Hn'. by pose proof (names_det _ _ _ Hn Hn'). }
      apply none_apply in Hs; [|done]. subst l2. unfold tail. cbn [app]. change (s2q ")") with [41]. cbn [app]. rewrite lookup_at. cbn [isModifier N.eqb Pos.eqb orb].
      rewrite (listed_join _ _ Hl). do 2 f_equal. f_equal.
      replace (List.length (nameOf m) + 3)%nat with (S (List.length (nameOf m) + 2)) by lia. cbn [drop]. rewrite drop_at. done.
Qed.

(** ** The whole text *)

Lemma cut_clean t q : magicEscape ∉ t -> cutMagic (t ++ q) = match cutMagic q with Some (a, b) => Some (t ++ a, b) | None => None end.
Proof.
  induction t as [|c t IH]; intros H; cbn [app cutMagic]; [by destruct (cutMagic q) as [[??]|]|].
  rewrite not_elem_of_cons in H. destruct H as [H1 H2]. destruct (N.eqb_spec c magicEscape); [by subst|]. rewrite IH by done.
  by destruct (cutMagic q) as [[??]|].
Qed.

Lemma endsCaret_app p t : t <> [] -> last t <> Some 94 -> endsCaret (p ++ t) = false.
Proof.
  intros Hn Hl. unfold endsCaret. rewrite last_app. unfold qchar in *. destruct (last t) as [c|] eqn:E.
  - apply N.eqb_neq. congruence.
  - by apply last_None in E.
Qed.

Definition macroPiece (p : piece) : Prop := match p with PText _ => False | _ => True end.
Lemma write_magic p : macroPiece p -> writePiece p = magicEscape :: drop 1 (writePiece p).
Proof. by destruct p. Qed.

Lemma only_tail p ps : (forb = true -> Forall targetOnly (p :: ps)) -> forb = true -> Forall targetOnly ps.
Proof. intros H E. specialize (H E). by apply Forall_cons in H as [_ H]. Qed.
Lemma only_head p ps : (forb = true -> Forall targetOnly (p :: ps)) -> forb = true -> targetOnly p.
Proof. intros H E. specialize (H E). by apply Forall_cons in H as [H _]. Qed.
Lemma expand_fine n : forall ps rs pre t fuel, (List.length ps <= n)%nat -> (forb = true -> Forall targetOnly ps) -> fine target cand tm ps rs -> magicEscape ∉ t ->
  (isMac ps = true -> endsCaret (pre ++ t) = false) -> (List.length ps < fuel)%nat ->
  expandNames target deps tm fuel depIdx forb pre (t ++ write ps) = Some (FOk (pre ++ t ++ concat rs)).
Proof.
  induction n as [|n IH]; intros ps rs pre t fuel Hn Ho Hf Ht Hc Hfuel.
  { destruct ps; [|cbn in Hn; lia]. inversion Hf; subst. destruct fuel as [|fuel]; [cbn in Hfuel; lia|].
    cbn [expandNames]. rewrite cut_clean by done. cbn. done. }
  (** what follows the value [r] of an invocation *)
  assert (After : forall ps rs r p fuel, (List.length ps <= n)%nat -> (forb = true -> Forall targetOnly ps) -> fine target cand tm ps rs -> magicEscape ∉ r ->
    (isMac ps = true -> r <> [] /\ last r <> Some 94) -> (List.length ps < fuel)%nat ->
    expandNames target deps tm fuel depIdx forb (p ++ take 1 (r ++ write ps)) (drop 1 (r ++ write ps)) = Some (FOk (p ++ r ++ concat rs))).
  { clear ps rs pre t fuel Hn Ho Hf Ht Hc Hfuel. intros ps rs r p fuel Hn Ho Hf Hr Hc Hfuel. destruct r as [|c r].
    - cbn [app]. destruct Hf as [|t ps rs Htn Htm Htc Hf|m ps r rs|m d sub ps r rs]; [| |by destruct (Hc eq_refl)..].
      + destruct fuel; [cbn in Hfuel; lia|]. cbn. by rewrite !app_nil_r.
      + destruct t as [|c t]; [done|]. unfold write. cbn [map concat writePiece app take drop]. change (concat (map writePiece ps)) with (write ps).
        rewrite take_0, drop_0. rewrite not_elem_of_cons in Htm. destruct Htm. rewrite (IH ps rs); [by rewrite <- app_assoc|cbn in Hn; lia|exact (only_tail _ _ Ho)|done|done| |cbn in Hfuel; lia].
        intros Hi. rewrite <- app_assoc. cbn [app]. apply endsCaret_app; [done|]. by apply Htc.
    - cbn [app take drop]. rewrite take_0, drop_0. rewrite not_elem_of_cons in Hr. destruct Hr. rewrite (IH ps rs); [by rewrite <- app_assoc|done|done|done|done| |done].
      intros Hi. destruct (Hc Hi) as [_ Hl]. rewrite <- app_assoc. cbn [app]. by apply endsCaret_app. }
  (** one invocation *)
  assert (One : forall p ps rs r, macroPiece p -> (S (List.length ps) <= S n)%nat -> (forb = true -> Forall targetOnly ps) -> fine target cand tm ps rs -> magicEscape ∉ r ->
    (isMac ps = true -> r <> [] /\ last r <> Some 94) -> endsCaret (pre ++ t) = false -> (S (List.length ps) < fuel)%nat ->
    invocation target deps tm (drop 1 (writePiece p) ++ write ps) depIdx forb = FOk (AReplace (r ++ write ps)) ->
    expandNames target deps tm fuel depIdx forb pre (t ++ write (p :: ps)) = Some (FOk (pre ++ t ++ r ++ concat rs))).
  { clear Hn Ho Hf Hc Hfuel ps rs. intros p ps rs r Hp Hn Ho Hf Hr Hc He Hfuel Hi. destruct fuel as [|fuel]; [lia|]. cbn [expandNames].
    unfold write at 1. cbn [map concat]. rewrite (write_magic p Hp). cbn [app]. change (concat (map writePiece ps)) with (write ps).
    rewrite cut_clean by done. cbn [cutMagic]. rewrite N.eqb_refl. rewrite app_nil_r, He, Hi. rewrite (After ps rs); [by rewrite <- app_assoc|lia|done|done|done|done|lia]. }
  destruct Hf as [|t' ps rs Htn Htm Htc Hf|m ps r rs Hm Hr Hrc Hb Hf|m d sub ps r rs Hm Hr Hrc Hsc Hem Hend Hf].
  - destruct fuel as [|fuel]; [cbn in Hfuel; lia|]. cbn [expandNames]. rewrite cut_clean by done. cbn. done.
  - unfold write. cbn [map concat writePiece]. change (concat (map writePiece ps)) with (write ps). rewrite app_assoc.
    rewrite (IH ps rs); [by rewrite <- app_assoc|cbn in Hn; lia|exact (only_tail _ _ Ho)|done| | |cbn in Hfuel; lia].
    + rewrite not_elem_of_app. done.
    + intros Hi. rewrite app_assoc. apply endsCaret_app; [done|]. by apply Htc.
  - cbn [concat]. cbn in Hn, Hfuel. pose proof (only_tail _ _ Ho). pose proof (only_head _ _ Ho). apply One; try done. + by apply Hc. + apply short_ok; [done|done|].
    intros ->. destruct Hf as [|t' ps rs Htn Htm Htc Hf| |]; [done| |done|done].
    specialize (Hb eq_refl t' ps eq_refl). destruct t' as [|c t']; [done|]. unfold write. cbn [map concat writePiece app startsWith]. rewrite andb_true_r.
    apply N.eqb_neq. intros <-. by apply Hb.
  - cbn [concat]. cbn in Hn, Hfuel. pose proof (only_tail _ _ Ho). pose proof (only_head _ _ Ho). apply One; try done. + by apply Hc. + apply long_ok; try done. intros H1 H2 H3. by rewrite (Hend H1 H2 H3).
Qed.
(** A macro for dependents where it is not allowed. *)
Lemma forbidden_throws m p q : ~ ofTarget m -> p = PShort m \/ (exists d sub, p = PLong m d sub) -> forb = true -> invocation target deps tm (drop 1 (writePiece p) ++ q) depIdx forb = FThrow.
Proof.
  intros Hm Hp Ef.
  assert (V : forall x, macroValues target deps tm (nameOf m ++ x) depIdx forb = FThrow).
  { intros x. rewrite Ef. destruct m; [by destruct Hm; left|by destruct Hm; right|done|done]. }
  destruct Hp as [->|(d & sub & ->)].
  - cbn [writePiece drop]. rewrite drop_0. unfold invocation. destruct (nameOf m ++ q) as [|c b'] eqn:En; [by destruct m|].
    replace (c =? 40) with false. 2:{ destruct m; cbn in En; injection En as <- _; done. } rewrite <- En, V. done.
  - cbn [writePiece drop]. change (s2q "(") with [40]. rewrite drop_0. cbn [app]. unfold invocation. cbn [N.eqb Pos.eqb]. rewrite <- app_assoc, V. done.
Qed.
End expand.

(** ** Commands with an exclamation mark *)

Lemma collect_ok {A B} (f : A -> option (fres B)) l r : collect f l = Some (FOk r) <-> Forall2 (fun x y => f x = Some (FOk y)) l r.
Proof.
  split.
  - revert r. induction l as [|x l IH]; intros r H; cbn in H; [by injection H as <-|].
    destruct (f x) as [[y| |]|] eqn:E; try done. destruct (collect f l) as [[r'| |]|] eqn:E2; try done. injection H as <-. constructor; [done|]. by apply IH.
  - induction 1 as [|x y l r H _ IH]; [done|]. cbn. by rewrite H, IH.
Qed.
