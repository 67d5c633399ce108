(** The buffered reader delivers the lines of the text. *)
From stdpp Require Import prelude.
From Verif Require Import Base BaseProofs LineReader LineReaderSpec.
Local Open Scope N_scope.

Lemma cut_spec n rest l r : cutLine n rest = (l, r) ->
  rest = l ++ r /\ (length l <= n)%nat /\
  ((exists p, l = p ++ [10] /\ 10 ∉ p) \/ (10 ∉ l /\ (r = [] \/ length l = n))).
Proof.
  revert rest l r. induction n as [|n IH]; intros rest l r; cbn [cutLine].
  - intros [= <- <-]. split_and!; [done|done|]. right. split; [apply not_elem_of_nil|by right].
  - destruct rest as [|c rest]; [intros [= <- <-]; split_and!; [done|cbn; lia|right; split; [apply not_elem_of_nil|by left]]|].
    destruct (c =? 10) eqn:E.
    + apply N.eqb_eq in E as ->. intros [= <- <-]. split_and!; [done|cbn; lia|]. left. exists []. split; [done|apply not_elem_of_nil].
    + apply N.eqb_neq in E. destruct (cutLine n rest) as [l' r'] eqn:Ec. intros [= <- <-].
      destruct (IH _ _ _ Ec) as (-> & Hl & H). split_and!; [done|cbn; lia|].
      destruct H as [(p & -> & Hp)|[Hn Hr]].
      * left. exists (c :: p). split; [done|]. rewrite not_elem_of_cons. split; [congruence|done].
      * right. split; [rewrite not_elem_of_cons; split; [congruence|done]|]. cbn. destruct Hr as [-> | ->]; tauto.
Qed.

Lemma endsWith_spec p s : endsWith p s = true <-> exists t, s = t ++ p.
Proof.
  unfold endsWith. split.
  - intros H. assert (exists t, rev s = rev p ++ t) as [t Ht].
    { revert H. generalize (rev s) as a, (rev p) as b. intros a b. revert a. induction b as [|x b IH]; intros a; cbn; [by eauto|].
      destruct a as [|y a]; [done|]. rewrite andb_true_iff, N.eqb_eq. intros [-> H]. destruct (IH _ H) as [t ->]. by exists t. }
    exists (rev t). rewrite <- (rev_involutive s), Ht, rev_app_distr, rev_involutive. done.
  - intros [t ->]. rewrite rev_app_distr. generalize (rev p). intros b. induction b as [|x b IH]; [done|]. cbn. rewrite N.eqb_refl. done.
Qed.
Lemma crlf_no l : 13 ∉ l -> crlf l = l.
Proof.
  intros H. unfold crlf. destruct (endsWith [13; 10] l) eqn:E; [|done]. apply endsWith_spec in E as [t ->].
  exfalso. apply H. apply elem_of_app. right. apply elem_of_list_here.
Qed.
Lemma crlf_cr p : crlf (p ++ [13; 10]) = p ++ [10].
Proof.
  unfold crlf. rewrite (proj2 (endsWith_spec [13; 10] (p ++ [13; 10])) (ex_intro _ p eq_refl)).
  unfold qchop. rewrite app_length. cbn [length].
  match goal with |- firstn ?n _ ++ _ = _ => replace n with (length p) by (cbn; lia) end.
  by rewrite take_app.
Qed.
Lemma crlf_other p x : last p <> Some 13 -> crlf (p ++ [x]) = p ++ [x].
Proof.
  intros H. unfold crlf. destruct (endsWith [13; 10] (p ++ [x])) eqn:E; [|done]. apply endsWith_spec in E as [t Ht].
  exfalso. change [13; 10] with ([13] ++ [10]) in Ht. rewrite app_assoc in Ht. apply app_inj_2 in Ht as [-> _]; [|done].
  apply H. by rewrite last_snoc.
Qed.
Lemma crlf_short l : 10 ∉ l -> crlf l = l.
Proof.
  intros H. unfold crlf. destruct (endsWith [13; 10] l) eqn:E; [|done]. apply endsWith_spec in E as [t ->].
  exfalso. apply H. apply elem_of_app. right. do 2 constructor.
Qed.

Lemma lastIs_snoc c l x : lastIs c (l ++ [x]) = (x =? c).
Proof. unfold lastIs. by rewrite last_snoc. Qed.
Lemma lastIs_no c l : c ∉ l -> lastIs c l = false.
Proof.
  intros H. unfold lastIs. destruct (last l) as [x|] eqn:E; [|done]. apply N.eqb_neq. intros ->. apply H.
  apply last_Some in E as [l' ->]. apply elem_of_app. right. apply elem_of_list_here.
Qed.

(** The whole of a line: its text and the end that is really or only counted there. *)
Inductive whole : list N -> list N -> list N -> Prop :=
| wh_line l t : 10 ∉ l -> whole (l ++ 10 :: t) (l ++ [10]) t
| wh_last l : l <> [] -> 10 ∉ l -> whole l (l ++ [0]) [].

Lemma app_no_10 (b l t r : list N) : 10 ∉ b -> b ++ r = l ++ 10 :: t -> 10 ∉ l -> exists l2, l = b ++ l2 /\ r = l2 ++ 10 :: t.
Proof.
  intros Hb. revert l. induction b as [|x b IH]; intros l H Hl; [by exists l|].
  destruct l as [|y l].
  - cbn in H. injection H as -> H. exfalso. apply Hb. apply elem_of_list_here.
  - cbn in H. injection H as -> H. rewrite not_elem_of_cons in Hb, Hl. destruct (IH (proj2 Hb) l H (proj2 Hl)) as (l2 & -> & ->). by exists l2.
Qed.

(** Completing the line; no carriage returns are about. *)
Lemma readMore_spec grow : (1 <= grow)%nat -> forall fuel size buf rest b t,
  13 ∉ buf ++ rest -> 10 ∉ buf -> (length rest <= fuel)%nat -> (length buf + 2 <= size)%nat -> buf <> [] ->
  whole (buf ++ rest) b t ->
  exists size', readMore grow fuel size buf rest = Some (b, size', t) /\ (length b < size')%nat /\ (size <= size')%nat.
Proof.
  intros Hg. induction fuel as [|fuel IH]; intros size buf rest b t H13 H10 Hf Hs Hne Hw.
  { destruct rest; [|cbn in Hf; lia]. cbn [readMore]. rewrite lastIs_no by done. rewrite app_nil_r in Hw.
    inversion Hw as [l t' Hl E1|l Hl1 Hl2 E1]; subst.
    { exfalso. apply H10. apply elem_of_app. right. apply elem_of_list_here. }
    eexists. split; [done|]. rewrite app_length. cbn [length]. destruct (Nat.leb (size - 2) (length buf)) eqn:E; [apply Nat.leb_le in E; lia|apply Nat.leb_gt in E; lia]. }
  cbn [readMore]. rewrite lastIs_no by done. destruct rest as [|c rest].
  { rewrite app_nil_r in Hw. inversion Hw as [l t' Hl E1|l Hl1 Hl2 E1]; subst.
    { exfalso. apply H10. apply elem_of_app. right. apply elem_of_list_here. }
    eexists. split; [done|]. rewrite app_length. cbn [length]. destruct (Nat.leb (size - 2) (length buf)) eqn:E; [apply Nat.leb_le in E; lia|apply Nat.leb_gt in E; lia]. }
  set (rest' := c :: rest) in *. unfold devReadLine.
  destruct (Nat.ltb (size + grow - 1 - length buf) 2) eqn:E2; [apply Nat.ltb_lt in E2; lia|]. clear E2.
  destruct (cutLine (size + grow - 1 - length buf - 1) rest') as [more r] eqn:Ec.
  destruct (cut_spec _ _ _ _ Ec) as (Er & Hlen & Hcase).
  assert (13 ∉ more) as Hm13 by (rewrite Er, !elem_of_app in H13; tauto).
  rewrite crlf_no by done.
  assert (more <> []) as Hmne.
  { intros ->. destruct Hcase as [(p & Hp & _)|[_ [-> | Hn]]]; [by destruct p|by rewrite Er in *|cbn in Hn; lia]. }
  destruct more as [|m more]; [done|]. set (more' := m :: more) in *.
  destruct (Nat.ltb (size + grow) (length buf + length more' + 1)) eqn:E3; [apply Nat.ltb_lt in E3; lia|]. clear E3.
  destruct Hcase as [(p & Hp & Hp10)|[Hn Hr]].
  - (* the end of the line was read *)
    rewrite Hp in *. rewrite Er in Hw. rewrite <- app_assoc in Hw. cbn [app] in Hw. rewrite app_assoc in Hw.
    assert (b = buf ++ p ++ [10] /\ t = r) as [-> ->].
    { inversion Hw as [l t' Hl E1|l Hl1 Hl2 E1]; subst.
      - assert (10 ∉ buf ++ p) as Hbp by (rewrite elem_of_app; tauto).
        destruct (app_no_10 (buf ++ p) l t (10 :: r) Hbp ltac:(done) Hl) as (l2 & -> & E).
        destruct l2 as [|y l2]; [injection E as ->; rewrite app_nil_r, <- app_assoc; done|].
        injection E as <- E. exfalso. apply Hl. rewrite elem_of_app. right. apply elem_of_list_here.
      - exfalso. apply Hl2. apply elem_of_app. right. apply elem_of_list_here. }
    exists (size + grow)%nat. split.
    + destruct fuel; cbn [readMore]; rewrite app_assoc, lastIs_snoc; done.
    + rewrite !app_length in *. cbn [length] in *. lia.
  - (* not yet *)
    destruct (IH (size + grow)%nat (buf ++ more') r b t) as (size' & Hres & H1 & H2).
    + rewrite <- app_assoc, <- Er. done.
    + rewrite elem_of_app. tauto.
    + assert (length rest' = length more' + length r)%nat as Hl by (rewrite Er, app_length; done). subst more' rest'. cbn [length] in *. lia.
    + rewrite app_length. lia.
    + by destruct buf.
    + rewrite <- app_assoc, <- Er. done.
    + exists size'. split_and!; [done|done|lia].
Qed.

(** One physical line. *)
Lemma readOne_spec grow size rest b t : (1 <= grow)%nat -> (3 <= size)%nat -> 13 ∉ rest -> whole rest b t ->
  exists l r size', devReadLine (size - 1) rest = Some (l, r) /\ l <> [] /\ (length l + 1 <= size)%nat
    /\ readMore grow (length r) size l r = Some (b, size', t) /\ (length b < size')%nat /\ (size <= size')%nat.
Proof.
  intros Hg Hs H13 Hw. unfold devReadLine.
  destruct (Nat.ltb (size - 1) 2) eqn:E2; [apply Nat.ltb_lt in E2; lia|]. clear E2.
  destruct (cutLine (size - 1 - 1) rest) as [l r] eqn:Ec.
  destruct (cut_spec _ _ _ _ Ec) as (-> & Hlen & Hcase).
  assert (13 ∉ l) as Hl13 by (rewrite elem_of_app in H13; tauto). rewrite crlf_no by done.
  exists l, r. destruct Hcase as [(p & -> & Hp)|[Hn Hr]].
  - assert (b = p ++ [10] /\ t = r) as [-> ->].
    { rewrite <- app_assoc in Hw. cbn [app] in Hw. inversion Hw as [l t' Hl E1|l Hl1 Hl2 E1]; subst.
      - destruct (app_no_10 p l t (10 :: r) Hp ltac:(done) Hl) as (l2 & -> & E).
        destruct l2 as [|y l2]; [injection E as ->; rewrite app_nil_r; done|].
        injection E as <- E. exfalso. apply Hl. rewrite elem_of_app. right. apply elem_of_list_here.
      - exfalso. apply Hl2. apply elem_of_app. right. apply elem_of_list_here. }
    exists size. rewrite app_length in *. cbn [length] in *. split_and!; [done|by destruct p|lia| |lia|lia].
    destruct (length r); cbn [readMore]; rewrite lastIs_snoc; done.
  - assert (l <> []) as Hne.
    { intros ->. destruct Hr as [-> | Hr]; [|cbn in Hr; lia]. inversion Hw as [l t' Hl E1|l Hl1 Hl2 E1]; [by destruct l|done]. }
    destruct (readMore_spec grow Hg (length r) size l r b t) as (size' & H1 & H2 & H3); try done.
    { lia. }
    exists size'. split_and!; try done. lia.
Qed.

(** A physical line with a carriage return that fits into the buffer. *)
Lemma readOne_cr size l t : (length l + 4 <= size)%nat -> 10 ∉ l ->
  devReadLine (size - 1) (l ++ 13 :: 10 :: t) = Some (l ++ [10], t).
Proof.
  intros Hs Hl. unfold devReadLine. destruct (Nat.ltb (size - 1) 2) eqn:E2; [apply Nat.ltb_lt in E2; lia|]. clear E2.
  assert (forall n, (length l + 2 <= n)%nat -> cutLine n (l ++ 13 :: 10 :: t) = (l ++ [13; 10], t)) as ->; [|by rewrite crlf_cr|lia].
  clear Hs. induction l as [|c l IH]; intros n Hn.
  - destruct n as [|[|n]]; cbn in Hn; try lia. done.
  - destruct n as [|n]; [cbn in Hn; lia|]. rewrite not_elem_of_cons in Hl. cbn. destruct (c =? 10) eqn:E; [apply N.eqb_eq in E; naive_solver|].
    rewrite IH; [done|naive_solver|cbn in Hn; lia].
Qed.
Lemma readOne_fits size l t : (length l + 3 <= size)%nat -> 10 ∉ l -> last l <> Some 13 ->
  devReadLine (size - 1) (l ++ 10 :: t) = Some (l ++ [10], t).
Proof.
  intros Hs Hl Hc. unfold devReadLine. destruct (Nat.ltb (size - 1) 2) eqn:E2; [apply Nat.ltb_lt in E2; lia|]. clear E2.
  assert (forall n, (length l + 1 <= n)%nat -> cutLine n (l ++ 10 :: t) = (l ++ [10], t)) as ->; [|by rewrite crlf_other|lia].
  clear Hs Hc. induction l as [|c l IH]; intros n Hn.
  - destruct n as [|n]; cbn in Hn; try lia. done.
  - destruct n as [|n]; [cbn in Hn; lia|]. rewrite not_elem_of_cons in Hl. cbn. destruct (c =? 10) eqn:E; [apply N.eqb_eq in E; naive_solver|].
    rewrite IH; [done|naive_solver|cbn in Hn; lia].
Qed.
Lemma readOne_end size l : (length l + 2 <= size)%nat -> (3 <= size)%nat -> 10 ∉ l ->
  devReadLine (size - 1) l = Some (l, []).
Proof.
  intros Hs H3 Hl. unfold devReadLine. destruct (Nat.ltb (size - 1) 2) eqn:E2; [apply Nat.ltb_lt in E2; lia|]. clear E2.
  assert (forall n, (length l <= n)%nat -> cutLine n l = (l, [])) as ->; [|by rewrite crlf_short|lia].
  clear Hs H3. induction l as [|c l IH]; intros n Hn.
  - by destruct n.
  - destruct n as [|n]; [cbn in Hn; lia|]. rewrite not_elem_of_cons in Hl. cbn. destruct (c =? 10) eqn:E; [apply N.eqb_eq in E; naive_solver|].
    rewrite IH; [done|naive_solver|cbn in Hn; lia].
Qed.

(** ** The ends of lines *)
Lemma last_cases (l : list N) : l = [] \/ exists p x, l = p ++ [x].
Proof. destruct l as [|x l] using rev_ind; [by left|right; eauto]. Qed.
Lemma nth_back (p : list N) x q d : nth (length (p ++ x :: q) - S (length q)) (p ++ x :: q) d = x.
Proof.
  rewrite app_length. cbn [length]. replace (length p + S (length q) - S (length q))%nat with (length p) by lia.
  rewrite app_nth2 by lia. by rewrite Nat.sub_diag.
Qed.
Lemma firstn_back p (q : list N) : firstn (length (p ++ q) - length q) (p ++ q) = p.
Proof. rewrite app_length. replace (length p + length q - length q)%nat with (length p) by lia. by rewrite take_app. Qed.

Lemma qchop_snoc (p : list N) x : qchop 1 (p ++ [x]) = p.
Proof. exact (firstn_back p [x]). Qed.
Lemma classify_snoc p a x : classify (p ++ [a; x]) =
  if a =? 92 then
    match last p with
    | Some 94 => MLine (Some (qchop 1 p ++ [92])) CNone
    | Some 92 => MLine (Some (p ++ [92])) CNone
    | _ => MLine (Some p) CBackslash
    end
  else if a =? 94 then MLine (Some p) CCaret else MLine (Some (p ++ [a])) CNone.
Proof.
  unfold classify. pose proof (nth_back p a [x] 0) as N2. cbn [length] in N2. rewrite N2.
  assert (Nat.leb 2 (length (p ++ [a; x])) = true) as -> by (apply Nat.leb_le; rewrite app_length; cbn; lia). cbn [andb].
  pose proof (firstn_back p [a; x]) as F2. cbn [length] in F2. rewrite F2.
  assert (firstn (length (p ++ [a; x]) - 1) (p ++ [a; x]) = p ++ [a]) as F1.
  { change [a; x] with ([a] ++ [x]). rewrite app_assoc. apply (firstn_back (p ++ [a]) [x]). } rewrite F1.
  destruct (a =? 92) eqn:Ea; [apply N.eqb_eq in Ea as ->|done].
  destruct (last_cases p) as [->|(q & b & ->)]; [done|].
  rewrite last_snoc. pose proof (nth_back q b [92; x] 0) as N3. cbn [length] in N3. rewrite <- !app_assoc. cbn [app]. rewrite N3.
  assert (Nat.leb 3 (length (q ++ [b; 92; x])) = true) as -> by (apply Nat.leb_le; rewrite app_length; cbn; lia). cbn [andb].
  pose proof (firstn_back q [b; 92; x]) as F3. cbn [length] in F3. rewrite F3.
  destruct (b =? 94) eqn:Eb; [apply N.eqb_eq in Eb as ->; by rewrite qchop_snoc|].
  destruct (b =? 92) eqn:Ec; [apply N.eqb_eq in Ec as ->; done|].
  apply N.eqb_neq in Eb. apply N.eqb_neq in Ec.
  repeat match goal with |- context [match ?b with _ => _ end] => destruct b; try done end; lia.
Qed.
Lemma classify_single x : classify [x] = MLine (Some []) CNone.
Proof. done. Qed.
Lemma ends_classify l c k x : ends l c k -> classify (l ++ [x]) = MLine (Some c) k.
Proof.
  destruct 1 as [p|p|p H1 H2|p|p H1 H2].
  - change [94; 92] with ([94] ++ [92]). rewrite app_assoc, <- app_assoc. cbn [app]. rewrite classify_snoc. cbn.
    rewrite last_snoc. by rewrite qchop_snoc.
  - change [92; 92] with ([92] ++ [92]). rewrite app_assoc, <- app_assoc. cbn [app]. rewrite classify_snoc. cbn.
    by rewrite last_snoc.
  - rewrite <- app_assoc. cbn [app]. rewrite classify_snoc. cbn.
    destruct (last p) as [y|]; [|done].
    repeat match goal with |- context [match ?b with _ => _ end] => destruct b; try done end.
  - rewrite <- app_assoc. cbn [app]. rewrite classify_snoc. done.
  - destruct (last_cases p) as [->|(q & b & ->)]; [done|]. rewrite last_snoc in *. rewrite <- app_assoc. cbn [app].
    rewrite classify_snoc. destruct (b =? 92) eqn:E1; [apply N.eqb_eq in E1; congruence|].
    destruct (b =? 94) eqn:E2; [apply N.eqb_eq in E2; congruence|done].
Qed.
Lemma ends_total l : exists c k, ends l c k.
Proof.
  destruct (last_cases l) as [->|(p & a & ->)]; [exists [], CNone; by apply en_plain|].
  destruct (decide (a = 92)) as [->|H1].
  - destruct (last_cases p) as [->|(q & b & ->)]; [exists [], CBackslash; by apply (en_backslash [])|].
    rewrite <- app_assoc. cbn [app]. destruct (decide (b = 94)) as [->|H2]; [eexists _, _; apply en_caret_backslash|].
    destruct (decide (b = 92)) as [->|H3]; [eexists _, _; apply en_two|].
    change [b; 92] with ([b] ++ [92]). rewrite app_assoc. eexists _, _. apply en_backslash; rewrite last_snoc; congruence.
  - destruct (decide (a = 94)) as [->|H2]; [eexists _, _; apply en_caret|].
    eexists _, _. apply en_plain; rewrite last_snoc; congruence.
Qed.
Lemma ends_det l c k c' k' : ends l c k -> ends l c' k' -> c = c' /\ k = k'.
Proof. intros H1 H2. pose proof (ends_classify _ _ _ 0 H1). pose proof (ends_classify _ _ _ 0 H2). split; congruence. Qed.

Lemma endsWith_snoc p s x y : endsWith (p ++ [x]) (s ++ [y]) = (x =? y) && endsWith p s.
Proof. unfold endsWith. rewrite !rev_app_distr. done. Qed.
Lemma endsWith_last x s : endsWith [x] s = true <-> last s = Some x.
Proof.
  rewrite endsWith_spec. split; [intros [t ->]; apply last_snoc|]. intros [t ->]%last_Some. by exists t.
Qed.
Lemma endsWith_two a b s x : endsWith [a; b] (s ++ [x]) = (b =? x) && endsWith [a] s.
Proof. apply (endsWith_snoc [a] s b x). Qed.
Lemma endsWith_one b s x : endsWith [b] (s ++ [x]) = (b =? x).
Proof. etransitivity; [apply (endsWith_snoc [] s b x)|]. unfold endsWith. cbn. apply andb_true_r. Qed.
Lemma ends_classifyU l c k : ends l c k -> classifyU l = MLine (Some c) k.
Proof.
  destruct 1 as [p|p|p H1 H2|p|p H1 H2]; unfold classifyU.
  - rewrite (proj2 (endsWith_spec [94; 92] (p ++ [94; 92])) (ex_intro _ p eq_refl)). unfold qremove. rewrite app_length. cbn [length].
    replace (length p + 2 - 2)%nat with (length p) by lia. rewrite take_app.
    replace (length p + 1)%nat with (length (p ++ [94])) by (rewrite app_length; done).
    change [94; 92] with ([94] ++ [92]). rewrite app_assoc, drop_app. done.
  - assert (p ++ [92; 92] = (p ++ [92]) ++ [92]) as -> by (by rewrite <- app_assoc).
    rewrite !endsWith_two, !endsWith_one. done.
  - rewrite !endsWith_two, !endsWith_one. cbn [N.eqb Pos.eqb andb]. unfold qstr, qchar in *.
    destruct (endsWith [94] p) eqn:E1; [apply endsWith_last in E1; done|].
    destruct (endsWith [92] p) eqn:E2; [apply endsWith_last in E2; done|].
    rewrite qchop_snoc. done.
  - rewrite !endsWith_two, !endsWith_one. cbn [N.eqb Pos.eqb andb]. by rewrite qchop_snoc.
  - destruct (last_cases p) as [->|(q & b & ->)]; [done|]. rewrite last_snoc in *. rewrite !endsWith_two, !endsWith_one.
    destruct (92 =? b) eqn:E1; [apply N.eqb_eq in E1; congruence|].
    destruct (94 =? b) eqn:E2; [apply N.eqb_eq in E2; congruence|done].
Qed.

(** ** Physical lines *)
Lemma split_10 (t : list N) : 10 ∉ t \/ exists l r, t = l ++ 10 :: r /\ 10 ∉ l.
Proof.
  destruct (decide (10 ∈ t)) as [H|H]; [right|by left].
  apply elem_of_list_split_l in H as (l & r & -> & H). eauto.
Qed.
Lemma phys_total text : exists ls, phys text ls.
Proof.
  remember (length text) as n eqn:En. revert text En. induction n as [n IH] using lt_wf_ind. intros text ->.
  destruct (split_10 text) as [H|(l & r & -> & H)].
  - destruct text; [exists []; constructor|]. eexists. by apply ph_last.
  - destruct (IH (length r) ltac:(rewrite app_length; cbn; lia) r eq_refl) as [ls Hls]. exists (l :: ls). by apply ph_line.
Qed.
Lemma line_inj (l l' t t' : list N) : 10 ∉ l -> 10 ∉ l' -> l ++ 10 :: t = l' ++ 10 :: t' -> l = l' /\ t = t'.
Proof.
  revert l'. induction l as [|c l IH]; intros [|c' l'] H H' E; cbn in E.
  - by injection E.
  - injection E as <- E. exfalso. apply H'. apply elem_of_list_here.
  - injection E as -> E. exfalso. apply H. apply elem_of_list_here.
  - injection E as -> E. rewrite not_elem_of_cons in H, H'. destruct (IH l' (proj2 H) (proj2 H') E) as [-> ->]. done.
Qed.
Lemma phys_det text ls ls' : phys text ls -> phys text ls' -> ls = ls'.
Proof.
  intros H. revert ls'. induction H as [|l Hne Hl|l text ls Hl H IH]; intros ls' H'.
  - inversion H' as [|l' ? ?|l' text' ls1 ? ? E]; subst; [done|done|by destruct l'].
  - inversion H' as [|l' ? ?|l' text' ls1 ? ? E]; subst; [done|done|]. exfalso. apply Hl. apply elem_of_app. right. apply elem_of_list_here.
  - remember (l ++ 10 :: text) as t eqn:E. destruct H' as [|l' ? Hl'|l' text' ls1 Hl' H'].
    + by destruct l.
    + subst l'. exfalso. apply Hl'. apply elem_of_app. right. apply elem_of_list_here.
    + apply line_inj in E as [-> ->]; [|done|done]. f_equal. by apply IH.
Qed.

Definition isComment (l : list N) : bool := match l with c :: _ => c =? 35 | [] => false end.
Lemma isComment_spec l : isComment l = true <-> comment l.
Proof. unfold comment. destruct l as [|c l]; cbn; [split; done|]. rewrite N.eqb_eq. split; [intros ->; done|by intros [= ->]]. Qed.

(** One call delivers the first line that is no comment. *)
Lemma read8_one grow ls : (1 <= grow)%nat -> forall fuel size text,
  (3 <= size)%nat -> 13 ∉ text -> phys text ls -> (length text < fuel)%nat ->
  (Forall comment ls /\ readLine8 grow fuel size text = REnd) \/
  exists cs l ls' c k size' t, ls = cs ++ l :: ls' /\ Forall comment cs /\ ~ comment l /\ ends l c k /\
    readLine8 grow fuel size text = RLine (MLine (Some c) k) size' t /\ phys t ls' /\ (3 <= size')%nat /\ 13 ∉ t /\ (length t < length text)%nat.
Proof.
  intros Hg. induction ls as [|l ls IH]; intros fuel size text Hs H13 Hp Hf; (destruct fuel as [|fuel]; [lia|]).
  - left. split; [done|]. inversion Hp; subst. cbn [readLine8]. unfold devReadLine.
    destruct (Nat.ltb _ _); [done|]. by destruct (size - 1 - 1)%nat.
  - assert (exists x t, whole text (l ++ [x]) t /\ phys t ls /\ (length t < length text)%nat /\ 13 ∉ t /\ (x = 10 \/ (x = 0 /\ l <> []))) as (x & t & Hw & Hpt & Hlt & Ht13 & Hx).
    { inversion Hp as [|l' ? ?|l' t ls1 ? ? E]; subst.
      - exists 0, []. split_and!; [by constructor|constructor| |apply not_elem_of_nil|by right]. destruct l; [done|cbn; lia].
      - exists 10, t. split_and!; [by constructor|done|rewrite app_length; cbn; lia| |by left].
        rewrite elem_of_app, elem_of_cons in H13. tauto. }
    destruct (readOne_spec grow size text (l ++ [x]) t Hg Hs H13 Hw) as (l1 & r1 & size' & E1 & Hne & Hb & E2 & Hb2 & Hs').
    cbn [readLine8]. rewrite E1. destruct l1 as [|c1 l1]; [done|].
    destruct (Nat.ltb size (length (c1 :: l1) + 1)) eqn:E3; [apply Nat.ltb_lt in E3; lia|]. rewrite E2.
    assert ((match l ++ [x] with c :: _ => c =? 35 | [] => false end) = isComment l) as ->.
    { destruct l as [|y l]; [|done]. cbn. destruct Hx as [-> | [-> ?]]; done. }
    destruct (isComment l) eqn:Ec.
    + apply isComment_spec in Ec. destruct (IH fuel size' t ltac:(lia) Ht13 Hpt ltac:(lia)) as [[H1 H2]|H].
      * left. split; [by constructor|done].
      * right. destruct H as (cs & l0 & ls' & c & k & size'' & t' & -> & H1 & H2 & H3 & H4 & H5 & H6 & H7 & H8).
        exists (l :: cs), l0, ls', c, k, size'', t'. split_and!; try done; [by constructor|lia].
    + right. destruct (ends_total l) as (c & k & He).
      exists [], l, ls, c, k, size', t. rewrite (ends_classify l c k x He).
      destruct (Nat.ltb (length (l ++ [x])) size') eqn:E4; [|apply Nat.ltb_ge in E4; lia].
      split_and!; try done; [|lia]. rewrite <- isComment_spec. by rewrite Ec.
Qed.

Lemma delivered_total ls : exists out, delivered ls out.
Proof.
  induction ls as [|l ls [out IH]]; [exists []; constructor|]. destruct (isComment l) eqn:E.
  - apply isComment_spec in E. exists out. by constructor.
  - destruct (ends_total l) as (c & k & He). eexists. apply de_line; [rewrite <- isComment_spec; by rewrite E|done|done].
Qed.
Lemma delivered_det ls out out' : delivered ls out -> delivered ls out' -> out = out'.
Proof.
  intros H. revert out'. induction H as [|l ls r Hc H IH|l ls c k r Hc He H IH]; intros out' H'; inversion H'; subst; try done.
  - by apply IH.
  - destruct (ends_det l c k c0 k0) as [-> ->]; [done|done|]. f_equal. by apply IH.
Qed.
Lemma delivered_skip cs ls out : Forall comment cs -> delivered ls out -> delivered (cs ++ ls) out.
Proof. induction 1; [done|]. intros. constructor; [done|auto]. Qed.
Lemma delivered_comments cs : Forall comment cs -> delivered cs [].
Proof. induction 1; constructor; done. Qed.
Lemma readsAll8_det grow size text out out' : readsAll8 grow size text out -> readsAll8 grow size text out' -> out = out'.
Proof.
  intros H. revert out'. induction H as [size text E|size text l size' text' ls E H IH]; intros out' H'; inversion H'; subst; try congruence.
  - rewrite E in H0. injection H0 as <- <- <-. f_equal. by apply IH.
Qed.
Lemma read8_all grow size text ls : (1 <= grow)%nat -> (3 <= size)%nat -> 13 ∉ text -> phys text ls ->
  exists out, readsAll8 grow size text out /\ delivered ls out.
Proof.
  intros Hg. remember (length text) as n eqn:En. revert text size ls En.
  induction n as [n IH] using lt_wf_ind. intros text size ls -> Hs H13 Hp.
  destruct (read8_one grow ls Hg (S (length text)) size text Hs H13 Hp ltac:(lia))
    as [[H1 H2]|(cs & l & ls' & c & k & size' & t & -> & H1 & H2 & H3 & H4 & H5 & H6 & H7 & H8)].
  - exists []. split; [by constructor|by apply delivered_comments].
  - destruct (IH (length t) H8 t size' ls' eq_refl H6 H7 H5) as (out & Ho1 & Ho2).
    exists (MLine (Some c) k :: out). split; [by eapply r8_line|]. apply delivered_skip; [done|]. by constructor.
Qed.

(** Lines with carriage returns that fit. *)
Lemma read8_crlf grow size text ls : (3 <= size)%nat -> physCR text ls -> Forall (fun l => length l + 4 <= size)%nat ls ->
  exists out, readsAll8 grow size text out /\ delivered ls out.
Proof.
  intros Hs Hp HF.
  assert (Hone : forall ls text, physCR text ls -> Forall (fun l => length l + 4 <= size)%nat ls -> forall fuel, (length text < fuel)%nat ->
    (Forall comment ls /\ readLine8 grow fuel size text = REnd) \/
    exists cs l ls' c k t, ls = cs ++ l :: ls' /\ Forall comment cs /\ ~ comment l /\ ends l c k /\
      readLine8 grow fuel size text = RLine (MLine (Some c) k) size t /\ physCR t ls' /\ (length t < length text)%nat).
  { clear text ls Hp HF. induction ls as [|l ls IH]; intros text Hp HF fuel Hf; (destruct fuel as [|fuel]; [lia|]).
    - left. split; [done|]. inversion Hp; subst. cbn [readLine8]. unfold devReadLine.
      destruct (Nat.ltb _ _); [done|]. by destruct (size - 1 - 1)%nat.
    - apply Forall_cons_1 in HF as [Hl HF].
      assert (exists x t l1, physCR t ls /\ (length t < length text)%nat /\ (x = 10 \/ (x = 0 /\ l <> [])) /\ l1 <> [] /\ (length l1 + 1 <= size)%nat /\
         devReadLine (size - 1) text = Some (l1, t) /\ readMore grow (length t) size l1 t = Some (l ++ [x], size, t)) as (x & t & l1 & Hpt & Hlt & Hx & Hne & Hb & E1 & E2).
      { inversion Hp as [|l' Hn H10 E1 E2|l' t ls1 H10 H13 Hpt E1 E2|l' t ls1 H10 Hpt E1 E2]; subst.
        - exists 0, [], l. split_and!; [constructor|destruct l; [done|cbn; lia]|by right|done|lia|apply readOne_end; [lia|lia|done]|].
          cbn [length readMore]. rewrite lastIs_no by done. destruct (Nat.leb (size - 2) (length l)) eqn:E; [apply Nat.leb_le in E; lia|done].
        - exists 10, t, (l ++ [10]). split_and!; [done|rewrite app_length; cbn; lia|by left|by destruct l|rewrite app_length; cbn; lia|apply readOne_fits; [lia|done|done]|].
          destruct (length t); cbn [readMore]; rewrite lastIs_snoc; done.
        - exists 10, t, (l ++ [10]). split_and!; [done|rewrite app_length; cbn; lia|by left|by destruct l|rewrite app_length; cbn; lia|apply readOne_cr; [lia|done]|].
          destruct (length t); cbn [readMore]; rewrite lastIs_snoc; done. }
      cbn [readLine8]. rewrite E1. destruct l1 as [|c1 l1]; [done|].
      destruct (Nat.ltb size (length (c1 :: l1) + 1)) eqn:E3; [apply Nat.ltb_lt in E3; lia|]. rewrite E2.
      assert ((match l ++ [x] with c :: _ => c =? 35 | [] => false end) = isComment l) as ->.
      { destruct l as [|y l]; [|done]. cbn. destruct Hx as [-> | [-> ?]]; done. }
      destruct (isComment l) eqn:Ec.
      + apply isComment_spec in Ec. destruct (IH t Hpt HF fuel ltac:(lia)) as [[H1 H2]|H].
        * left. split; [by constructor|done].
        * right. destruct H as (cs & l0 & ls' & c & k & t' & -> & H1 & H2 & H3 & H4 & H5 & H6).
          exists (l :: cs), l0, ls', c, k, t'. split_and!; try done; [by constructor|lia].
      + right. destruct (ends_total l) as (c & k & He).
        exists [], l, ls, c, k, t. rewrite (ends_classify l c k x He).
        destruct (Nat.ltb (length (l ++ [x])) size) eqn:E4; [|apply Nat.ltb_ge in E4; rewrite app_length in E4; cbn in E4; lia].
        split_and!; try done. rewrite <- isComment_spec. by rewrite Ec. }
  remember (length text) as n eqn:En. revert text ls En Hp HF.
  induction n as [n IH] using lt_wf_ind. intros text ls -> Hp HF.
  destruct (Hone ls text Hp HF (S (length text)) ltac:(lia))
    as [[H1 H2]|(cs & l & ls' & c & k & t & -> & H1 & H2 & H3 & H4 & H5 & H6)].
  - exists []. split; [by constructor|by apply delivered_comments].
  - apply Forall_app in HF as [_ HF]. apply Forall_cons_1 in HF as [_ HF].
    destruct (IH (length t) H6 t ls' eq_refl H5 HF) as (out & Ho1 & Ho2).
    exists (MLine (Some c) k :: out). split; [by eapply r8_line|]. apply delivered_skip; [done|]. by constructor.
Qed.

(** Unicode files. *)
Lemma cutText_line l t : 10 ∉ l -> cutText (l ++ 10 :: t) = (l, t).
Proof.
  induction l as [|c l IH]; [done|]. rewrite not_elem_of_cons. intros [H1 H2]. cbn. destruct (c =? 10) eqn:E; [apply N.eqb_eq in E; congruence|].
  by rewrite IH.
Qed.
Lemma cutText_end l : 10 ∉ l -> cutText l = (l, []).
Proof.
  induction l as [|c l IH]; [done|]. rewrite not_elem_of_cons. intros [H1 H2]. cbn. destruct (c =? 10) eqn:E; [apply N.eqb_eq in E; congruence|].
  by rewrite IH.
Qed.
Lemma stream_line text l ls : physCR text (l :: ls) -> exists t, streamReadLine text = Some (l, t) /\ physCR t ls /\ (length t < length text)%nat.
Proof.
  intros Hp. inversion Hp as [|l' Hn H10 E1 E2|l' t ls1 H10 H13 Hpt E1 E2|l' t ls1 H10 Hpt E1 E2]; subst.
  - exists []. split_and!; [|constructor|destruct l; [done|cbn; lia]]. unfold streamReadLine. destruct l as [|c l]; [done|].
    rewrite cutText_end by done. rewrite Nat.eqb_refl. by rewrite andb_false_r.
  - exists t. split_and!; [|done|rewrite app_length; cbn; lia]. unfold streamReadLine.
    assert (exists c r, l ++ 10 :: t = c :: r) as (c & r & E) by (destruct l; cbn; eauto). rewrite E, <- E.
    rewrite cutText_line by done. destruct (endsWith [13] l) eqn:E2; [apply endsWith_last in E2; done|done].
  - exists t. split_and!; [|done|rewrite app_length; cbn; lia]. unfold streamReadLine.
    assert (exists c r, l ++ 13 :: 10 :: t = c :: r) as (c & r & E) by (destruct l; cbn; eauto). rewrite E, <- E.
    assert (l ++ 13 :: 10 :: t = (l ++ [13]) ++ 10 :: t) as -> by (by rewrite <- app_assoc).
    rewrite cutText_line by (rewrite elem_of_app, elem_of_list_singleton; naive_solver).
    rewrite endsWith_one. cbn [N.eqb Pos.eqb andb].
    destruct (Nat.eqb _ _) eqn:E2; [apply Nat.eqb_eq in E2; rewrite !app_length in E2; cbn in E2; lia|]. cbn [negb]. by rewrite qchop_snoc.
Qed.
Lemma readU_one ls : forall text fuel, physCR text ls -> (length text < fuel)%nat ->
    (Forall comment ls /\ readLineU fuel text = None) \/
    exists cs l ls' c k t, ls = cs ++ l :: ls' /\ Forall comment cs /\ ~ comment l /\ ends l c k /\
      readLineU fuel text = Some (MLine (Some c) k, t) /\ physCR t ls' /\ (length t < length text)%nat.
Proof.
  induction ls as [|l ls IH]; intros text fuel Hp Hf; (destruct fuel as [|fuel]; [lia|]).
  - left. split; [done|]. inversion Hp; subst. done.
  - destruct (stream_line _ _ _ Hp) as (t & E & Hpt & Hlt). cbn [readLineU]. rewrite E.
    assert (startsWith [35] l = isComment l) as ->.
    { destruct l as [|c l]; [done|]. cbn. rewrite andb_true_r. apply N.eqb_sym. }
    destruct (isComment l) eqn:Ec.
    + apply isComment_spec in Ec. destruct (IH t fuel Hpt ltac:(lia)) as [[H1 H2]|H].
      * left. split; [by constructor|done].
      * right. destruct H as (cs & l0 & ls' & c & k & t' & -> & H1 & H2 & H3 & H4 & H5 & H6).
        exists (l :: cs), l0, ls', c, k, t'. split_and!; try done; [by constructor|lia].
    + right. destruct (ends_total l) as (c & k & He). exists [], l, ls, c, k, t. rewrite (ends_classifyU l c k He).
      split_and!; try done. rewrite <- isComment_spec. by rewrite Ec.
Qed.
Lemma readU_all size text ls : physCR text ls -> exists out, readsAll (Reader true size text) out /\ delivered ls out.
Proof.
  remember (length text) as n eqn:En. revert text ls En. induction n as [n IH] using lt_wf_ind. intros text ls -> Hp.
  destruct (readU_one ls text (S (length text)) Hp ltac:(lia))
    as [[H1 H2]|(cs & l & ls' & c & k & t & -> & H1 & H2 & H3 & H4 & H5 & H6)].
  - exists []. split; [|by apply delivered_comments]. eapply ra_end. unfold readerLine. cbn [rd_uni rd_text]. rewrite H2. done.
  - destruct (IH (length t) H6 t ls' eq_refl H5) as (out & Ho1 & Ho2).
    exists (MLine (Some c) k :: out). split; [|apply delivered_skip; [done|]; by constructor].
    eapply ra_line; [|exact Ho1]. unfold readerLine. cbn [rd_uni rd_text rd_size]. rewrite H4. done.
Qed.
Lemma readsAll_det r out out' : readsAll r out -> readsAll r out' -> out = out'.
Proof.
  intros H. revert out'. induction H as [r r' E|r r' c k ls E H IH]; intros out' H'; inversion H'; subst; try congruence.
  rewrite E in H0. injection H0 as <- <- <-. f_equal. by apply IH.
Qed.
Lemma physCR_total text : exists ls, physCR text ls.
Proof.
  remember (length text) as n eqn:En. revert text En. induction n as [n IH] using lt_wf_ind. intros text ->.
  destruct (split_10 text) as [H|(l & r & -> & H)].
  - destruct text; [exists []; constructor|]. eexists. by apply pc_last.
  - destruct (IH (length r) ltac:(rewrite app_length; cbn; lia) r eq_refl) as [ls Hls].
    destruct (decide (last l = Some 13)) as [E|E].
    + apply last_Some in E as [l' ->]. exists (l' :: ls). rewrite <- app_assoc. cbn [app]. apply pc_cr; [|done].
      rewrite elem_of_app in H. tauto.
    + exists (l :: ls). by apply pc_line.
Qed.
Lemma physCR_det text ls ls' : physCR text ls -> physCR text ls' -> ls = ls'.
Proof.
  revert text ls'. induction ls as [|l ls IH]; intros text ls' H H'.
  - inversion H; subst. inversion H' as [| |l' ? ? ? ? ? E|l' ? ? ? ? E]; subst; [done|done|by destruct l'|by destruct l'].
  - destruct (stream_line _ _ _ H) as (t & E & Hp & _). destruct ls' as [|l' ls'].
    { inversion H'; subst. done. }
    destruct (stream_line _ _ _ H') as (t' & E' & Hp' & _). rewrite E in E'. injection E' as <- <-. f_equal. by eapply IH.
Qed.

(** ** The buffer is never left *)
Lemma dev_length n rest l r : devReadLine n rest = Some (l, r) -> (length l + 1 <= n)%nat.
Proof.
  unfold devReadLine. destruct (Nat.ltb n 2) eqn:E; [done|]. apply Nat.ltb_ge in E.
  destruct (cutLine (n - 1) rest) as [l' r'] eqn:Ec. destruct (cut_spec _ _ _ _ Ec) as (_ & Hl & _). intros [= <- <-].
  unfold crlf. destruct (endsWith [13; 10] l') eqn:E2; [|lia]. apply endsWith_spec in E2 as [t ->].
  unfold qchop. rewrite app_length, take_length. rewrite app_length in *. cbn [length] in *. lia.
Qed.
Lemma readMore_safe grow : (1 <= grow)%nat -> forall fuel size buf rest, (length buf + 2 <= size)%nat ->
  exists b size' r, readMore grow fuel size buf rest = Some (b, size', r) /\ (length b < size')%nat /\ (size <= size')%nat.
Proof.
  intros Hg. induction fuel as [|fuel IH]; intros size buf rest Hs; cbn [readMore].
  - destruct (lastIs 10 buf); [eexists _, _, _; split; [done|lia]|]. destruct rest; [|eexists _, _, _; split; [done|lia]].
    eexists _, _, _. split; [done|]. rewrite app_length. cbn [length]. destruct (Nat.leb _ _) eqn:E; [lia|apply Nat.leb_gt in E; lia].
  - destruct (lastIs 10 buf); [eexists _, _, _; split; [done|lia]|]. destruct rest as [|c rest].
    + eexists _, _, _. split; [done|]. rewrite app_length. cbn [length]. destruct (Nat.leb _ _) eqn:E; [lia|apply Nat.leb_gt in E; lia].
    + destruct (devReadLine _ _) as [[[|m more] r]|] eqn:Ed; [eexists _, _, _; split; [done|lia]| |eexists _, _, _; split; [done|lia]].
      apply dev_length in Ed. destruct (Nat.ltb _ _) eqn:E; [apply Nat.ltb_lt in E; lia|].
      destruct (IH (size + grow)%nat (buf ++ m :: more) r) as (b & size' & r' & H1 & H2 & H3); [rewrite app_length; lia|].
      exists b, size', r'. split_and!; [done|done|lia].
Qed.
Lemma read8_safe grow fuel size text : (1 <= grow)%nat -> (3 <= size)%nat ->
  readLine8 grow fuel size text <> RCrash /\ forall l size' t, readLine8 grow fuel size text = RLine l size' t -> (3 <= size')%nat.
Proof.
  intros Hg. revert size text. induction fuel as [|fuel IH]; intros size text Hs; [done|]. cbn [readLine8].
  destruct (devReadLine (size - 1) text) as [[[|c l] r]|] eqn:Ed; [done| |done]. apply dev_length in Ed.
  destruct (Nat.ltb size (length (c :: l) + 1)) eqn:E; [apply Nat.ltb_lt in E; lia|].
  destruct (readMore_safe grow Hg (length r) size (c :: l) r ltac:(lia)) as (b & size' & r' & -> & H1 & H2).
  destruct (match b with c0 :: _ => c0 =? 35 | [] => false end); [apply IH; lia|].
  destruct (Nat.ltb (length b) size') eqn:E2; [|apply Nat.ltb_ge in E2; lia]. split; [done|]. intros ? ? ? [= <- <- <-]. lia.
Qed.
