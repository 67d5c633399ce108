(** Lemmas about reading the command line: options. *)
From Coq Require Import Ascii String.
From stdpp Require Import prelude gmap.
From RecordUpdate Require Import RecordSet.
Import RecordSetNotations.
From Verif Require Import Base Macro SplitCmd SplitCmdSpec SplitCmdProofs Opts OptsSpec.
Local Open Scope N_scope.

(** ** Letters *)

Lemma isLet_up l c : 65 <= l -> l <= 90 -> isLet l c = (upLatin1 c =? l).
Proof.
  intros H1 H2. unfold isLet, upLatin1.
  apply eq_bool_prop_intro. rewrite !Is_true_true.
  destruct ((97 <=? c) && (c <=? 122)) eqn:E;
    rewrite ?orb_true_iff, ?andb_true_iff, ?N.leb_le, ?N.eqb_eq in *;
    [|apply andb_false_iff in E; rewrite !N.leb_gt in E]; lia.
Qed.

Lemma isLet_q c : isLet (ch "?") c = (upLatin1 c =? ch "?").
Proof.
  unfold isLet, upLatin1. change (ch "?") with 63. cbn [N.leb N.compare Pos.compare Pos.compare_cont andb].
  rewrite orb_false_r. destruct ((97 <=? c) && (c <=? 122)) eqn:E; [|done].
  apply andb_true_iff in E as [E1 E2]. rewrite N.leb_le in *.
  apply eq_bool_prop_intro. rewrite !Is_true_true, !N.eqb_eq. lia.
Qed.

(** ** Long names *)

(** Capitals without SS and not ending in S, as all names of options. *)
Fixpoint goodName (n : qstr) : bool :=
  match n with
  | [] => true
  | l :: n' => (65 <=? l) && (l <=? 90)
      && (negb (l =? 83) || match n' with [] => false | m :: _ => negb (m =? 83) end) && goodName n'
  end.

Lemma upper_spells n : goodName n = true -> forall w,
  startsWith n (toUpper w) = true <-> exists p s, w = p ++ s /\ spells n p.
Proof.
  induction n as [|l n IH]; intros Hg w.
  { split; [intros _; exists [], w; split; [done|constructor]|done]. }
  cbn [goodName] in Hg. rewrite !andb_true_iff in Hg. destruct Hg as [[[Hl1 Hl2] Hs] Hg].
  rewrite N.leb_le in Hl1, Hl2.
  destruct w as [|c w].
  { split; [done|]. intros (p & s & E & H). destruct p; [inversion H|done]. }
  assert (Hsp : (exists p s, c :: w = p ++ s /\ spells (l :: n) p) <->
    isLet l c = true /\ exists p s, w = p ++ s /\ spells n p).
  { split.
    - intros (p & s & E & H). inversion H as [|? x ? p' Hx Hp]; subst. cbn in E. injection E as -> ->. eauto.
    - intros (Hc & p & s & -> & Hp). exists (c :: p), s. split; [done|]. by constructor. }
  rewrite Hsp. rewrite <- (IH Hg w). rewrite isLet_up by done.
  change (toUpper (c :: w)) with (upperChar c ++ toUpper w). unfold upperChar, upLatin1.
  destruct (c =? 223) eqn:E1.
  { apply N.eqb_eq in E1 as ->. cbn [app startsWith]. cbn [N.leb N.compare Pos.compare Pos.compare_cont andb].
    split.
    - rewrite andb_true_iff. intros [El Hn]. exfalso. apply N.eqb_eq in El as ->.
      cbn in Hs. destruct n as [|m n]; [done|]. cbn in Hn. destruct (m =? 83); done.
    - intros [El _]. apply N.eqb_eq in El. lia. }
  destruct (c =? 255) eqn:E2.
  { apply N.eqb_eq in E2 as ->. cbn [app startsWith]. cbn [N.leb N.compare Pos.compare Pos.compare_cont andb].
    rewrite andb_true_iff, !N.eqb_eq. lia. }
  destruct (c =? 181) eqn:E3.
  { apply N.eqb_eq in E3 as ->. cbn [app startsWith]. cbn [N.leb N.compare Pos.compare Pos.compare_cont andb].
    rewrite andb_true_iff, !N.eqb_eq. lia. }
  destruct ((97 <=? c) && (c <=? 122)) eqn:E4.
  { cbn [orb app startsWith]. rewrite andb_true_iff, !N.eqb_eq. naive_solver. }
  cbn [orb]. destruct ((224 <=? c) && (c <=? 254) && negb (c =? 247)) eqn:E5.
  - cbn [app startsWith]. rewrite !andb_true_iff, !N.leb_le in E5. rewrite andb_true_iff, !N.eqb_eq. lia.
  - cbn [app startsWith]. rewrite andb_true_iff, !N.eqb_eq. naive_solver.
Qed.

Lemma goodNames l : goodName (nameOf l) = true.
Proof. destruct l; vm_compute; reflexivity. Qed.

Lemma spells_length n p : spells n p -> List.length n = List.length p.
Proof. intros H. by eapply Forall2_length in H. Qed.

Lemma spells_take n w p s : w = p ++ s -> spells n p -> drop (List.length n) w = s.
Proof. intros -> H. rewrite (spells_length _ _ H). by rewrite drop_app. Qed.

Definition doLong (l : longName) (st : ostate) : ostate :=
  match l with
  | LNologo => st <| s_flags ::= fun f => f ++ [76] |> <| s_opts; o_showLogo := false |>
  | LDumpDot => st <| s_opts; o_dumpGraph := true |> <| s_opts; o_dumpDot := true |>
                       <| s_opts; o_showLogo := false |>
  | LDump => st <| s_opts; o_dumpGraph := true |> <| s_opts; o_showLogo := false |>
  | LDebug => st <| s_opts; o_debug := true |>
  | LErrorReport => st
  | LVersion => st <| s_opts; o_version := true |>
  end.

Lemma starts_iff l w : startsWith (nameOf l) (toUpper w) = true <-> exists p s, w = p ++ s /\ spells (nameOf l) p.
Proof. apply upper_spells, goodNames. Qed.

Lemma starts_false l w : noLong w -> startsWith (nameOf l) (toUpper w) = false.
Proof.
  intros H. destruct (startsWith _ _) eqn:E; [|done]. apply starts_iff in E as (p & s & E & Hs). exfalso. exact (H l p s E Hs).
Qed.

Lemma longOption_none w st : noLong w -> longOption w st = (w, st).
Proof.
  intros H. unfold longOption.
  rewrite (starts_false LNologo _ H : startsWith (s2q "NOLOGO") _ = _).
  rewrite (starts_false LDumpDot _ H : startsWith (s2q "DUMPGRAPHDOT") _ = _).
  rewrite (starts_false LDump _ H : startsWith (s2q "DUMPGRAPH") _ = _).
  rewrite (starts_false LDebug _ H : startsWith (s2q "DEBUG") _ = _).
  rewrite (starts_false LErrorReport _ H : startsWith (s2q "ERRORREPORT") _ = _).
  rewrite (starts_false LVersion _ H : startsWith (s2q "VERSION") _ = _).
  by destruct (Nat.ltb _ _).
Qed.

(** Names that share their first letter are told apart by the first two, but for the two DUMP ones. *)
Lemma spells_two n m p q w s t : w = p ++ s -> w = q ++ t -> spells n p -> spells m q ->
  (forall a b, n !! a = Some b -> forall c, m !! a = Some c -> 65 <= b <= 90 -> 65 <= c <= 90 -> b = c).
Proof.
  intros E1 E2 Hn Hm a b Ha c Hc Hb Hc'.
  destruct (Forall2_lookup_l _ _ _ _ _ Hn Ha) as (x & Ep & Hx).
  destruct (Forall2_lookup_l _ _ _ _ _ Hm Hc) as (y & Eq & Hy).
  assert (w !! a = Some x) by (rewrite E1; by apply lookup_app_l_Some).
  assert (w !! a = Some y) by (rewrite E2; by apply lookup_app_l_Some).
  assert (x = y) as -> by congruence.
  rewrite isLet_up in Hx, Hy by lia. rewrite N.eqb_eq in *. congruence.
Qed.

Lemma names_differ l k w p q s t : w = p ++ s -> w = q ++ t -> spells (nameOf l) p -> spells (nameOf k) q ->
  l = k \/ (l = LDump /\ k = LDumpDot) \/ (l = LDumpDot /\ k = LDump).
Proof.
  intros E1 E2 Hn Hm. pose proof (spells_two _ _ _ _ _ _ _ E1 E2 Hn Hm) as D.
  destruct l, k; try tauto; exfalso;
    solve [ specialize (D 0%nat _ eq_refl _ eq_refl); vm_compute in D; intuition congruence
          | specialize (D 1%nat _ eq_refl _ eq_refl); vm_compute in D; intuition congruence ].
Qed.

Lemma longOption_some l w s st : longAt l w s -> longOption w st = (s, doLong l st).
Proof.
  intros [(p & E & Hp) Hd].
  assert (Hlen : Nat.ltb 1 (List.length w) = true).
  { apply Nat.ltb_lt. rewrite E, app_length, <- (spells_length _ _ Hp). destruct l; cbn; lia. }
  assert (Hyes : startsWith (nameOf l) (toUpper w) = true) by (apply starts_iff; eauto).
  assert (Hno : forall k, k <> l -> ~ (l = LDumpDot /\ k = LDump) -> startsWith (nameOf k) (toUpper w) = false).
  { intros k Hk Hkl. destruct (startsWith (nameOf k) (toUpper w)) eqn:Ek; [|done].
    apply starts_iff in Ek as (q & t & E2 & Hq).
    destruct (names_differ _ _ _ _ _ _ _ E E2 Hp Hq) as [->|[[-> ->]|[-> ->]]]; [done| |tauto].
    exfalso. by apply (Hd eq_refl q t E2). }
  unfold longOption. rewrite Hlen. rewrite <- (spells_take _ _ _ _ E Hp).
  pose proof (Hno LNologo) as N1. pose proof (Hno LDumpDot) as N2. pose proof (Hno LDump) as N3.
  pose proof (Hno LDebug) as N4. pose proof (Hno LErrorReport) as N5. clear Hno.
  cbn [nameOf] in N1, N2, N3, N4, N5.
  destruct l; cbn [nameOf] in Hyes.
  - by rewrite Hyes.
  - rewrite N1 by naive_solver. by rewrite Hyes.
  - rewrite N1 by naive_solver. rewrite N2 by naive_solver. by rewrite Hyes.
  - rewrite N1 by naive_solver. rewrite N2 by naive_solver.
    rewrite N3 by naive_solver. by rewrite Hyes.
  - rewrite N1 by naive_solver. rewrite N2 by naive_solver.
    rewrite N3 by naive_solver. rewrite N4 by naive_solver. by rewrite Hyes.
  - rewrite N1 by naive_solver. rewrite N2 by naive_solver.
    rewrite N3 by naive_solver. rewrite N4 by naive_solver.
    rewrite N5 by naive_solver. by rewrite Hyes.
Qed.

Lemma long_cases w : noLong w \/ exists l s, longAt l w s.
Proof.
  destruct (startsWith (nameOf LNologo) (toUpper w)) eqn:E1.
  { apply starts_iff in E1 as (p & s & ? & ?). right. exists LNologo, s. split; [eauto|done]. }
  destruct (startsWith (nameOf LDumpDot) (toUpper w)) eqn:E2.
  { apply starts_iff in E2 as (p & s & ? & ?). right. exists LDumpDot, s. split; [eauto|done]. }
  destruct (startsWith (nameOf LDump) (toUpper w)) eqn:E3.
  { apply starts_iff in E3 as (p & s & ? & ?). right. exists LDump, s. split; [eauto|].
    intros _ q t Eq Hq. assert (startsWith (nameOf LDumpDot) (toUpper w) = true) by (apply starts_iff; eauto).
    congruence. }
  destruct (startsWith (nameOf LDebug) (toUpper w)) eqn:E4.
  { apply starts_iff in E4 as (p & s & ? & ?). right. exists LDebug, s. split; [eauto|done]. }
  destruct (startsWith (nameOf LErrorReport) (toUpper w)) eqn:E5.
  { apply starts_iff in E5 as (p & s & ? & ?). right. exists LErrorReport, s. split; [eauto|done]. }
  destruct (startsWith (nameOf LVersion) (toUpper w)) eqn:E6.
  { apply starts_iff in E6 as (p & s & ? & ?). right. exists LVersion, s. split; [eauto|done]. }
  left. intros l p s E Hp.
  assert (startsWith (nameOf l) (toUpper w) = true) by (apply starts_iff; eauto). destruct l; congruence.
Qed.

(** ** Numbers *)

Lemma decimal_digits d n : decimal d n -> d <> [] /\ Forall (fun c => isDigit c = true) d /\ digitsValue d = n.
Proof.
  induction 1 as [c Hc|d n c _ (_ & Hd & Hv) Hc].
  - split_and!; [done|by constructor|]. unfold digitsValue. cbn [fold_left]. lia.
  - split_and!; [by destruct d|apply Forall_app; split; [done|by constructor]|].
    unfold digitsValue, qstr, qchar in *. rewrite fold_left_app. cbn [fold_left]. by rewrite Hv.
Qed.

Lemma digits_decimal d : d <> [] -> Forall (fun c => isDigit c = true) d -> decimal d (digitsValue d).
Proof.
  induction d as [|c d IH] using rev_ind; [done|]. intros _ H. apply Forall_app in H as [H Hc].
  rewrite Forall_singleton in Hc. destruct d as [|c' d'] eqn:Ed.
  - cbn [app]. replace (digitsValue [c]) with (c - 48) by (unfold digitsValue; cbn [fold_left]; lia). by constructor.
  - rewrite <- Ed in *. assert (d <> []) by congruence.
    replace (digitsValue (d ++ [c])) with (digitsValue d * 10 + (c - 48)) by (unfold digitsValue; by rewrite fold_left_app).
    constructor; auto.
Qed.

Lemma digit_notspace c : isDigit c = true -> isSpace c = false.
Proof.
  unfold isDigit, isSpace. rewrite andb_true_iff, !N.leb_le. intros [H1 H2].
  repeat match goal with |- context [?a =? ?b] => rewrite (proj2 (N.eqb_neq a b)) by lia end.
  rewrite (proj2 (N.leb_gt c 13)) by lia. rewrite (proj2 (N.leb_gt 8192 c)) by lia.
  by rewrite andb_false_r.
Qed.

Lemma trimmed_blanks b1 t b2 :
  Forall (fun c => isSpace c = true) b1 -> Forall (fun c => isSpace c = true) b2 -> tight t -> t <> [] ->
  trimmed (b1 ++ t ++ b2) = t.
Proof.
  intros H1 H2 [Ht1 Ht2] Hn.
  assert (D : forall b s, Forall (fun c => isSpace c = true) b -> dropSpaces (b ++ s) = dropSpaces s).
  { intros b s Hb. induction Hb as [|c b Hc _ IH]; [done|]. cbn. by rewrite Hc. }
  unfold trimmed, trimRight. rewrite (D b1 _ H1).
  replace (dropSpaces (t ++ b2)) with (t ++ b2).
  2:{ destruct t as [|c t]; [done|]. cbn. by rewrite (Ht1 c t eq_refl). }
  rewrite rev_app_distr, D by (apply Forall_rev; done).
  rewrite dropSpaces_tight; [apply rev_involutive|].
  intros c b E. apply (Ht2 c (rev b)). apply (f_equal (@rev _)) in E. rewrite rev_involutive in E. exact E.
Qed.

Lemma trimmed_split a : exists b1 b2, a = b1 ++ trimmed a ++ b2 /\
  Forall (fun c => isSpace c = true) b1 /\ Forall (fun c => isSpace c = true) b2.
Proof.
  assert (D : forall s, exists b, s = b ++ dropSpaces s /\ Forall (fun c => isSpace c = true) b).
  { induction s as [|c s (b & E & Hb)]; [by exists []|]. cbn. destruct (isSpace c) eqn:Ec.
    - exists (c :: b). split; [cbn; by f_equal|]. by constructor.
    - by exists []. }
  destruct (D a) as (b1 & E1 & H1). destruct (D (rev (dropSpaces a))) as (b2 & E2 & H2).
  exists b1, (rev b2). split; [|split; [done|by apply Forall_rev]].
  rewrite E1 at 1. f_equal. unfold trimmed, trimRight. rewrite <- rev_app_distr, <- E2. by rewrite rev_involutive.
Qed.

Lemma plus_digits_tight p d : p = [] \/ p = [ch "+"] -> d <> [] -> Forall (fun c => isDigit c = true) d ->
  tight (p ++ d) /\ p ++ d <> [].
Proof.
  intros Hp Hn Hd.
  assert (tight (p ++ d)); [|split; [done|destruct p, d; done]].
  split.
  - intros c b E. destruct Hp as [->| ->]; cbn in E.
    + subst d. inversion Hd; subst. by apply digit_notspace.
    + injection E as <- _. reflexivity.
  - intros c b E. destruct (exists_last Hn) as (d' & x & ->). rewrite app_assoc in E.
    apply app_inj_tail in E as [_ <-]. apply Forall_app in Hd as [_ Hx]. rewrite Forall_singleton in Hx.
    by apply digit_notspace.
Qed.

Lemma forallb_digits d : forallb isDigit d = true <-> Forall (fun c => isDigit c = true) d.
Proof. rewrite forallb_forall, Forall_forall. by setoid_rewrite elem_of_list_In. Qed.

Lemma noplus (t : qstr) c t' : t = c :: t' -> c <> 43 -> stripPlus t = t.
Proof. intros -> Hc. unfold stripPlus. destruct c as [|p]; [done|]. do 6 (destruct p as [p|p|]; try done). Qed.

Lemma jobCount_text a n : jobCount a = Some n <-> jobText a n.
Proof.
  unfold jobCount, toUInt. cbv zeta. split.
  - intros H.
    destruct (trimmed_split a) as (b1 & b2 & Ea & H1 & H2).
    set (t := trimmed a) in *. clearbody t.
    assert (exists p d, t = p ++ d /\ (p = [] \/ p = [ch "+"]) /\
       stripPlus t = d) as (p & d & Et & Hp & Ed).
    { destruct t as [|c t']; [exists [], []; auto|]. destruct (decide (c = 43)) as [->|Hc].
      - exists [43], t'. split_and!; auto.
      - exists [], (c :: t'). split_and!; auto. exact (noplus (c :: t') c t' eq_refl Hc). }
    rewrite Ed in H. destruct d as [|x d]; [done|].
    destruct (forallb isDigit (x :: d)) eqn:Edd; [|done]. cbn [andb] in H.
    destruct (digitsValue (x :: d) <? 2 ^ 32); [|done].
    destruct ((1 <=? digitsValue (x :: d)) && (digitsValue (x :: d) <? 2 ^ 31)) eqn:Er; [|done].
    injection H as <-. apply andb_true_iff in Er as [Er1 Er2].
    exists b1, p, (x :: d), b2. split_and!; [by rewrite Ea, Et, <- app_assoc|done|done|done|split; [|split]].
    + apply digits_decimal; [done|]. by apply forallb_digits.
    + by apply N.leb_le.
    + by apply N.ltb_lt.
  - intros (b1 & p & d & b2 & -> & Hp & H1 & H2 & Hd & Hn1 & Hn2).
    apply decimal_digits in Hd as (Hne & Hdd & Hv).
    destruct (plus_digits_tight p d Hp Hne Hdd) as [Ht Htn].
    rewrite (app_assoc p d b2), trimmed_blanks by done.
    assert (stripPlus (p ++ d) = d) as ->.
    { destruct Hp as [->| ->]; [|done]. cbn [app]. destruct d as [|c d]; [done|].
      inversion Hdd as [|? ? Hc]; subst. unfold isDigit in Hc. rewrite andb_true_iff, !N.leb_le in Hc.
      apply (noplus (c :: d) c d eq_refl). intros ->. lia. }
    destruct d as [|x d]; [done|]. rewrite (proj2 (forallb_digits _) Hdd), Hv. cbn [andb].
    rewrite (proj2 (N.ltb_lt n (2 ^ 32))) by lia. rewrite (proj2 (N.leb_le 1 n)) by lia.
    by rewrite (proj2 (N.ltb_lt n (2 ^ 31))).
Qed.

Lemma jobCount_digits d n : Forall (fun c => isDigit c = true) d -> jobCount d = Some n <-> jobNumber d n.
Proof.
  intros Hd. rewrite jobCount_text. split.
  - intros (b1 & p & d' & b2 & E & Hp & H1 & H2 & Hn).
    assert (forall b, b ⊆ d -> Forall (fun c => isSpace c = true) b -> b = []) as G.
    { intros [|c b] Hsub Hb; [done|]. exfalso. inversion Hb as [|? ? Hc]; subst.
      rewrite Forall_forall in Hd. assert (Hin : c ∈ c :: b) by left. apply Hsub, Hd, digit_notspace in Hin. congruence. }
    rewrite (G b1), (G b2) in E; [|subst; set_solver|done|subst; set_solver|done].
    assert (p = []) as ->; [|by rewrite app_nil_r in E; cbn in E; subst].
    destruct Hp as [->| ->]; [done|]. subst d. cbn in Hd. inversion Hd as [|? ? Hc]. vm_compute in Hc. done.
  - intros Hn. exists [], [], d, []. split_and!; [by rewrite app_nil_r|by left|constructor|constructor|done..].
Qed.

Lemma leadingDigits_split s : exists r, s = leadingDigits s ++ r /\ Forall (fun c => isDigit c = true) (leadingDigits s)
  /\ (forall x s', r = x :: s' -> isDigit x = false) /\ drop (List.length (leadingDigits s)) s = r.
Proof.
  induction s as [|c s (r & E & Hd & Hr & Ed)]; cbn [leadingDigits].
  - exists []. split_and!; try done.
  - destruct (isDigit c) eqn:Ec.
    + exists r. cbn [app List.length drop]. split_and!; [by rewrite <- E|by constructor|done|done].
    + exists (c :: s). split_and!; try done. intros x s' E'. by injection E' as <- _.
Qed.

Lemma leadingDigits_app d s : Forall (fun c => isDigit c = true) d -> (forall x s', s = x :: s' -> isDigit x = false) ->
  leadingDigits (d ++ s) = d.
Proof.
  intros Hd Hs. induction Hd as [|c d Hc _ IH]; cbn [app leadingDigits].
  - destruct s as [|c s]; [done|]. cbn. by rewrite (Hs c s eq_refl).
  - by rewrite Hc, IH.
Qed.
