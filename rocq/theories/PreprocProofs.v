(** Lemmas about the preprocessor. *)
From Coq Require Import Ascii String.
From stdpp Require Import prelude gmap relations.
From RecordUpdate Require Import RecordUpdate.
From Verif Require Import Base BaseProofs Macro MacroSpec MacroProofs PPExpr PPExprProofs PPLex PPLexSpec PPLexProofs
  LineReader LineReaderSpec LineReaderProofs Preproc PreprocSpec.
Local Open Scope N_scope.

(** ** Strings *)
Lemma dropSpaces_split (s : list N) : exists b, s = b ++ dropSpaces s /\ Forall (fun c => isSpace c = true) b.
Proof.
  induction s as [|c s (b & E & F)]; [by exists []|]. cbn. destruct (isSpace c) eqn:Ec; [|by exists []].
  exists (c :: b). split; [by rewrite E at 1|by constructor].
Qed.
Lemma dropSpaces_head (s : list N) c t : dropSpaces s = c :: t -> isSpace c = false.
Proof. induction s as [|x s IH]; [done|]. cbn. destruct (isSpace x) eqn:E; [done|]. intros [= <- <-]. done. Qed.
Lemma dropSpaces_app (b s : list N) : Forall (fun c => isSpace c = true) b -> dropSpaces (b ++ s) = dropSpaces s.
Proof. induction 1 as [|c b Hc _ IH]; [done|]. cbn. by rewrite Hc. Qed.
Lemma dropSpaces_id (s : list N) : (forall c t, s = c :: t -> isSpace c = false) -> dropSpaces s = s.
Proof. destruct s as [|c s]; [done|]. intros H. cbn. by rewrite (H c s). Qed.
Lemma cutWord_spec s w rest : cutWord s = (w, rest) <->
  s = w ++ rest /\ Forall (fun c => isSpace c = false) w /\ (forall c t, rest = c :: t -> isSpace c = true).
Proof.
  revert w rest. induction s as [|c s IH]; intros w rest; cbn.
  - split; [by intros [= <- <-]|]. intros (E & _). by destruct w, rest.
  - destruct (isSpace c) eqn:Ec.
    + split; [intros [= <- <-]; split_and!; [done..|by intros ? ? [= <- <-]]|].
      intros (E & F & _). destruct w as [|x w]; [by cbn in E; subst|]. cbn in E. injection E as -> ->.
      inversion F; congruence.
    + destruct (cutWord s) as [w1 r1] eqn:E1. destruct (proj1 (IH w1 r1) eq_refl) as (Es & F & Hr). split.
      * intros [= <- <-]. split_and!; [by rewrite Es|by constructor|done].
      * intros (E & F' & Hr'). destruct w as [|x w].
        { cbn in E. subst rest. specialize (Hr' c s eq_refl). congruence. }
        cbn in E. injection E as <- E. inversion F'; subst x l.
        assert (E' : (w1, r1) = (w, rest)) by (apply (proj2 (IH w rest)); done). by injection E' as -> ->.
Qed.

Definition notSpaceHead (s : list N) : Prop := forall c t, s = c :: t -> isSpace c = false.
Lemma splitDirective_spec line w rest : splitDirective line = Some (w, rest) <->
  exists blanks, line = 33 :: blanks ++ w ++ rest /\ Forall (fun c => isSpace c = true) blanks /\ w <> [] /\
    Forall (fun c => isSpace c = false) w /\ (forall c t, rest = c :: t -> isSpace c = true).
Proof.
  unfold splitDirective. destruct line as [|c r]; [split; [done|by intros (? & ? & _)]|].
  destruct (c =? 33) eqn:Ec.
  - apply N.eqb_eq in Ec as ->. destruct (cutWord (dropSpaces r)) as [w1 r1] eqn:E.
    apply cutWord_spec in E as (E & F & Hr). destruct (dropSpaces_split r) as (b & Eb & Fb). split.
    + intros H. destruct w1 as [|x w1]; [done|]. injection H as <- <-. exists b. by rewrite Eb, E at 1.
    + intros (b2 & E2 & Fb2 & Hw & F2 & Hr2). injection E2 as E2.
      assert (Ed : dropSpaces r = w ++ rest).
      { rewrite E2, dropSpaces_app by done. apply dropSpaces_id. destruct w as [|x w]; [done|]. intros ? ? [= <- <-].
        by inversion F2. }
      assert (E3 : cutWord (w ++ rest) = (w, rest)) by (apply cutWord_spec; done).
      assert (E4 : cutWord (w ++ rest) = (w1, r1)) by (rewrite <- Ed; apply cutWord_spec; done).
      rewrite E3 in E4. injection E4 as <- <-. by destruct w.
  - split; [done|]. intros (? & [= -> ?] & _). done.
Qed.

(** Recognising directives. *)
Definition parseDir (e : qstr) : option (qstr * qstr) :=
  match e with
  | [] => None
  | c :: _ =>
    if isSpaceOrTab c then None
    else if negb (c =? 33) && Nat.ltb 8 (length e) then
      if isSpaceOrTab (nth 7 e 0) && qeqb (toLower (qleft 7 e)) (s2q "include")
      then Some (s2q "INCLUDE", skipn 8 e) else None
    else match splitDirective e with
         | None => None
         | Some (w, rest) =>
           if qeqb (toUpper w) (s2q "ELSE") then
             match splitElse (trimmed rest) with
             | Some (k, v) => Some (toUpper w ++ k, v)
             | None => Some (toUpper w, trimmed rest)
             end
           else Some (toUpper w, trimmed rest)
         end
  end.
Lemma isDirective_some t e d0 v0 d v : parseDir e = Some (d, v) ->
  isDirective t e d0 v0 = (let* v' := expandP t v in Got (true, d, removeInlineComments v')).
Proof.
  unfold parseDir, isDirective. destruct e as [|c e]; [done|]. destruct (isSpaceOrTab c); [done|].
  destruct (negb (c =? 33) && Nat.ltb 8 (length (c :: e))).
  - destruct (isSpaceOrTab _ && _); [|done]. by intros [= <- <-].
  - destruct (splitDirective _) as [[w rest]|]; [|done]. destruct (qeqb _ _); [|by intros [= <- <-]].
    destruct (splitElse _) as [[k v1]|]; by intros [= <- <-].
Qed.
Lemma isDirective_none t e d0 v0 : parseDir e = None ->
  isDirective t e d0 v0 = Got (false, d0, v0) \/
  isDirective t e d0 v0 = (let* v' := expandP t v0 in Got (false, d0, removeInlineComments v')).
Proof.
  unfold parseDir, isDirective. destruct e as [|c e]; [by left|]. destruct (isSpaceOrTab c); [by left|].
  destruct (negb (c =? 33) && Nat.ltb 8 (length (c :: e))).
  - destruct (isSpaceOrTab _ && _); [done|by left].
  - destruct (splitDirective _) as [[w rest]|]; [|by right]. destruct (qeqb _ _); [|done].
    destruct (splitElse _) as [[k v1]|]; done.
Qed.

Lemma existsb_names w : existsb (qeqb (toLower w)) [s2q "if"; s2q "ifdef"; s2q "ifndef"] = true <->
  toLower w = s2q "if" \/ toLower w = s2q "ifdef" \/ toLower w = s2q "ifndef".
Proof.
  cbn [existsb]. rewrite !orb_true_iff, !qeqb_spec. naive_solver.
Qed.
Lemma space_lower c : isSpace c = true -> lowerChar c = c.
Proof.
  unfold isSpace. rewrite !orb_true_iff, !andb_true_iff, !N.eqb_eq, !N.leb_le. intros H.
  assert (H' : c <= 13 \/ c = 32 \/ c = 133 \/ c = 160 \/ 5760 <= c) by lia. clear H. unfold lowerChar.
  destruct (_ || _) eqn:E; [|done]. rewrite orb_true_iff, !andb_true_iff, !N.leb_le in E. lia.
Qed.
Lemma toLower_noSpace w s : toLower w = s -> Forall (fun c => isSpace c = false) s -> Forall (fun c => c < 128) s ->
  Forall (fun c => isSpace c = false) w.
Proof.
  intros <-. unfold toLower. rewrite !Forall_map. intros H H2. rewrite Forall_forall in *. intros c Hc.
  specialize (H c Hc). specialize (H2 c Hc). cbn in H, H2. destruct (isSpace c) eqn:E; [|done].
  rewrite space_lower in H by done. congruence.
Qed.
Lemma upto_space (w v : list N) k b r k' b' r' : w = k ++ b :: r -> w = k' ++ b' :: r' ->
  Forall (fun c => isSpace c = false) k -> Forall (fun c => isSpace c = false) k' -> isSpace b = true -> isSpace b' = true ->
  k = k' /\ b = b' /\ r = r'.
Proof.
  intros E1 E2 F1 F2 B1 B2.
  assert (H1 : cutWord w = (k, b :: r)) by (apply cutWord_spec; split_and!; [done..|by intros ? ? [= <- <-]]).
  assert (H2 : cutWord w = (k', b' :: r')) by (apply cutWord_spec; split_and!; [done..|by intros ? ? [= <- <-]]).
  rewrite H1 in H2. by injection H2 as -> -> ->.
Qed.
Definition isIfWord (k : list N) : Prop := toLower k = s2q "if" \/ toLower k = s2q "ifdef" \/ toLower k = s2q "ifndef".
Lemma ifWord_noSpace k : isIfWord k -> Forall (fun c => isSpace c = false) k.
Proof.
  intros H. destruct H as [H|[H|H]]; (eapply toLower_noSpace; [exact H|..]); cbn; repeat (constructor; [done|]); constructor.
Qed.
Lemma splitElse_none v : splitElse v = None <->
  (forall k b r, v = k ++ b :: r -> isSpace b = true -> ~ isIfWord k).
Proof.
  unfold splitElse. destruct (cutWord v) as [w rest] eqn:E. pose proof E as E'. apply cutWord_spec in E as (Ev & F & Hr).
  destruct (existsb _ _) eqn:Ex.
  - apply existsb_names in Ex. destruct rest as [|b rest].
    + split; [|done]. intros _ k b r E2 Hb Hk. pose proof (ifWord_noSpace _ Hk) as F2.
      assert (H2 : cutWord v = (k, b :: r)) by (apply cutWord_spec; split_and!; [done..|by intros ? ? [= <- <-]]).
      congruence.
    + split; [done|]. intros H. exfalso. apply (H w b rest); [done|by apply (Hr b rest)|done].
  - split; [|done]. intros _ k b r E2 Hb Hk. pose proof (ifWord_noSpace _ Hk) as F2.
    assert (H2 : cutWord v = (k, b :: r)) by (apply cutWord_spec; split_and!; [done..|by intros ? ? [= <- <-]]).
    rewrite E' in H2. injection H2 as -> ->. apply existsb_names in Hk. congruence.
Qed.
Lemma splitElse_some v k v' : splitElse v = Some (k, v') <->
  exists w b blanks, v = w ++ b :: blanks ++ v' /\ isIfWord w /\ k = toUpper w /\ isSpace b = true /\
    Forall (fun c => isSpace c = true) blanks /\ notSpaceHead v'.
Proof.
  unfold splitElse. destruct (cutWord v) as [w rest] eqn:E. pose proof E as E'. apply cutWord_spec in E as (Ev & F & Hr).
  split.
  - destruct (existsb _ _) eqn:Ex; [|done]. apply existsb_names in Ex. destruct rest as [|b rest]; [done|].
    intros [= <- <-]. destruct (dropSpaces_split (b :: rest)) as (bl & Eb & Fb).
    assert (Hb := Hr b rest eq_refl). change (b :: rest) with ([b] ++ rest) in Eb at 2.
    rewrite dropSpaces_app in Eb by (by repeat constructor).
    destruct bl as [|x bl].
    { exfalso. pose proof (dropSpaces_head rest b rest). cbn in Eb. rewrite <- Eb in H. rewrite H in Hb; done. }
    cbn in Eb. injection Eb as <- Eb. inversion Fb; subst. exists w, b, bl.
    rewrite Hb. split_and!; [by rewrite Eb at 1|done..|]. intros c t. apply dropSpaces_head.
  - intros (w2 & b & bl & E2 & Hw & -> & Hb & Fb & Hv). pose proof (ifWord_noSpace _ Hw) as F2.
    assert (H2 : cutWord v = (w2, b :: bl ++ v')) by (apply cutWord_spec; split_and!; [done..|by intros ? ? [= <- <-]]).
    rewrite E' in H2. injection H2 as -> ->. rewrite (proj2 (existsb_names w2) Hw).
    change (b :: bl ++ v') with ((b :: bl) ++ v'). rewrite dropSpaces_app by (by constructor).
    by rewrite dropSpaces_id.
Qed.
Lemma toUpper_nil w : toUpper w = [] -> w = [].
Proof.
  destruct w as [|c w]; [done|]. cbn. unfold upperChar. intros H. apply app_eq_nil in H as [H _].
  repeat case_match; done.
Qed.
Lemma toLower_length w : length (toLower w) = length w.
Proof. apply map_length. Qed.

Lemma parseDir_spelled e d v : parseDir e = Some (d, v) -> spelled e d v.
Proof.
  unfold parseDir. destruct e as [|c e]; [done|]. destruct (isSpaceOrTab c) eqn:Ec; [done|].
  destruct (negb (c =? 33) && Nat.ltb 8 (length (c :: e))) eqn:E8.
  - apply andb_true_iff in E8 as [_ E8]. apply Nat.ltb_lt in E8.
    destruct (isSpaceOrTab _ && _) eqn:Ei; [|done]. apply andb_true_iff in Ei as [Eb Ei].
    apply qeqb_spec in Ei. intros [= <- <-]. set (s := c :: e) in *.
    assert (Es : s = qleft 7 s ++ nth 7 s 0 :: skipn 8 s).
    { unfold qleft. rewrite <- (firstn_skipn 7 s) at 1. f_equal. clear -E8. subst s.
      do 7 (destruct e as [|? e]; [cbn in E8; lia|]). done. }
    rewrite Es at 1. constructor; [done..|]. intros H. apply (f_equal length) in H. rewrite skipn_length in H. cbn in H, E8. lia.
  - destruct (splitDirective (c :: e)) as [[w rest]|] eqn:E; [|done].
    apply splitDirective_spec in E as (bl & -> & Fb & Hw & Fw & Hr).
    destruct (qeqb _ _) eqn:Ew.
    + apply qeqb_spec in Ew. destruct (splitElse (trimmed rest)) as [[k v1]|] eqn:Es.
      * intros [= <- <-]. apply splitElse_some in Es as (k' & b & bl' & Et & Hk & -> & Hb & Fb' & Hv).
        rewrite Ew. by eapply sp_else.
      * intros [= <- <-]. constructor; [done..|]. intros _ k b r Et Hb.
        pose proof (proj1 (splitElse_none _) Es k b r Et Hb) as Hn. unfold isIfWord in Hn. tauto.
    + apply qeqb_neq in Ew. intros [= <- <-]. by constructor.
Qed.
Lemma spelled_parseDir e d v : spelled e d v -> parseDir e = Some (d, v).
Proof.
  intros [blanks w tail Fb Hw Fw Ht He|blanks w tail k b bl' v' Fb Fw Ht Hu Hk Et Hb Fb' Hv|w b v' Hl Hb Hv].
  - unfold parseDir. change (isSpaceOrTab 33) with false. change (negb (33 =? 33)) with false. cbn [andb].
    rewrite (proj2 (splitDirective_spec (33 :: blanks ++ w ++ tail) w tail)) by eauto 10.
    destruct (qeqb _ _) eqn:Ew; [|done]. apply qeqb_spec in Ew.
    rewrite (proj2 (splitElse_none (trimmed tail))); [done|].
    intros k b r Et Hbb. destruct (He Ew k b r Et Hbb) as (? & ? & ?). unfold isIfWord. tauto.
  - unfold parseDir. change (isSpaceOrTab 33) with false. change (negb (33 =? 33)) with false. cbn [andb].
    rewrite (proj2 (splitDirective_spec (33 :: blanks ++ w ++ tail) w tail)).
    2:{ exists blanks. split_and!; [done..| |done|done]. by intros ->. }
    rewrite Hu, qeqb_refl.
    by rewrite (proj2 (splitElse_some (trimmed tail) (toUpper k) v')) by eauto 20.
  - assert (Hlen : length w = 7%nat) by (rewrite <- (toLower_length w), Hl; done).
    destruct w as [|c w]; [done|]. unfold parseDir. cbn [app].
    assert (Hc : lowerChar c = 105) by (cbn in Hl; by injection Hl).
    assert (isSpaceOrTab c = false) as ->.
    { unfold isSpaceOrTab. destruct (c =? 32) eqn:E1; [apply N.eqb_eq in E1 as ->; done|].
      destruct (c =? 9) eqn:E2; [apply N.eqb_eq in E2 as ->; done|]. done. }
    assert (c =? 33 = false) as ->. { apply N.eqb_neq. intros ->. done. }
    cbn [negb andb]. assert (Nat.ltb 8 (length (c :: w ++ b :: v')) = true) as ->.
    { apply Nat.ltb_lt. cbn in Hlen |- *. rewrite app_length. destruct v'; [done|]. cbn. lia. }
    change (c :: w ++ b :: v') with ((c :: w) ++ b :: v').
    rewrite app_nth2 by lia. rewrite Hlen. cbn [nth Nat.sub]. rewrite Hb.
    unfold qleft. rewrite firstn_app, Hlen, Nat.sub_diag, firstn_O, app_nil_r, firstn_all2 by lia.
    rewrite Hl, qeqb_refl. cbn [andb]. rewrite skipn_app, Hlen.
    rewrite skipn_all2 by lia. done.
Qed.
Lemma parseDir_none e : parseDir e = None <-> forall d v, ~ spelled e d v.
Proof.
  split.
  - intros E d v H. apply spelled_parseDir in H. congruence.
  - intros H. destruct (parseDir e) as [[d v]|] eqn:E; [|done]. exfalso. by apply (H d v), parseDir_spelled.
Qed.
Lemma spelled_det e d v d' v' : spelled e d v -> spelled e d' v' -> d = d' /\ v = v'.
Proof. intros H H'. apply spelled_parseDir in H, H'. rewrite H in H'. by injection H'. Qed.
