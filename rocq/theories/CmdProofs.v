(** Lemmas about command modifiers. *)
From Coq Require Import Ascii String.
From stdpp Require Import prelude.
From Coq Require Import ZifyBool ZifyNat ZifyN.
From Verif Require Import Base Data Cmd CmdSpec.
Local Open Scope N_scope.

Lemma decVal_number ds acc : fold_left (fun a c => 10 * a + (c - 48)) ds acc = number acc ds.
Proof. revert acc; induction ds as [|d ds IH]; intros acc; cbn; [done|]. rewrite IH. f_equal. lia. Qed.

Lemma isDigit_spec c : isDigit c = true <-> isDecDigit c.
Proof. unfold isDigit, isDecDigit. lia. Qed.

Lemma countWhile_app f s r :
  Forall (fun c => f c = true) s -> (forall c r', r = c :: r' -> f c = false) ->
  countWhile f (s ++ r) = length s.
Proof.
  intros Hs Hr. induction Hs as [|c s Hc Hs IH]; cbn.
  - destruct r as [|c r]; [done|]. cbn. by rewrite (Hr c r).
  - rewrite Hc. by f_equal.
Qed.

Lemma countWhile_all f s : Forall (fun c => f c = true) (firstn (countWhile f s) s).
Proof. induction s as [|c s IH]; cbn; [constructor|]. destruct (f c) eqn:E; cbn; constructor; auto. Qed.

Lemma countWhile_stop f s c r : skipn (countWhile f s) s = c :: r -> f c = false.
Proof.
  induction s as [|x s IH]; cbn; [done|]. destruct (f x) eqn:E; cbn; [done|].
  intros [= -> ->]. done.
Qed.

Lemma countWhile_le f s : (countWhile f s <= length s)%nat.
Proof. induction s as [|x s IH]; cbn; [lia|]. destruct (f x); lia. Qed.

(** The effect of the loop on the text of modifiers [ms] in front of [rest]. *)
Definition effLoop (ms : list modifier) (rest : qstr) (m : mods) : mods :=
  fold_left (fun m x =>
    match x with
    | MSilent => Mods (md_line m) (md_max m) true (md_single m)
    | MEach => Mods (md_line m) (md_max m) (md_silent m) true
    | MTolerate [] => Mods (md_line m) uintMax (md_silent m) (md_single m)
    | MTolerate ds => Mods (md_line m) (toUInt ds) (md_silent m) (md_single m)
    end) ms (Mods rest (md_max m) (md_silent m) (md_single m)).

Lemma loop_stop fuel rest mx si sg :
  not (startsWithModifier rest) ->
  evalModsLoop (S fuel) (Mods rest mx si sg) = Some (Mods rest mx si sg).
Proof.
  intros H. destruct rest as [|c r]; [done|]. cbn.
  assert (c <> 45 /\ c <> 64 /\ c <> 33) as (H1 & H2 & H3).
  { repeat split; intros ->; apply H; eexists _, _; split; eauto; cbn; eauto. }
  destruct (N.eqb_spec c 45); [lia|]. destruct (N.eqb_spec c 64); [lia|].
  destruct (N.eqb_spec c 33); [lia|]. done.
Qed.

Lemma mods_eta m : m = Mods (md_line m) (md_max m) (md_silent m) (md_single m).
Proof. by destruct m. Qed.

(** One turn of the loop on a dash. *)
Lemma loop_dash_step fuel l mx si sg :
  evalModsLoop (S fuel) (Mods (45 :: l) mx si sg) =
  let l1 := skipn (countWhile (fun x => x =? 45) l) l in
  let i := countWhile isDigit l1 in
  if (0 <? i)%nat
  then evalModsLoop fuel (Mods (skipn i l1) (toUInt (firstn i l1)) si sg)
  else evalModsLoop fuel (Mods l1 uintMax si sg).
Proof. reflexivity. Qed.

Lemma startsDigit_false ms rest :
  not (startsWithDigit (modsText ms ++ rest)) ->
  forall c r', modsText ms ++ rest = c :: r' -> isDigit c = false.
Proof.
  intros H c r' E. destruct (isDigit c) eqn:D; [|done]. exfalso. apply H. exists c, r'. split; [done|].
  by apply isDigit_spec.
Qed.

Lemma loop_spec ms rest : writtenAs ms rest ->
  forall fuel mx si sg, (length (modsText ms ++ rest) < fuel)%nat ->
  evalModsLoop fuel (Mods (modsText ms ++ rest) mx si sg) = Some (effLoop ms rest (Mods [] mx si sg)).
Proof.
  induction ms as [|x ms IH]; intros Hw fuel mx si sg Hf.
  { cbn in *. destruct fuel as [|fuel]; [lia|]. by apply loop_stop. }
  destruct x as [| |ds].
  - cbn in Hw. change (modsText (MSilent :: ms) ++ rest) with (64 :: (modsText ms ++ rest)) in *.
    destruct fuel as [|fuel]; [cbn in Hf; lia|]. cbn. cbn in Hf. rewrite IH by (auto; lia). done.
  - cbn in Hw. change (modsText (MEach :: ms) ++ rest) with (33 :: (modsText ms ++ rest)) in *.
    destruct fuel as [|fuel]; [cbn in Hf; lia|]. cbn. cbn in Hf. rewrite IH by (auto; lia). done.
  - destruct Hw as (Hds & Hnd & Hw).
    assert (modsText (MTolerate ds :: ms) ++ rest = 45 :: (ds ++ (modsText ms ++ rest))) as E.
    { unfold modsText. cbn. by rewrite <- !app_assoc. }
    rewrite E in *. clear E.
    destruct fuel as [|fuel]; [cbn in Hf; lia|]. rewrite loop_dash_step. cbv zeta.
    cbn [length] in Hf. rewrite app_length in Hf.
    destruct ds as [|d ds].
    + change ([] ++ modsText ms ++ rest) with (modsText ms ++ rest).
      destruct (modsText ms ++ rest) as [|c r] eqn:E.
      { cbn. assert (ms = []) as ->. { destruct ms as [|[] ?]; done. }
        assert (rest = []) as -> by done. by destruct fuel. }
      destruct (N.eqb_spec c 45) as [->|Hne].
      * (* another dash follows *)
        cbn [countWhile]. rewrite N.eqb_refl.
        specialize (IH Hw (S fuel)). 
        transitivity (evalModsLoop (S fuel) (Mods (45 :: r) uintMax si sg)).
        { rewrite loop_dash_step. cbv zeta. cbn [skipn]. done. }
        rewrite IH by (cbn in *; lia). done.
      * cbn [countWhile]. destruct (N.eqb_spec c 45); [done|]. cbn [skipn].
        pose proof (startsDigit_false ms rest) as Hd. rewrite E in Hd. specialize (Hd Hnd).
        cbn [countWhile]. rewrite (Hd c r) by done. cbn [Nat.ltb Nat.leb].
        rewrite IH by (auto; cbn in *; lia). done.
    + change ((d :: ds) ++ modsText ms ++ rest) with (d :: (ds ++ modsText ms ++ rest)).
      inversion Hds as [|? ? Hd Hds']; subst.
      cbn [countWhile]. destruct (N.eqb_spec d 45) as [->|_]; [unfold isDecDigit in Hd; lia|].
      cbn [skipn].
      change (d :: ds ++ modsText ms ++ rest) with ((d :: ds) ++ (modsText ms ++ rest)).
      rewrite (countWhile_app isDigit (d :: ds) (modsText ms ++ rest)).
      2: { eapply Forall_impl; [exact Hds|]. intros ? ?. by apply isDigit_spec. }
      2: { by apply startsDigit_false. }
      replace (0 <? length (d :: ds))%nat with true by done.
      rewrite skipn_app, skipn_all, firstn_app, firstn_all, !Nat.sub_diag. cbn [skipn firstn app].
      rewrite app_nil_r. rewrite IH by (auto; cbn in *; lia). done.
Qed.

(** Every line is written in this form. *)
Lemma written_exists line : exists ms rest, line = modsText ms ++ rest /\ writtenAs ms rest.
Proof.
  remember (length line) as n eqn:Hn. revert line Hn.
  induction n as [n IH] using lt_wf_ind. intros line Hn.
  destruct line as [|c l].
  { exists [], []. split; [done|]. cbn. intros (c & s' & [=] & _). }
  destruct (decide (c = 64)) as [->|H1].
  { destruct (IH (length l) ltac:(cbn in *; lia) l eq_refl) as (ms & rest & -> & Hw).
    exists (MSilent :: ms), rest. done. }
  destruct (decide (c = 33)) as [->|H2].
  { destruct (IH (length l) ltac:(cbn in *; lia) l eq_refl) as (ms & rest & -> & Hw).
    exists (MEach :: ms), rest. done. }
  destruct (decide (c = 45)) as [->|H3].
  { set (i := countWhile isDigit l).
    destruct (IH (length (skipn i l)) ltac:(rewrite skipn_length; cbn in *; lia) (skipn i l) eq_refl)
      as (ms & rest & E & Hw).
    exists (MTolerate (firstn i l) :: ms), rest. split.
    - unfold modsText. cbn. fold (modsText ms). rewrite <- app_assoc. change (concat (map modText ms)) with (modsText ms).
      rewrite <- E. by rewrite firstn_skipn.
    - cbn. repeat split; [|rewrite <- E|done].
      + eapply Forall_impl; [apply countWhile_all|]. intros ? ?. by apply isDigit_spec.
      + intros (c & s' & E' & Hc). apply isDigit_spec in Hc.
        by rewrite (countWhile_stop isDigit l c s') in Hc. }
  exists [], (c :: l). split; [done|]. cbn. intros (c' & s' & [= -> ->] & [H | [H | H]]); done.
Qed.

Lemma effLoop_line ms rest m : md_line (effLoop ms rest m) = rest.
Proof.
  unfold effLoop. assert (forall ms m', md_line (fold_left
    (fun m x => match x with
    | MSilent => Mods (md_line m) (md_max m) true (md_single m)
    | MEach => Mods (md_line m) (md_max m) (md_silent m) true
    | MTolerate [] => Mods (md_line m) uintMax (md_silent m) (md_single m)
    | MTolerate ds => Mods (md_line m) (toUInt ds) (md_silent m) (md_single m)
    end) ms m') = md_line m') as ->; [|done].
  clear. induction ms as [|x ms IH]; intros m'; cbn; [done|]. rewrite IH. by destruct x as [| |[|]].
Qed.

Definition hasb (f : modifier -> bool) (ms : list modifier) : bool := existsb f ms.

Lemma effLoop_silent ms rest m :
  md_silent (effLoop ms rest m) = md_silent m || existsb (fun x => match x with MSilent => true | _ => false end) ms.
Proof.
  unfold effLoop. set (m0 := Mods rest _ _ _). change (md_silent m) with (md_silent m0). clearbody m0.
  revert m0. induction ms as [|x ms IH]; intros m0; cbn; [by rewrite orb_false_r|].
  rewrite IH. destruct x as [| |[|]]; cbn; by rewrite ?orb_true_r.
Qed.

Lemma effLoop_single ms rest m :
  md_single (effLoop ms rest m) = md_single m || existsb (fun x => match x with MEach => true | _ => false end) ms.
Proof.
  unfold effLoop. set (m0 := Mods rest _ _ _). change (md_single m) with (md_single m0). clearbody m0.
  revert m0. induction ms as [|x ms IH]; intros m0; cbn; [by rewrite orb_false_r|].
  rewrite IH. destruct x as [| |[|]]; cbn; by rewrite ?orb_true_r.
Qed.

Lemma effLoop_max ms rest m : numbersFit ms -> md_max (effLoop ms rest m) = tolerated ms (md_max m).
Proof.
  unfold effLoop. set (m0 := Mods rest _ _ _). change (md_max m) with (md_max m0). clearbody m0.
  revert m0. induction ms as [|x ms IH]; intros m0 Hf; cbn; [done|].
  inversion Hf as [|? ? Hx Hms]; subst.
  rewrite IH by done. destruct x as [| |[|d ds]]; cbn [tolerated md_max]; try done.
  f_equal. unfold toUInt, decVal. rewrite decVal_number.
  change (number 0 (d :: ds) <= anyExitCode) in Hx. cbv zeta.
  destruct (N.leb_spec (number 0 (d :: ds)) uintMax) as [|H]; [done|].
  exfalso. unfold anyExitCode in Hx. unfold uintMax in H. lia.
Qed.

Lemma evaluateModifiers_written ms rest c :
  writtenAs ms rest -> c_line c = modsText ms ++ rest ->
  evaluateModifiers c =
    let m := effLoop ms rest (Mods [] (c_max c) (c_silent c) (c_single c)) in
    Command (md_line m) (c_inline c) (md_max m) (md_silent m) (md_single m).
Proof.
  intros Hw E. unfold evaluateModifiers. rewrite E.
  rewrite (loop_spec ms rest Hw) by lia. done.
Qed.

Lemma evaluateModifiers_spec ms rest c :
  writtenAs ms rest -> c_line c = modsText ms ++ rest ->
  let c' := evaluateModifiers c in
  c_line c' = rest
  /\ c_inline c' = c_inline c
  /\ (c_silent c' = true <-> c_silent c = true \/ has MSilent ms)
  /\ (c_single c' = true <-> c_single c = true \/ has MEach ms)
  /\ (numbersFit ms -> c_max c' = tolerated ms (c_max c)).
Proof.
  intros Hw E. cbv zeta. rewrite (evaluateModifiers_written ms rest c Hw E). cbv zeta. cbn [c_line c_inline c_silent c_single c_max].
  rewrite effLoop_line, effLoop_silent, effLoop_single. cbn.
  split; [done|]. split; [done|]. split; [|split].
  - rewrite orb_true_iff, existsb_exists. unfold has. split.
    + intros [H|(x & Hx & Hm)]; [by left|right]. destruct x; try done. by apply elem_of_list_In.
    + intros [H|H]; [by left|right]. exists MSilent. split; [by apply elem_of_list_In|done].
  - rewrite orb_true_iff, existsb_exists. unfold has. split.
    + intros [H|(x & Hx & Hm)]; [by left|right]. destruct x; try done. by apply elem_of_list_In.
    + intros [H|H]; [by left|right]. exists MEach. split; [by apply elem_of_list_In|done].
  - intros Hf. by rewrite effLoop_max.
Qed.
