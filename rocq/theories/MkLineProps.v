(** C27: rule lines. *)
From Coq Require Import Ascii String.
From stdpp Require Import prelude gmap.
From Verif Require Import Base Data Macro MkParse MkLineSpec MkLineProofs.
Local Open Scope N_scope.

(** What comes first counts: with a comment before any in-line command, the line ends there, and carets before
    # are taken away; with an in-line command first the line stays; with none of both the line stays. *)
Theorem C27_comment s i : firstAt (commentAt s) i -> (forall k, commandAt s k -> (i < k)%nat) ->
  exists r, unescaped (take i s) r /\ removeComments s = (r, None).
Proof.
  intros [Hi Hf] Hk. unfold removeComments. pose proof (findComment_pos s [] 0 false eq_refl eq_refl) as H1.
  pose proof (findSeparator_pos s [] false eq_refl) as H2. cbn [length app] in H1, H2.
  destruct (findComment 0 0 false s) as [r t] eqn:E. cbn [fst] in H1.
  destruct r as [k|]; [|by destruct (H1 i); [lia|]]. destruct H1 as (_ & H1 & H3).
  assert (k = i) as -> by (destruct (Nat.lt_trichotomy k i) as [|[|]]; [by destruct (Hf k)|done|by destruct (H3 i); [lia|]]).
  exists (removeAll t (take i s)). split; [by apply findComment_line|].
  destruct (findSeparator 0 false s) as [k|]; [|done]. destruct H2 as (_ & H2 & _). apply Hk in H2. apply Nat.ltb_lt in H2. by rewrite H2.
Qed.
Theorem C27_command s k : firstAt (commandAt s) k -> (forall i, commentAt s i -> (k < i)%nat) -> removeComments s = (s, Some k).
Proof.
  intros [Hk Hf] Hi. unfold removeComments. pose proof (findComment_pos s [] 0 false eq_refl eq_refl) as H1.
  pose proof (findSeparator_pos s [] false eq_refl) as H2. cbn [length app] in H1, H2.
  destruct (findComment 0 0 false s) as [r t] eqn:E. cbn [fst] in H1.
  destruct (findSeparator 0 false s) as [k'|]; [|by destruct (H2 k); [lia|]]. destruct H2 as (_ & H2 & H3).
  assert (k' = k) as -> by (destruct (Nat.lt_trichotomy k' k) as [|[|]]; [by destruct (Hf k')|done|by destruct (H3 k); [lia|]]).
  destruct r as [i|]; [|done]. destruct H1 as (_ & H1 & _). apply Hi in H1.
  destruct (Nat.ltb_spec i k); [lia|done].
Qed.
Theorem C27_neither s : (forall i, ~ commentAt s i) -> (forall k, ~ commandAt s k) -> removeComments s = (s, None).
Proof.
  intros Hi Hk. unfold removeComments. pose proof (findComment_pos s [] 0 false eq_refl eq_refl) as H1.
  pose proof (findSeparator_pos s [] false eq_refl) as H2. cbn [length app] in H1, H2.
  destruct (findComment 0 0 false s) as [[i|] t]; cbn [fst] in H1; [by destruct H1 as (_ & H1 & _); destruct (Hi i)|].
  destruct (findSeparator 0 false s) as [k|]; [|done]. by destruct H2 as (_ & H2 & _); destruct (Hk k).
Qed.
Definition lineEx : qstr := s2q "a^#b: " ++ [34] ++ s2q "x#y" ++ [34] ++ s2q " z # c ; d".
Lemma first_computed (P : nat -> Prop) (p : nat -> bool) n : (forall i, P i <-> p i = true) -> p n = true ->
  forallb (fun i => negb (p i)) (seq 0 n) = true -> firstAt P n.
Proof.
  intros H Hn Ha. split; [by apply H|]. intros j Hj Hp. apply H in Hp. rewrite forallb_forall in Ha.
  specialize (Ha j). rewrite Hp in Ha. feed specialize Ha; [by apply in_seq; lia|done].
Qed.
Definition commentB (s : list N) (i : nat) : bool :=
  bool_decide (s !! i = Some 35) && Nat.even (count (34 : N) (take i s)) && match i with S j => negb (bool_decide (s !! j = Some 94)) | O => true end.
Lemma commentB_ok s i : commentAt s i <-> commentB s i = true.
Proof.
  unfold commentAt, commentB, outside. change (chr "#") with 35. change (chr "^") with 94.
  rewrite !andb_true_iff, bool_decide_eq_true, (and_assoc (s !! i = Some 35)). apply and_iff_compat_l. destruct i as [|j].
  - split; [done|]. by intros _ j ?.
  - rewrite negb_true_iff, bool_decide_eq_false. split; [intros H; by apply H|]. by intros H j' [= <-].
Qed.
Definition commandB (s : list N) (i : nat) : bool := bool_decide (s !! i = Some 59) && Nat.even (count (34 : N) (take i s)).
Lemma commandB_ok s i : commandAt s i <-> commandB s i = true.
Proof. unfold commandAt, commandB, outside. by rewrite andb_true_iff, bool_decide_eq_true. Qed.
Example C27_comment_ex : firstAt (commentAt lineEx) 14 /\ (forall k, commandAt lineEx k -> (14 < k)%nat) /\
  removeComments lineEx = (s2q "a#b: " ++ [34] ++ s2q "x#y" ++ [34] ++ s2q " z ", None).
Proof.
  split_and!; [|  |by vm_compute].
  - apply (first_computed _ (commentB lineEx)); [apply commentB_ok|by vm_compute..].
  - intros k H. apply commandB_ok in H. destruct (decide (14 < k)%nat) as [|Hn]; [done|]. exfalso.
    assert (Ha : forallb (fun i => negb (commandB lineEx i)) (seq 0 15) = true) by (by vm_compute).
    rewrite forallb_forall in Ha. specialize (Ha k). rewrite H in Ha. feed specialize Ha; [apply in_seq; lia|done].
Qed.
Example C27_command_ex : removeComments (s2q "aa: " ++ [34] ++ s2q "x;y" ++ [34] ++ s2q " ; echo # d")
  = (s2q "aa: " ++ [34] ++ s2q "x;y" ++ [34] ++ s2q " ; echo # d", Some 10%nat).
Proof. by vm_compute. Qed.

(** The separator: the first colon outside of parentheses that does not belong to a drive letter; it is two
    colons if another one follows. A line that begins with a blank is not a rule. *)
Theorem C27_rule line pos len : findRule line = Some (pos, len) <->
  firstAt (colonAt line) pos /\ (forall c, head line = Some c -> ~ blank c) /\
  len = (if decide (line !! S pos = Some (chr ":")) then 2%nat else 1%nat).
Proof.
  unfold findRule. pose proof (findColon_pos line [] 0 eq_refl) as H. cbn [length app last] in H. change (last2 []) with (@None N) in H.
  destruct line as [|c line].
  { split; [done|]. by intros [((? & _) & _) _]. }
  destruct (isSpaceOrTab c) eqn:Eb.
  { split; [done|]. intros (_ & Hb & _). apply isBlank_spec in Eb. by destruct (Hb c). }
  assert (Hb : forall x, head (c :: line) = Some x -> ~ blank x).
  { intros x [= <-] Hb. apply isBlank_spec in Hb. congruence. }
  assert (El : forall p, (if bool_decide ((c :: line) !! S p = Some 58) then 2%nat else 1%nat) = (if decide ((c :: line) !! S p = Some (chr ":")) then 2%nat else 1%nat)).
  { intros p. change (chr ":") with 58. by destruct (decide _) as [E|E]; [rewrite bool_decide_eq_true_2|rewrite bool_decide_eq_false_2]. }
  destruct (findColon 0 0 None None (c :: line)) as [k|] eqn:E.
  - rewrite El. destruct H as (_ & H1 & H2). split.
    + intros [= <- <-]. split_and!; [|done|done]. split; [done|]. intros j Hj. apply H2. lia.
    + intros ([Hp Hf] & _ & ->). assert (k = pos) as -> by (destruct (Nat.lt_trichotomy k pos) as [|[|]]; [by destruct (Hf k)|done|by destruct (H2 pos); [lia|]]). done.
  - split; [done|]. intros ([Hp _] & _). by destruct (H pos); [lia|].
Qed.
Example C27_rule_ex : findRule (s2q "$(X:a=b) c:\d\e.obj:: f") = Some (19%nat, 2%nat).
Proof. by vm_compute. Qed.

(** The names: every text has exactly one list of names, and it is the one that is used. *)
Theorem C27_names s l : splitTargetNames s = l <-> namesIn s l.
Proof.
  split.
  - intros <-. destruct (split_names s false [] [] []) as (l & H1 & H2); [constructor|done|done|]. cbn [app] in H1, H2.
    assert (splitTargetNames s = l) as -> by exact H2. exact H1.
  - intros H. by apply (names_unique s l H [] []); constructor.
Qed.
Example C27_names_ex : splitTargetNames (s2q " a  " ++ [34] ++ s2q "b c" ++ [34] ++ s2q " d" ++ [9; 34; 34] ++ s2q " e")
  = [s2q "a"; s2q "b c"; s2q "d"; s2q "e"].
Proof. by vm_compute. Qed.

(** ** What is not as stated *)
(** An escaped # keeps its caret when no comment follows; with an in-line command, too. *)
Theorem C27_caret_refuted : exists s t, (forall i, ~ commentAt s i) /\ unescaped s t /\ t <> s /\ removeComments s = (s, None).
Proof.
  exists (s2q "aa: b^#c"), (s2q "aa: b#c"). split_and!; [| |done|by vm_compute].
  - intros i H. apply commentB_ok in H. destruct (decide (i < 9)%nat) as [Hi|Hi].
    + assert (Ha : forallb (fun i => negb (commentB (s2q "aa: b^#c") i)) (seq 0 9) = true) by (by vm_compute).
      rewrite forallb_forall in Ha. specialize (Ha i). rewrite H in Ha. feed specialize Ha; [apply in_seq; lia|done].
    + unfold commentB in H. rewrite lookup_ge_None_2 in H by (cbn; lia). by vm_compute in H.
  - cbn. do 5 (apply ue_char; [by intros [? ?]|]). apply ue_escape. apply ue_char; [by intros [? ?]|]. constructor.
Qed.
(** How a makefile is read with no macros and no files. *)
Definition parseEx (lines : list qstr) : pres (pst (list qstr)) :=
  parseFile listNext (fun _ => ∅) (fun _ _ => []) (fun _ => true) 99 99 (s2q "C:/x") false true lines.
(** Without a separator before the semicolon a colon of the command is taken for it. *)
Theorem C27_colon_of_command_refuted : exists line st, findRule (qleft 3 line) = None /\
  removeComments line = (line, Some 4%nat) /\ parseEx [line] = POk st /\
  map fst (map_to_list (mk_targets (s_mk st))) = [s2q ";echo"; s2q "foo"; s2q "xx"].
Proof.
  exists (s2q "foo ;echo xx:y").
  assert (E : match parseEx [s2q "foo ;echo xx:y"] with POk st => map fst (map_to_list (mk_targets (s_mk st))) = [s2q ";echo"; s2q "foo"; s2q "xx"] | _ => False end) by (by vm_compute).
  destruct (parseEx _) as [st| | |]; try done. exists st. split_and!; [by vm_compute..|done|done].
Qed.
(** A target with a name of one letter and the colon behind it: a syntax error. *)
Theorem C27_one_letter_refuted : parseEx [s2q "a: b"] = PErr ESyntax.
Proof. by vm_compute. Qed.
(** The comment on a line with a dot directive becomes part of the list. *)
Theorem C27_dot_comment_refuted : exists st, parseEx [s2q ".SUFFIXES: .x # y"] = POk st /\ s2q "#" ∈ s_suffixes st /\ s2q "y" ∈ s_suffixes st.
Proof.
  assert (E : match parseEx [s2q ".SUFFIXES: .x # y"] with POk st => bool_decide (s2q "#" ∈ s_suffixes st /\ s2q "y" ∈ s_suffixes st) = true | _ => False end) by (by vm_compute).
  destruct (parseEx _) as [st| | |]; try done. exists st. split; [done|]. by apply bool_decide_eq_true in E.
Qed.
(** Commands after an empty line: a syntax error. *)
Theorem C27_empty_line_refuted : parseEx [s2q "aa: b"; []; s2q " echo"] = PErr ESyntax.
Proof. by vm_compute. Qed.

Print Assumptions C27_comment.
Print Assumptions C27_command.
Print Assumptions C27_neither.
Print Assumptions C27_rule.
Print Assumptions C27_names.
Print Assumptions C27_caret_refuted.
Print Assumptions C27_colon_of_command_refuted.
Print Assumptions C27_one_letter_refuted.
Print Assumptions C27_dot_comment_refuted.
Print Assumptions C27_empty_line_refuted.
