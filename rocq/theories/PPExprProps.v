(** Properties C22 and C23: preprocessor expressions. *)
From stdpp Require Import prelude.
From Verif Require Import Base PPExpr PPExprSpec PPExprProofs.
Local Open Scope Z_scope.

(** C22: the accepted sequences of tokens are those of the grammar, and the value is that of the tree. *)
Theorem C22_accepts : forall w z, parse w = PValue z <-> exists e, sentence w e /\ eval e = ANum z.
Proof.
  intros w z. split.
  - intros H. pose proof (parse_sound_all w) as S. rewrite H in S. exact S.
  - intros (e & H & He). rewrite (parse_complete w e H), He. done.
Qed.

(** C22: for a sentence the result is that of the tree, whichever tree one takes. *)
Theorem C22_result : forall w e, sentence w e -> parse w = result (eval e).
Proof. exact parse_complete. Qed.

(** C22: anything else is refused. If a part that was already read is an expression whose evaluation fails,
    that failure comes first. *)
Theorem C22_rejects : forall w, (forall e, ~ sentence w e) ->
  parse w = PSyntax \/ (parse w = PDivZero /\ faulty ADivZero w) \/ (parse w = PUndefined /\ faulty AUndefined w).
Proof.
  intros w H. pose proof (parse_sound_all w) as S. pose proof (parse_terminates w) as T.
  destruct (parse w) as [z| | | |]; cbn [sound] in S; try tauto. destruct S as (e & He & _). by destruct (H e).
Qed.
(** C22: and a syntax error is reported for nothing but non-sentences. *)
Theorem C22_syntax_error : forall w, parse w = PSyntax -> forall e, ~ sentence w e.
Proof. intros w H e He. rewrite (parse_complete w e He) in H. by destruct (eval e). Qed.

(** C22: it ends. *)
Theorem C22_terminates : forall w, parse w <> PFuel.
Proof. exact parse_terminates. Qed.

(** 1 + 2 * 3 == 7 && !(2 < 1): the grouping is that of the levels. *)
Definition C22_tokens : list token :=
  [NUMBER 1; PLUS; NUMBER 2; MULT; NUMBER 3; EQUAL; NUMBER 7; BOOL_AND; BOOL_NOT; LEFT_PAREN; NUMBER 2; LESS_THAN; NUMBER 1; RIGHT_PAREN].
Definition C22_tree : expr :=
  EBin BOOL_AND (EBin EQUAL (EBin PLUS (ENum 1) (EBin MULT (ENum 2) (ENum 3))) (ENum 7))
    (EUn BOOL_NOT (EBin LESS_THAN (ENum 2) (ENum 1))).
Lemma der_le k j w e : (k <= j)%nat -> (j <= 7)%nat -> der j w e -> der k w e.
Proof. induction 1; [done|]. intros Hj H0. apply IHle; [lia|]. apply d_up; [lia|done]. Qed.
Example C22_case :
  sentence C22_tokens C22_tree /\ eval C22_tree = ANum 1 /\ parse C22_tokens = PValue 1
  /\ (* && and || group from the left *)
     parse [NUMBER 1; BOOL_OR; NUMBER 1; BOOL_AND; NUMBER 0] = PValue 0
  /\ (* so do - and / *)
     parse [NUMBER 10; MINUS; NUMBER 3; MINUS; NUMBER 2] = PValue 5
  /\ parse [NUMBER 1; NUMBER 2] = PSyntax /\ parse [] = PSyntax
  /\ parse [STRING []; EQUAL; STRING []] = PValue 1 /\ parse [STRING []; LESS_THAN; STRING []] = PSyntax.
Proof.
  assert (sentence C22_tokens C22_tree) as H.
  { unfold sentence, C22_tokens, C22_tree.
    apply (d_bin 0 BOOL_AND [NUMBER 1; PLUS; NUMBER 2; MULT; NUMBER 3; EQUAL; NUMBER 7]
             [BOOL_NOT; LEFT_PAREN; NUMBER 2; LESS_THAN; NUMBER 1; RIGHT_PAREN]); [done| |].
    - apply (der_le _ 2); [lia|lia|]. apply (d_bin 2 EQUAL [NUMBER 1; PLUS; NUMBER 2; MULT; NUMBER 3] [NUMBER 7]); [done| |].
      + apply (der_le _ 4); [lia|lia|]. apply (d_bin 4 PLUS [NUMBER 1] [NUMBER 2; MULT; NUMBER 3]); [done| |].
        * apply (der_le _ 7); [lia|lia|constructor].
        * apply (d_bin 5 MULT [NUMBER 2] [NUMBER 3]); [done| |]; (apply (der_le _ 7); [lia|lia|constructor]).
      + apply (der_le _ 7); [lia|lia|constructor].
    - apply (der_le _ 6); [lia|lia|]. apply d_un; [unfold unary; tauto|].
      apply (d_paren [NUMBER 2; LESS_THAN; NUMBER 1]). apply (der_le _ 2); [lia|lia|].
      apply (d_bin 2 LESS_THAN [NUMBER 2] [NUMBER 1]); [done| |]; (apply (der_le _ 7); [lia|lia|constructor]). }
  split_and!; [exact H|vm_compute; done|vm_compute; done|vm_compute; done|vm_compute; done|vm_compute; done|vm_compute; done|vm_compute; done|vm_compute; done].
Qed.
Example C22_case_rejects : (forall e, ~ sentence [NUMBER 1; DIV; NUMBER 0; RIGHT_PAREN] e)
  /\ parse [NUMBER 1; DIV; NUMBER 0; RIGHT_PAREN] = PDivZero
  /\ (forall e, ~ sentence [NUMBER 1; PLUS; RIGHT_PAREN] e) /\ parse [NUMBER 1; PLUS; RIGHT_PAREN] = PSyntax.
Proof.
  assert (forall w e k, der k w e -> (count_occ Z.eq_dec (map code w) 22%Z = count_occ Z.eq_dec (map code w) 23%Z)%nat) as B.
  { intros w e k. induction 1; try done.
    - change (map code (LEFT_PAREN :: w ++ [RIGHT_PAREN])) with (22 :: map code (w ++ [RIGHT_PAREN])).
      rewrite map_app, count_occ_cons_eq, count_occ_cons_neq by done. rewrite !count_occ_app. cbn -[count_occ].
      rewrite (count_occ_cons_neq _ _ (x:=23) (y:=22)), (count_occ_cons_eq _ _ (x:=23) (y:=23)) by done. cbn [count_occ]. lia.
    - destruct H as [-> | [-> | ->]]; cbn [map code]; rewrite !count_occ_cons_neq by done; done.
    - rewrite map_app, !count_occ_app. cbn [map].
      assert (code op <> 22 /\ code op <> 23) as [A1 A2] by (destruct op; cbn in *; done).
      rewrite !count_occ_cons_neq by done. lia. }
  split_and!; [intros e H; apply B in H; vm_compute in H; done|vm_compute; done|intros e H; apply B in H; vm_compute in H; done|vm_compute; done].
Qed.

(** C23 does not hold: the remainder by zero, the most negative number divided by -1, shifts by more than the
    width and sums out of range are not reported; they are undefined in C++. *)
Theorem C23_refuted :
  parse [NUMBER 1; MOD; NUMBER 0] = PUndefined
  /\ parse [LEFT_PAREN; MINUS; NUMBER 2147483647; MINUS; NUMBER 1; RIGHT_PAREN; DIV; LEFT_PAREN; MINUS; NUMBER 1; RIGHT_PAREN] = PUndefined
  /\ parse [NUMBER 1; SHIFT_LEFT; NUMBER 32] = PUndefined
  /\ parse [NUMBER 2147483647; PLUS; NUMBER 1] = PUndefined
  /\ exists w e, sentence w e /\ parse w = PUndefined.
Proof.
  split_and!; [vm_compute; done|vm_compute; done|vm_compute; done|vm_compute; done|].
  exists [NUMBER 1; MOD; NUMBER 0], (EBin MOD (ENum 1) (ENum 0)). split; [|vm_compute; done].
  apply (der_le _ 5); [lia|lia|]. apply (d_bin 5 MOD [NUMBER 1] [NUMBER 0]); [done| |]; (apply (der_le _ 7); [lia|lia|constructor]).
Qed.

(** C23, what does hold: the behaviour is undefined only if some part of the text is an expression for which
    one of these operations is undefined. Missing: that these are reported. *)
Theorem C23_partial : forall w,
  (forall a u b k e, w = a ++ u ++ b -> der k u e -> eval e <> AUndefined) ->
  parse w = PSyntax \/ parse w = PDivZero \/ exists z, parse w = PValue z.
Proof.
  intros w H. pose proof (parse_sound_all w) as S. pose proof (parse_terminates w) as T.
  destruct (parse w) as [z| | | |]; cbn [sound] in S; try tauto; [by right; right; exists z|].
  destruct S as (a & u & b & k & e & E & Hd & He). by destruct (H a u b k e E Hd).
Qed.

(** C23: division by zero is reported, wherever in the expression it occurs first. *)
Theorem C23_division : forall w e, sentence w e -> eval e = ADivZero -> parse w = PDivZero.
Proof. intros w e H He. by rewrite (parse_complete w e H), He. Qed.

(** C23: comparisons and logic alone are always evaluated. *)
Definition harmless (t : token) : Prop :=
  match t with SHIFT_LEFT | SHIFT_RIGHT | PLUS | MINUS | MULT | DIV | MOD => False | _ => True end.
Lemma harmless_value k w e : der k w e -> Forall harmless w -> exists z, eval e = ANum z.
Proof.
  induction 1 as [z|w e H IH|op w e Hop H IH|k op w1 w2 e1 e2 Hop H1 IH1 H2 IH2|a b|a b|k w e Hk H IH]; intros HF.
  - by exists z.
  - apply Forall_cons_1 in HF as [_ HF]. apply Forall_app in HF as [HF _]. auto.
  - apply Forall_cons_1 in HF as [Ho HF]. destruct (IH HF) as [z Hz]. cbn [eval]. rewrite Hz. cbn [abind].
    destruct op; try done; cbn [unop]; unfold truth; eauto; unfold unary in Hop; intuition congruence.
  - apply Forall_app in HF as [HF1 HF2]. apply Forall_cons_1 in HF2 as [Ho HF2].
    destruct (IH1 HF1) as [z1 Hz1]. destruct (IH2 HF2) as [z2 Hz2]. cbn [eval]. rewrite Hz1, Hz2. cbn [abind].
    destruct op; try done; cbn [binop]; unfold truth; eauto.
  - cbn [eval]. unfold truth. eauto.
  - cbn [eval]. unfold truth. eauto.
  - auto.
Qed.
Theorem C23_harmless : forall w, Forall harmless w -> parse w = PSyntax \/ exists z, parse w = PValue z.
Proof.
  intros w H. pose proof (parse_sound_all w) as S. pose proof (parse_terminates w) as T.
  destruct (parse w) as [z| | | |]; cbn [sound] in S; try tauto; [by right; exists z| |];
  destruct S as (a & u & b & k & e & -> & Hd & He); apply Forall_app in H as [_ H]; apply Forall_app in H as [H _];
  destruct (harmless_value _ _ _ Hd H); congruence.
Qed.
Example C23_case : Forall harmless [NUMBER 3; GREATER_THAN; NUMBER 2; BIT_OR; NUMBER 4]
  /\ parse [NUMBER 3; GREATER_THAN; NUMBER 2; BIT_OR; NUMBER 4] = PValue 5
  /\ parse [NUMBER 5; PLUS; NUMBER 1; DIV; LEFT_PAREN; NUMBER 2; MINUS; NUMBER 2; RIGHT_PAREN] = PDivZero
  /\ sentence [NUMBER 1; DIV; NUMBER 0] (EBin DIV (ENum 1) (ENum 0)) /\ eval (EBin DIV (ENum 1) (ENum 0)) = ADivZero.
Proof.
  split_and!; [repeat constructor|vm_compute; done|vm_compute; done| |vm_compute; done].
  apply (der_le _ 5); [lia|lia|]. apply (d_bin 5 DIV [NUMBER 1] [NUMBER 0]); [done| |]; (apply (der_le _ 7); [lia|lia|constructor]).
Qed.

Print Assumptions C22_accepts.
Print Assumptions C22_result.
Print Assumptions C22_rejects.
Print Assumptions C22_syntax_error.
Print Assumptions C22_terminates.
Print Assumptions C23_refuted.
Print Assumptions C23_partial.
Print Assumptions C23_division.
Print Assumptions C23_harmless.
