(** Properties C43, C44: the lexer of preprocessor expressions. *)
From Coq Require Import Ascii String.
From stdpp Require Import prelude.
From Verif Require Import Base PPExpr PPExprSpec PPExprProofs PPLex PPLexSpec PPLexProofs.
Local Open Scope N_scope.

(** C43: the automaton of ppexpr-lex.inc splits every text as the rules of ppexpr.l say: each time the longest
    piece that a rule matches, by the first such rule. *)
Theorem C43_rules : forall c text k n, Forall byte text ->
  matchLoop (yyStart c) 0 None text = Some (k, n) <-> (n <= length text)%nat /\ nextPiece c text k (firstn n text) (skipn n text).
Proof.
  intros c text k n Hb. rewrite match_start by done. split.
  - intros E. split; [|by apply nextPiece_longest]. pose proof (longest_spec (rules c) text) as H. rewrite E in H. apply H.
  - intros [Hn HP]. assert (text <> []) as Ht. { destruct HP as (E & Hw & _). by destruct text; [rewrite firstn_nil in Hw|]. }
    destruct (longest_total c text Ht) as (k' & n' & E). rewrite E. destruct (nextPiece_longest _ _ _ _ E) as [_ HP'].
    destruct (nextPiece_det _ _ _ _ _ _ _ _ HP HP') as (-> & Hf & _). do 2 f_equal.
    pose proof (longest_spec (rules c) text) as H. rewrite E in H. destruct H as (Hn' & _).
    apply (f_equal length) in Hf. rewrite !firstn_length in Hf. lia.
Qed.
Theorem C43_tokens : forall env st text ts st' cmds, Forall byte text ->
  lexText env st text = Some (ts, st', cmds) <-> splits env st text ts st' cmds.
Proof. intros. by apply lexText_splits. Qed.
(** C43: every text can be split, without a byte left over. *)
Theorem C43_total : forall env st text, Forall byte text -> exists ts st' cmds, lexText env st text = Some (ts, st', cmds).
Proof.
  intros env st text Hb. destruct (lexAll_splits env (length text) st text ltac:(done) Hb) as (ts & st' & cmds & E & _).
  by exists ts, st', cmds.
Qed.

Definition exEnv : lexenv := Lexenv (fun n => qeqb n (s2q "QT")) (fun f => qeqb f (s2q "a") || qeqb f (s2q "b")) (fun _ => 3%Z).
(** The longest match wins ("<<" over "<"), then the first rule (28 over 41); "defin" is nothing but ignored letters. *)
Example C43_case : Forall byte (s2q "<<5 exist<defin")
  /\ matchLoop (yyStart Initial) 0 None (s2q "<<5 exist<defin") = Some (14%Z, 2%nat)
  /\ matchLoop (yyStart Initial) 0 None (s2q "exist<defin") = Some (28%Z, 5%nat)
  /\ matchLoop (yyStart Initial) 0 None (s2q "defin") = Some (41%Z, 1%nat)
  /\ nextPiece Initial (s2q "<<5 exist<defin") 14 (s2q "<<") (s2q "5 exist<defin").
Proof.
  assert (Forall byte (s2q "<<5 exist<defin")) as H. { cbn. repeat (constructor; [split; done|]). constructor. }
  split_and!; [done|vm_compute; reflexivity..|].
  refine (proj2 (proj1 (C43_rules Initial (s2q "<<5 exist<defin") 14 2 H) _)). vm_compute. reflexivity.
Qed.

(** C44: tokens that are written with blanks between them are read back, and the commands in brackets are run in
    their order. *)
Theorem C44_read_back : forall env text ts cmds st, Forall byte text -> written env text ts cmds -> lx_cond st = Initial ->
  exists st', lexText env st text = Some (ts, st', cmds) /\ lx_cond st' = Initial.
Proof.
  intros env text ts cmds st Hb Hw Hst. destruct (written_splits env text ts cmds st Hw Hst) as (st' & HS & E).
  exists st'. split; [|done]. by apply lexText_splits.
Qed.
(** C44: so a written expression has the value of its tree. *)
Theorem C44_value : forall env text ts cmds st e, Forall byte text -> written env text ts cmds -> lx_cond st = Initial -> sentence ts e ->
  exists st', parseText env st text = Some (result (eval e), st', cmds) /\ lx_cond st' = Initial.
Proof.
  intros env text ts cmds st e Hb Hw Hst He. destruct (C44_read_back env text ts cmds st Hb Hw Hst) as (st' & E & E').
  exists st'. split; [|done]. unfold parseText. rewrite E. by rewrite (parse_complete ts e He).
Qed.

(** defined(QT) && "a""b" == "a""b" + a command *)
Definition C44_text : list N := s2q " dEfined(QT) && 12 <= 2147483647" ++ [9] ++ s2q "|| ""a""""b"" != """" || [echo ^[1^]] >= 3 ".
Definition C44_tokens : list token :=
  [NUMBER 1; BOOL_AND; NUMBER 12; EQUAL_OR_LESS_THAN; NUMBER 2147483647; BOOL_OR; STRING (s2q "a""b"); NOT_EQUAL; STRING [];
   BOOL_OR; NUMBER 3; EQUAL_OR_GREATER_THAN; NUMBER 3].
Example C44_case : Forall byte C44_text /\ written exEnv C44_text C44_tokens [s2q "echo [1]"]
  /\ (exists st', lexText exEnv lexInit C44_text = Some (C44_tokens, st', [s2q "echo [1]"]))
  /\ (exists st', parseText exEnv lexInit C44_text = Some (PValue 1, st', [s2q "echo [1]"])).
Proof.
  assert (Forall byte C44_text) as H1.
  { apply Forall_forall. intros c Hc. assert (forallb (fun c => (0 <? c) && (c <? 256)) C44_text = true) as HF by (vm_compute; reflexivity).
    rewrite forallb_forall in HF. specialize (HF c ltac:(by apply elem_of_list_In)). apply andb_true_iff in HF as [A B].
    split; [by apply N.ltb_lt|by apply N.ltb_lt]. }
  assert (forall c, c ∈ digits -> decimal [c] (Z.of_N c - 48)) as HD by (intros; by constructor).
  assert (forall w z, decimal w z -> forall c, c ∈ digits -> decimal (w ++ [c]) (10 * z + (Z.of_N c - 48))) as HD2 by (intros; by constructor).
  assert (forall c, containsChar c digits = true -> c ∈ digits) as HC by (intros c; apply contains_spec).
  split_and!; [done| |eexists; vm_compute; reflexivity|eexists; vm_compute; reflexivity].
  unfold C44_text, C44_tokens. change [s2q "echo [1]"] with ([] ++ [] ++ [] ++ [] ++ [] ++ [] ++ [] ++ [] ++ [] ++ [] ++ [s2q "echo [1]"] ++ [] ++ [] ++ @nil qstr).
  assert (forall b w t cs rest ts cmds, Forall blank b -> spelled exEnv w t cs ->
    match rest with c :: _ => blank c | [] => True end -> written exEnv rest ts cmds -> forall x, x = b ++ w ++ rest ->
    written exEnv x (t :: ts) (cs ++ cmds)) as W by (intros; subst; by constructor).
  assert (blank 32) as B32 by (by left). assert (blank 9) as B9 by (by right).
  eapply (W [32] (s2q "dEfined(QT)") _ _ (s2q " && 12 <= 2147483647" ++ [9] ++ s2q "|| ""a""""b"" != """" || [echo ^[1^]] >= 3 ")); [by repeat constructor| |done| |vm_compute; reflexivity].
  { apply (sl_defined exEnv (s2q "dEfined") (s2q "QT")); [|done|]; cbn; repeat (constructor; [first [by left|by right|split_and!; try done; intros [|]; [done|lia]]|]); constructor. }
  eapply (W [32] (s2q "&&") _ _ (s2q " 12 <= 2147483647" ++ [9] ++ s2q "|| ""a""""b"" != """" || [echo ^[1^]] >= 3 ")); [by repeat constructor| |done| |vm_compute; reflexivity].
  { apply sl_operator. apply elem_of_list_In. cbn. tauto. }
  eapply (W [32] (s2q "12") _ _ (s2q " <= 2147483647" ++ [9] ++ s2q "|| ""a""""b"" != """" || [echo ^[1^]] >= 3 ")); [by repeat constructor| |done| |vm_compute; reflexivity].
  { apply sl_number; [|done]. apply (HD2 [49] 1%Z); [apply (HD 49)|]; by apply HC. }
  eapply (W [32] (s2q "<=") _ _ (s2q " 2147483647" ++ [9] ++ s2q "|| ""a""""b"" != """" || [echo ^[1^]] >= 3 ")); [by repeat constructor| |done| |vm_compute; reflexivity].
  { apply sl_operator. apply elem_of_list_In. cbn. tauto. }
  eapply (W [32] (s2q "2147483647") _ _ ([9] ++ s2q "|| ""a""""b"" != """" || [echo ^[1^]] >= 3 ")); [by repeat constructor| |done| |vm_compute; reflexivity].
  { apply sl_number; [|done].
    apply (HD2 (s2q "214748364") 214748364%Z); [|by apply HC]. apply (HD2 (s2q "21474836") 21474836%Z); [|by apply HC].
    apply (HD2 (s2q "2147483") 2147483%Z); [|by apply HC]. apply (HD2 (s2q "214748") 214748%Z); [|by apply HC].
    apply (HD2 (s2q "21474") 21474%Z); [|by apply HC]. apply (HD2 (s2q "2147") 2147%Z); [|by apply HC].
    apply (HD2 (s2q "214") 214%Z); [|by apply HC]. apply (HD2 (s2q "21") 21%Z); [|by apply HC].
    apply (HD2 (s2q "2") 2%Z); [|by apply HC]. apply (HD 50). by apply HC. }
  eapply (W [9] (s2q "||") _ _ (s2q " ""a""""b"" != """" || [echo ^[1^]] >= 3 ")); [by repeat constructor| |done| |vm_compute; reflexivity].
  { apply sl_operator. apply elem_of_list_In. cbn. tauto. }
  eapply (W [32] (s2q """a""""b""") _ _ (s2q " != """" || [echo ^[1^]] >= 3 ")); [by repeat constructor| |done| |vm_compute; reflexivity].
  { apply (sl_string exEnv (s2q "a""b")). apply (bool_decide_unpack _). vm_compute. done. }
  eapply (W [32] (s2q "!=") _ _ (s2q " """" || [echo ^[1^]] >= 3 ")); [by repeat constructor| |done| |vm_compute; reflexivity].
  { apply sl_operator. apply elem_of_list_In. cbn. tauto. }
  eapply (W [32] (s2q """""") _ _ (s2q " || [echo ^[1^]] >= 3 ")); [by repeat constructor| |done| |vm_compute; reflexivity].
  { apply (sl_string exEnv []). apply not_elem_of_nil. }
  eapply (W [32] (s2q "||") _ _ (s2q " [echo ^[1^]] >= 3 ")); [by repeat constructor| |done| |vm_compute; reflexivity].
  { apply sl_operator. apply elem_of_list_In. cbn. tauto. }
  eapply (W [32] (s2q "[echo ^[1^]]") _ _ (s2q " >= 3 ")); [by repeat constructor| |done| |vm_compute; reflexivity].
  { apply (sl_shell exEnv (s2q "echo [1]")); apply (bool_decide_unpack _); vm_compute; done. }
  eapply (W [32] (s2q ">=") _ _ (s2q " 3 ")); [by repeat constructor| |done| |vm_compute; reflexivity].
  { apply sl_operator. apply elem_of_list_In. cbn. tauto. }
  eapply (W [32] (s2q "3") _ _ (s2q " ")); [by repeat constructor| |done| |vm_compute; reflexivity].
  { apply sl_number; [|done]. apply (HD 51). by apply HC. }
  apply wr_end. by repeat constructor.
Qed.

(** C44 is false for tests of files: two of them on a line are taken for one with a strange name. Both files exist,
    the conjunction is 0. *)
Theorem C44_exist_refuted : exists st',
  le_exists exEnv (s2q "a") = true /\ le_exists exEnv (s2q "b") = true
  /\ parseText exEnv lexInit (s2q "EXIST(a)") = Some (PValue 1, lexInit, [])
  /\ parseText exEnv lexInit (s2q "EXIST(a) && EXIST(b)") = Some (PValue 0, st', []).
Proof. exists lexInit. split_and!; vm_compute; reflexivity. Qed.
(** C44 is false for texts with other things in them: unknown characters and an unfinished string are accepted, and
    the latter spoils the next expression. *)
Theorem C44_garbage_refuted : exists st',
  parseText exEnv lexInit (s2q "foo 1 @") = Some (PValue 1, lexInit, [])
  /\ parseText exEnv lexInit (s2q "1 ""oops") = Some (PValue 1, st', [])
  /\ parseText exEnv lexInit (s2q "1") = Some (PValue 1, lexInit, [])
  /\ option_map (fun x => fst (fst x)) (parseText exEnv st' (s2q "1")) = Some PSyntax.
Proof. exists (Lexst InString (s2q "oops")). split_and!; vm_compute; reflexivity. Qed.

Print Assumptions C43_rules.
Print Assumptions C43_tokens.
Print Assumptions C43_total.
Print Assumptions C44_read_back.
Print Assumptions C44_value.
Print Assumptions C44_exist_refuted.
Print Assumptions C44_garbage_refuted.
