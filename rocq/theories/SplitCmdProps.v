(** C33: splitting command lines into arguments. *)
From Coq Require Import List NArith Arith Bool Lia Ascii String.
From Verif Require Import Base SplitCmd SplitCmdSpec SplitCmdProofs.
Import ListNotations.
Local Open Scope N_scope.

(** C33, reading: every line with balanced quotes is a sequence of words, and the arguments are the
    texts of these words - one argument for each word, in order, none lost, merged or split -
    provided no word is empty or has a quoted blank at one of its ends. *)
Theorem C33_words_partial s :
  balanced s ->
  (exists ws, sentence s ws) /\
  (forall ws, sentence s ws -> Forall (fun w => survives (value false w)) ws ->
     splitCommandLine s = map (value false) ws).
Proof.
  intros H. split; [now apply sentence_exists|]. intros ws Hs Hv.
  rewrite <- (argsOf_survives ws Hv). exact (split_sentence s ws Hs []).
Qed.

(** C33, writing: writing arguments - in quotes, inner quotes doubled - and splitting the line gives
    the arguments back, if they have no blank at their ends and do not consist of quotes only. *)
Theorem C33_write_read_partial l :
  Forall plainArg l -> splitCommandLine (writeArgs l) = l.
Proof.
  intros H. rewrite <- (argsOf_quote l H) at 2. exact (split_sentence _ _ (writeArgs_sentence l) []).
Qed.

(** C33, both: splitting any line, balanced or not, and writing the arguments gives a line with the
    same arguments, if none of them consists of quotes only. *)
Theorem C33_again_partial s :
  Forall (fun a => exists c, In c a /\ c <> 34) (splitCommandLine s) ->
  splitCommandLine (writeArgs (splitCommandLine s)) = splitCommandLine s.
Proof.
  intros H. apply C33_write_read_partial. pose proof (split_survives s) as Hs.
  rewrite Forall_forall in *. intros a Ha. split; [exact (proj2 (Hs a Ha))|exact (H a Ha)].
Qed.

(** Example: jom's own test line, with a quoted blank and doubled quotes; and writing it again. *)
Definition exLine : qstr := s2q "cl  /Fo""a b.obj"" ""say """"hi"""" to"" x".
Definition exWords : list qstr :=
  [s2q "cl"; s2q "/Fo""a b.obj"""; s2q """say """"hi"""" to"""; s2q "x"].
Example exLine_split :
  splitCommandLine exLine = [s2q "cl"; s2q "/Foa b.obj"; s2q "say ""hi"" to"; s2q "x"].
Proof. vm_compute. reflexivity. Qed.
Example exLine_balanced : balanced exLine.
Proof. exists 4%nat. reflexivity. Qed.

Fixpoint wordB (i : bool) (w : qstr) : bool :=
  match w with
  | [] => negb i
  | c :: w' => (negb (isSpace c) || i) && wordB (if c =? 34 then negb i else i) w'
  end.
Lemma wordB_ok w : forall i, wordB i w = true ->
  Nat.odd (quotes w) = i /\
  forall a c b, w = a ++ c :: b -> isSpace c = true -> xorb i (Nat.odd (quotes a)) = true.
Proof.
  induction w as [|c w IH]; intros i H; cbn in H.
  - destruct i; [discriminate|]. split; [reflexivity|]. intros [|? ?] ? ? E; discriminate.
  - apply andb_prop in H as [H1 H2]. destruct (IH _ H2) as [Ho Hs]. split.
    + rewrite quotes_cons, odd_add_b, Ho. destruct (c =? 34), i; reflexivity.
    + intros a d b E Hd. destruct a as [|a0 a]; cbn in E; injection E as -> ->.
      * rewrite Hd in H1. cbn in H1. now rewrite H1.
      * specialize (Hs a d b eq_refl Hd). rewrite quotes_cons, odd_add_b.
        destruct (a0 =? 34), i, (Nat.odd (quotes a)); cbn in *; congruence.
Qed.
Lemma word_by w : w <> [] -> wordB false w = true -> word w.
Proof.
  intros Hn H. destruct (wordB_ok w false H) as [H1 H2]. split; [exact Hn|]. split.
  - now apply balanced_odd.
  - intros a c b E Hc. apply Nat.odd_spec. rewrite <- (H2 a c b E Hc). now destruct (Nat.odd (quotes a)).
Qed.
Lemma survives_by a : negb (isEmpty a) && qeqb (trimmed a) a = true -> survives a.
Proof.
  intros H. apply andb_prop in H as [H1 H2]. split; [intros ->; discriminate|].
  apply trimmed_tight. revert H2. generalize (trimmed a). intros t. revert a H1.
  induction t as [|x t IH]; intros [|y a] _ H; try discriminate; [reflexivity|].
  cbn in H. apply andb_prop in H as [Hx Ht]. apply N.eqb_eq in Hx. subst. f_equal.
  destruct a; [now destruct t|]. now apply IH.
Qed.

Example exLine_sentence : sentence exLine exWords.
Proof.
  apply (sen_cons [] (s2q "cl") 32); [constructor|now apply word_by|reflexivity|].
  apply (sen_cons [32] (s2q "/Fo""a b.obj""") 32); [now repeat constructor|now apply word_by|reflexivity|].
  apply (sen_cons [] (s2q """say """"hi"""" to""") 32); [constructor|now apply word_by|reflexivity|].
  apply (sen_last [] (s2q "x")); [constructor|now apply word_by].
Qed.
Example exLine_survives : Forall (fun w => survives (value false w)) exWords.
Proof.
  constructor; [|constructor; [|constructor; [|constructor; [|constructor]]]];
    apply survives_by; vm_compute; reflexivity.
Qed.
Example exLine_use : splitCommandLine exLine = map (value false) exWords.
Proof. exact (proj2 (C33_words_partial exLine exLine_balanced) exWords exLine_sentence exLine_survives). Qed.

Definition exArgs : list qstr := [s2q "copy"; s2q "C:\Program Files\a"; s2q """x"" y"; s2q "b"""].
Example exArgs_plain : Forall plainArg exArgs.
Proof.
  assert (forall a, negb (isEmpty a) && qeqb (trimmed a) a && existsb (fun c => negb (c =? 34)) a = true -> plainArg a) as G.
  { intros a H. apply andb_prop in H as [H1 H2]. split; [exact (proj2 (survives_by a H1))|].
    apply existsb_exists in H2 as (c & Hc & Hn). exists c. split; [exact Hc|]. now apply N.eqb_neq, negb_true_iff. }
  constructor; [|constructor; [|constructor; [|constructor; [|constructor]]]]; apply G; vm_compute; reflexivity.
Qed.
Example exArgs_written :
  writeArgs exArgs = s2q """copy"" ""C:\Program Files\a"" """"""x"""" y"" ""b""""""" /\
  splitCommandLine (writeArgs exArgs) = exArgs.
Proof. split; [vm_compute; reflexivity|exact (C33_write_read_partial exArgs exArgs_plain)]. Qed.

(** C33 is false for all arguments: an argument that is empty, has a blank at its end or is a single
    quote does not come back. *)
Theorem C33_write_read_refuted :
  splitCommandLine (writeArgs [s2q "echo"; []; s2q "x"]) = [s2q "echo"; s2q """"; s2q "x"] /\
  splitCommandLine (writeArgs [s2q "echo"; s2q " a "]) = [s2q "echo"; s2q "a"] /\
  splitCommandLine (writeArgs [s2q "echo"; s2q """"]) = [s2q "echo"; s2q """"""] /\
  exists l, splitCommandLine (writeArgs l) <> l.
Proof.
  split; [vm_compute; reflexivity|]. split; [vm_compute; reflexivity|]. split; [vm_compute; reflexivity|].
  exists [[]]. vm_compute. discriminate.
Qed.

(** C33 is false for all balanced lines: a word made of a quoted blank is lost. *)
Theorem C33_words_refuted : exists s ws,
  balanced s /\ sentence s ws /\ List.length ws = 3%nat /\ splitCommandLine s = [s2q "a"; s2q "b"].
Proof.
  exists (s2q "a "" "" b"), [s2q "a"; s2q """ """; s2q "b"].
  split; [now exists 1%nat|]. split; [|split; vm_compute; reflexivity].
  apply (sen_cons [] (s2q "a") 32); [constructor|now apply word_by|reflexivity|].
  apply (sen_cons [] (s2q """ """) 32); [constructor|now apply word_by|reflexivity|].
  apply (sen_last [] (s2q "b")); [constructor|now apply word_by].
Qed.

(** Beyond C33 (quotes not balanced): the last argument disappears. *)
Example unbalanced_lost : splitCommandLine (s2q "a ""b c") = [s2q "a"].
Proof. vm_compute. reflexivity. Qed.

Print Assumptions C33_words_partial.
Print Assumptions C33_write_read_partial.
Print Assumptions C33_again_partial.
Print Assumptions C33_write_read_refuted.
Print Assumptions C33_words_refuted.
