(** Property C21: lines, continuation, comments. (How continued lines are put together: PreprocProps.v.) *)
From Coq Require Import Ascii String.
From stdpp Require Import prelude.
From Verif Require Import Base LineReader LineReaderSpec LineReaderProofs.
Local Open Scope N_scope.

(** C21: every text has exactly one sequence of physical lines; nothing is lost or read twice, since a text is
    put together from its lines. *)
Theorem C21_physical : forall text, (exists ls, phys text ls) /\ forall ls ls', phys text ls -> phys text ls' -> ls = ls'.
Proof. intros text. split; [apply phys_total|apply phys_det]. Qed.

(** C21: for texts without carriage returns, whatever the size of the buffer and its growth, exactly the
    lines of the text that are no comments are delivered, each with its kind of line end. *)
Theorem C21_lines : forall grow size text ls out, (1 <= grow)%nat -> (3 <= size)%nat -> 13 ∉ text -> phys text ls ->
  readsAll8 grow size text out <-> delivered ls out.
Proof.
  intros grow size text ls out Hg Hs H13 Hp. destruct (read8_all grow size text ls Hg Hs H13 Hp) as (o & H1 & H2). split; intros H.
  - by rewrite (readsAll8_det _ _ _ _ _ H H1).
  - by rewrite (delivered_det _ _ _ H H2).
Qed.

(** C21: the same for texts with carriage returns before the line feeds, if the lines fit into the buffer. *)
Theorem C21_crlf : forall grow size text ls out, (3 <= size)%nat -> physCR text ls ->
  Forall (fun l => length l + 4 <= size)%nat ls -> readsAll8 grow size text out <-> delivered ls out.
Proof.
  intros grow size text ls out Hs Hp HF. destruct (read8_crlf grow size text ls Hs Hp HF) as (o & H1 & H2). split; intros H.
  - by rewrite (readsAll8_det _ _ _ _ _ H H1).
  - by rewrite (delivered_det _ _ _ H H2).
Qed.

(** C21: Unicode files give the same lines, without these conditions. *)
Theorem C21_unicode : forall size text ls out, physCR text ls -> readsAll (Reader true size text) out <-> delivered ls out.
Proof.
  intros size text ls out Hp. destruct (readU_all size text ls Hp) as (o & H1 & H2). split; intros H.
  - by rewrite (readsAll_det _ _ _ H H1).
  - by rewrite (delivered_det _ _ _ H H2).
Qed.

(** C21: nothing is ever written outside of the line buffer. *)
Theorem C21_buffer : forall grow fuel size text, (1 <= grow)%nat -> (3 <= size)%nat -> readLine8 grow fuel size text <> RCrash.
Proof. intros. by apply read8_safe. Qed.

(** C21 is false for a line whose carriage return is the last byte that fits into the buffer: the carriage
    return is then taken for part of the line, and a backslash in front of it does not join. With a
    buffer twice as large the line is joined. *)
Definition manyA : list N := repeat 97 (N.to_nat 6140).
Definition C21_long : list N := manyA ++ [92; 13; 10; 98; 10].
Lemma physCR_case (p : list N) : 10 ∉ p -> physCR (p ++ [92; 13; 10; 98; 10]) [p ++ [92]; [98]].
Proof.
  intros H. replace (p ++ [92; 13; 10; 98; 10]) with ((p ++ [92]) ++ 13 :: 10 :: [98; 10]) by (by rewrite <- app_assoc).
  apply pc_cr; [rewrite elem_of_app, elem_of_list_singleton; naive_solver|].
  apply (pc_line [98] [] []); [apply (bool_decide_unpack _); done|done|constructor].
Qed.
Lemma repeat_no (x y : N) n : x <> y -> x ∉ repeat y n.
Proof. intros Hn H. by apply elem_of_list_In, repeat_spec in H. Qed.
Theorem C21_crlf_refuted :
  physCR C21_long [manyA ++ [92]; [98]]
  /\ (exists size rest, readLine8 bufferGrowSize 9 initialBufferSize C21_long
        = RLine (MLine (Some (manyA ++ [92; 13])) CNone) size rest)
  /\ (exists size rest, readLine8 bufferGrowSize 9 (2 * initialBufferSize) C21_long
        = RLine (MLine (Some manyA) CBackslash) size rest).
Proof.
  split; [exact (physCR_case manyA (repeat_no 10 97 _ ltac:(lia)))|]. split.
  - exists (N.to_nat 7168), [98; 10]. vm_compute. reflexivity.
  - exists (N.to_nat 12288), [98; 10]. vm_compute. reflexivity.
Qed.

(** A comment between two parts of a continued line, a caret, a kept backslash, and no line feed at the end. *)
Definition C21_text : list N :=
  s2q "a = b \" ++ [10] ++ s2q "# no \" ++ [10] ++ s2q "c^" ++ [10] ++ s2q "d^\" ++ [10] ++ s2q "e\\" ++ [10; 10] ++ s2q "f".
Definition C21_out : list mline :=
  [MLine (Some (s2q "a = b ")) CBackslash; MLine (Some (s2q "c")) CCaret; MLine (Some (s2q "d\")) CNone;
   MLine (Some (s2q "e\\")) CNone; MLine (Some []) CNone; MLine (Some (s2q "f")) CNone].
Definition C21_physlines : list (list N) :=
  [s2q "a = b \"; s2q "# no \"; s2q "c^"; s2q "d^\"; s2q "e\\"; []; s2q "f"].
Example C21_case : 13 ∉ C21_text /\ phys C21_text C21_physlines /\ physCR C21_text C21_physlines
  /\ delivered C21_physlines C21_out /\ readsAll8 1 5 C21_text C21_out /\ readsAll (Reader true 0 C21_text) C21_out.
Proof.
  assert (13 ∉ C21_text) as H1 by (apply (bool_decide_unpack _); vm_compute; done).
  assert (phys C21_text C21_physlines) as H2.
  { unfold C21_text, C21_physlines. repeat (apply ph_line; [apply (bool_decide_unpack _); vm_compute; done|]). cbn [app].
    apply (ph_line [] (s2q "f")); [apply not_elem_of_nil|]. apply ph_last; [done|apply (bool_decide_unpack _); vm_compute; done]. }
  assert (physCR C21_text C21_physlines) as H3.
  { unfold C21_text, C21_physlines. repeat (apply pc_line; [apply (bool_decide_unpack _); vm_compute; done|vm_compute; done|]). cbn [app].
    apply (pc_line [] (s2q "f")); [apply not_elem_of_nil|done|]. apply pc_last; [done|apply (bool_decide_unpack _); vm_compute; done]. }
  assert (delivered C21_physlines C21_out) as H4.
  { unfold C21_physlines, C21_out.
    apply de_line; [by vm_compute|by apply (en_backslash (s2q "a = b "))|].
    apply de_comment; [by vm_compute|].
    apply de_line; [by vm_compute|by apply (en_caret (s2q "c"))|].
    apply de_line; [by vm_compute|by apply (en_caret_backslash (s2q "d"))|].
    apply de_line; [by vm_compute|by apply (en_two (s2q "e"))|].
    apply de_line; [by vm_compute|by apply (en_plain [])|].
    apply de_line; [by vm_compute|by apply (en_plain (s2q "f"))|]. apply de_nil. }
  split_and!; [done|done|done|done| |].
  - by apply (C21_lines 1 5 C21_text _ C21_out ltac:(lia) ltac:(lia) H1 H2).
  - by apply (C21_unicode 0 C21_text _ C21_out H3).
Qed.

Print Assumptions C21_physical.
Print Assumptions C21_lines.
Print Assumptions C21_crlf.
Print Assumptions C21_unicode.
Print Assumptions C21_buffer.
Print Assumptions C21_crlf_refuted.
