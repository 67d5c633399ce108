(** C13: command modifiers. *)
From Coq Require Import Ascii String.
From stdpp Require Import prelude.
From Verif Require Import Base Data Cmd CmdSpec CmdProofs.
Local Open Scope N_scope.

(** Every command line can be read as modifiers followed by a command. *)
Theorem C13_every_line_readable line :
  exists ms rest, line = modsText ms ++ rest /\ writtenAs ms rest.
Proof. exact (written_exists line). Qed.
Print Assumptions C13_every_line_readable.

(** A line written as modifiers and a command is split exactly there, whatever the order and number of
    the modifiers, and they have their documented effect. *)
Theorem C13_modifiers ms rest c :
  writtenAs ms rest -> c_line c = modsText ms ++ rest ->
  let c' := evaluateModifiers c in
  c_line c' = rest
  /\ c_inline c' = c_inline c
  /\ (c_silent c' = true <-> c_silent c = true \/ has MSilent ms)
  /\ (c_single c' = true <-> c_single c = true \/ has MEach ms)
  /\ (numbersFit ms -> c_max c' = tolerated ms (c_max c)).
Proof. exact (evaluateModifiers_spec ms rest c). Qed.
Print Assumptions C13_modifiers.

Example C13_case :
  let ms := [MTolerate []; MSilent; MTolerate (s2q "12"); MEach] in
  let rest := s2q "7z x -y" in
  writtenAs ms rest /\ numbersFit ms /\ modsText ms ++ rest = s2q "-@-12!7z x -y"
  /\ evaluateModifiers (Command (s2q "-@-12!7z x -y") [] 0 false false) = Command rest [] 12 true true.
Proof.
  cbv zeta. split_and!.
  - cbn [writtenAs]. split_and!.
    + constructor.
    + intros (c & s' & [= <- _] & H). unfold isDecDigit in H. lia.
    + repeat (apply Forall_cons; split; [unfold isDecDigit; cbn; lia|]). constructor.
    + intros (c & s' & [= <- _] & H). unfold isDecDigit in H. lia.
    + intros (c & s' & [= <- _] & [H|[H|H]]); discriminate.
  - repeat (apply Forall_cons; split; [done|]). constructor.
  - reflexivity.
  - vm_compute. reflexivity.
Qed.

(** The claim about the number fails for numbers that do not fit into 32 bits: they count as 0. *)
Theorem C13_large_number_refuted :
  exists ms rest c, writtenAs ms rest /\ c_line c = modsText ms ++ rest
    /\ c_max (evaluateModifiers c) = 0 /\ tolerated ms (c_max c) = 4294967296.
Proof.
  exists [MTolerate (s2q "4294967296")], (s2q " a"), (Command (s2q "-4294967296 a") [] 0 false false).
  split_and!.
  - cbn [writtenAs]. split_and!.
    + repeat (apply Forall_cons; split; [unfold isDecDigit; cbn; lia|]). constructor.
    + intros (c & s' & [= <- _] & H). unfold isDecDigit in H. lia.
    + intros (c & s' & [= <- _] & [H|[H|H]]); discriminate.
  - reflexivity.
  - vm_compute. reflexivity.
  - vm_compute. reflexivity.
Qed.
Print Assumptions C13_large_number_refuted.
