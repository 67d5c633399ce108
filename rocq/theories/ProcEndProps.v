(** C48: the end of a process is noticed and its exit code decides about the command. *)
From stdpp Require Import prelude.
From Verif Require Import ProcEnd.
Local Open Scope Z_scope.

(** What is expected: a process that has ended with the exit code w is asked for it until it can be had. *)
Definition endsWith (w : Z) (answers : list (option Z)) : Prop :=
  Forall (fun a => a = None \/ a = Some w) answers /\ Some w ∈ answers.
(** Exit codes that stand for a crash: those of unhandled exceptions (at least 2^31), and 0xf291. *)
Definition crashCode (w : Z) : Prop := 2 ^ 31 <= w \/ w = 62097.

Lemma retrieve_found w answers : w <> STILL_ACTIVE -> endsWith w answers -> retrieve answers = Some w.
Proof.
  intros Hw [Hall Hin]. induction answers as [|a rest IH]; [by apply elem_of_nil in Hin|]. cbn.
  apply Forall_cons in Hall as [Ha Hall]. destruct Ha as [->| ->].
  - apply IH; [done|]. by apply elem_of_cons in Hin as [?|].
  - destruct (Z.eqb_spec w STILL_ACTIVE); [done|]. done.
Qed.
Lemma retrieve_still answers : Forall (fun a => a = None \/ a = Some STILL_ACTIVE) answers -> retrieve answers = None.
Proof. induction 1 as [|a rest [->| ->] _ IH]; [done|exact IH|exact IH]. Qed.

(** Partial: for every exit code but 259. *)
Theorem C48_noticed_partial w max answers :
  0 <= w < 2 ^ 32 -> 0 <= max -> w <> 259 -> endsWith w answers ->
  exists failed, commandEnd max answers = Some failed
    /\ (failed = true <-> (if decide (crashCode w) then max < 2 else max < w)).
Proof.
  intros Hw Hm Hne He. unfold commandEnd. rewrite (retrieve_found w answers Hne He). unfold finishedWith, failedWith, toInt, toUnsigned.
  eexists. split; [reflexivity|].
  destruct (Z.ltb_spec w (2 ^ 31)) as [Hlt|Hge].
  - destruct (Z.ltb_spec w 0); [lia|]. rewrite orb_false_r. destruct (Z.eqb_spec w 62097) as [->|Hn].
    + rewrite decide_True by (right; done). change (2 mod 2 ^ 32) with 2. apply Z.ltb_lt.
    + rewrite decide_False by (intros [?|?]; [lia|done]). rewrite Z.mod_small by lia. apply Z.ltb_lt.
  - rewrite decide_True by (left; done). destruct (Z.ltb_spec (w - 2 ^ 32) 0); [|lia]. rewrite orb_true_r.
    change (2 mod 2 ^ 32) with 2. apply Z.ltb_lt.
Qed.
Example C48_example :
  endsWith 3 [None; Some 3] /\ commandEnd 2 [None; Some 3] = Some true /\ commandEnd 3 [None; Some 3] = Some false
  /\ endsWith 3221225477 [Some 3221225477] /\ crashCode 3221225477 /\ commandEnd 2 [Some 3221225477] = Some false.
Proof.
  split; [split; [apply Forall_cons; split; [by left|apply Forall_cons; split; [by right|constructor]]|apply elem_of_cons; right; by apply elem_of_list_singleton]|]. split; [reflexivity|]. split; [reflexivity|].
  split; [split; [apply Forall_cons; split; [by right|constructor]|by apply elem_of_list_singleton]|]. split; [left; lia|reflexivity].
Qed.

(** The end of a process with the exit code 259 is never noticed, however often it is asked: jom waits for ever. *)
Theorem C48_still_active_refuted : exists w,
  0 <= w < 2 ^ 32 /\ forall max answers, endsWith w answers -> commandEnd max answers = None.
Proof.
  exists 259. split; [lia|]. intros max answers [Hall _]. unfold commandEnd. by rewrite (retrieve_still answers Hall).
Qed.
Print Assumptions C48_noticed_partial.
Print Assumptions C48_still_active_refuted.
