(** C34 and C47: the output of commands. *)
From stdpp Require Import prelude.
From Verif Require Import Output OutputSpec OutputProofs OutputEx.
Local Open Scope N_scope.

(** C34, first part. Whatever has come to jom for a channel of an executor (read from its pipe or written by jom) is printed
    exactly once and in order; the rest is in the buffer, in order, and nothing is left when the executors have been
    destroyed. The bytes read are those the children wrote, except for those dropped with a pipe.
    Partial: bytes that are still in the pipe when the end of the process is noticed are dropped (see
    [C34_unread_output_refuted]). *)
Theorem C34_complete_in_order_partial n ls s e c :
  run n (start n) ls s ->
  handed e c ls = printed e c ls ++ c_buffers (chanOf c (procs s e))
  /\ (over s -> (e < n)%nat -> printed e c ls = handed e c ls)
  /\ written e c ls = taken e c ls ++ c_pipe (chanOf c (procs s e))
  /\ (nothingDropped ls -> written e c ls = read e c ls ++ c_pipe (chanOf c (procs s e))).
Proof.
  intros H. split_and!.
  - exact (run_items n ls s e c H).
  - intros Ho He. rewrite (run_items n ls s e c H), (run_over n ls s e c H Ho He). by rewrite (right_id_L [] (++)).
  - exact (run_pipe n ls s e c H).
  - intros Hd. rewrite <-(taken_read e c ls Hd). exact (run_pipe n ls s e c H).
Qed.

(** C34, second part: the output of an executor, both channels together, is printed in the order of the times at which it
    came. *)
Theorem C34_time_order_partial n ls s e : run n (start n) ls s -> ordered (printTimes e ls).
Proof. intros H. destruct (run_times n ls s e H) as [H1 _]. exact H1. Qed.

(** C34, third part: what one call of printBufferedOutput prints is all of one executor, and nothing comes in between but
    direct output of other executors; so the outputs of two buffered executors are not mixed. *)
Theorem C34_not_mixed_partial n ls s k e e' l1 l2 l3 c d t c' d' t' :
  run n (start n) ls s ->
  ls = l1 ++ LPrint e c d t (Flushed k) :: l2 ++ LPrint e' c' d' t' (Flushed k) :: l3 ->
  e' = e /\ Forall (mayComeBetween k e) l2.
Proof.
  intros H E. destruct (run_printings n ls s H) as [H1 _]. eapply (H1 k e e' l1 l2 l3); [exact E|by repeat eexists|by repeat eexists].
Qed.

(** And all that a process writes (and jom reads) while the output of its executor is buffered is printed after its end, in one
    such call, preceded only by what was in the buffer when it started. *)
Theorem C34_one_piece_partial n l1 s1 e s2 l2 s3 l s4 l3 s5 :
  run n (start n) l1 s1 -> p_buffered (procs s1 e) = true -> step n s1 [LProcStart e] s2 ->
  run n s2 l2 s3 -> (forall b, LMode e b ∉ l2) -> LProcEnd e ∉ l2 ->
  step n s3 (LProcEnd e :: l) s4 -> run n s4 l3 s5 -> code s5 = [] ->
  (forall c, printed e c l2 = [])
  /\ exists k, forall c, flushed k e c l3 = c_buffers (chanOf c (procs s1 e)) ++ handed e c l2.
Proof.
  intros H1 H2 H3 H4 H5 H6 H7 H8 H9. destruct (command_output n l1 s1 e s2 l2 s3 l s4 l3 s5) as [Ha Hb]; try done.
  split; [exact Ha|]. exists (flushes s4). exact Hb.
Qed.

(** C34, fourth part, for at most two executors. Partial: with three or more it is false ([C34_two_direct_refuted]). *)
Theorem C34_one_direct_writer_partial n ls s e e' :
  (n <= 2)%nat -> run n (start n) ls s -> directWriter s e -> directWriter s e' -> e = e'.
Proof. intros Hn H [_ H1] [_ H2]. eapply oneOk_unique; [by eapply oneOk_run|done|done]. Qed.

(** C47: while commands are running, one of them writes directly. *)
Theorem C47_some_direct_writer n ls s e :
  (1 <= n)%nat -> run n (start n) ls s -> quitting s = false -> code s = [] -> p_active (procs s e) = true ->
  exists e', directWriter s e'.
Proof.
  intros Hn H Hq Hc Ha. destruct (someFront_run n ls s Hn H Hq) as (i&Hi&Hf). exists i. unfold finally in Hf. rewrite Hc in Hf.
  split; [|exact Hf]. destruct Hi as [?|[Hi _]]; [done|]. by rewrite Hi in Ha.
Qed.

(** Two executors; the second one is buffered and writes to both channels; then the first one ends. *)
Definition twoActs : list act :=
  [ATake; AOwn 0 Stdout [1]; AProcStart 0; ATake; ATime 3; AOwn 1 Stdout [2]; AProcStart 1;
   ATime 5; AWrite 1 Stderr [3; 4]; AWrite 0 Stdout [5]; ARead 1 Stderr 2; ARead 0 Stdout 1; ATime 7; AWrite 1 Stdout [6];
   ARead 1 Stdout 1; AWrite 1 Stderr [7]; ARead 1 Stderr 1; AWrite 0 Stdout [8];
   AProcEnd 1; ACode; ACode; ARead 0 Stdout 1; ACode; ACode; ACode].
Definition twoActs2 : list act :=
  twoActs ++ [AProcStart 1; AWrite 1 Stdout [9]; ARead 1 Stdout 1; AProcEnd 0; ACode; AGive 0; ACode; ACode; ACode; ACode; ACode; ACode;
    AWrite 1 Stdout [10]; ARead 1 Stdout 1; AProcEnd 1; ACode; AGive 1; ACode; ACode; ACode; ACode; ACode;
    AQuit; ACode; ACode; ACode; ACode].
Example C34_example :
  run 2 (start 2) (labelsOf 2 twoActs (start 2)) (endOf 2 twoActs (start 2))
  /\ omap (fun l => match l with LPrint e c d t h => Some (e, c, d, t, h) | _ => None end) (labelsOf 2 twoActs (start 2))
     = [(0%nat, Stdout, [1], 0, Direct); (0%nat, Stdout, [5], 5, Direct); (1%nat, Stdout, [2], 3, Flushed 0); (1%nat, Stderr, [3; 4], 5, Flushed 0);
        (0%nat, Stdout, [8], 7, Direct); (1%nat, Stdout, [6], 7, Flushed 0); (1%nat, Stderr, [7], 7, Flushed 0)]
  /\ directWriter (endOf 2 twoActs (start 2)) 0 /\ code (endOf 2 twoActs (start 2)) = []
  /\ run 2 (start 2) (labelsOf 2 twoActs2 (start 2)) (endOf 2 twoActs2 (start 2))
  /\ over (endOf 2 twoActs2 (start 2)) /\ nothingDropped (labelsOf 2 twoActs2 (start 2)).
Proof.
  split; [apply run_of; vm_compute; reflexivity|]. split; [vm_compute; reflexivity|].
  split; [split; vm_compute; reflexivity|]. split; [vm_compute; reflexivity|].
  split; [apply run_of; vm_compute; reflexivity|]. split; [split; vm_compute; reflexivity|].
  assert (forallb (fun l => match l with LDrop _ [] [] => true | LDrop _ _ _ => false | _ => true end) (labelsOf 2 twoActs2 (start 2)) = true) as H by (by vm_compute).
  intros e o r Hin. rewrite forallb_forall in H. specialize (H _ (proj1 (elem_of_list_In _ _) Hin)). by destruct o, r.
Qed.
(** The hypotheses of [C34_one_piece_partial] are met by executor 1 in the same execution. *)
Definition pre1 : list act := [ATake; AOwn 0 Stdout [1]; AProcStart 0; ATake; ATime 3; AOwn 1 Stdout [2]].
Definition mid1 : list act :=
  [ATime 5; AWrite 1 Stderr [3; 4]; AWrite 0 Stdout [5]; ARead 1 Stderr 2; ARead 0 Stdout 1; ATime 7; AWrite 1 Stdout [6]; ARead 1 Stdout 1].
Definition post1 : list act := [ACode; ACode; ACode; ACode].
Example C34_one_piece_example :
  let s1 := endOf 2 pre1 (start 2) in let s2 := endOf 2 [AProcStart 1] s1 in let s3 := endOf 2 mid1 s2 in
  let s4 := endOf 2 [AProcEnd 1] s3 in let s5 := endOf 2 post1 s4 in
  run 2 (start 2) (labelsOf 2 pre1 (start 2)) s1 /\ p_buffered (procs s1 1%nat) = true /\ step 2 s1 [LProcStart 1] s2
  /\ run 2 s2 (labelsOf 2 mid1 s2) s3 /\ step 2 s3 [LProcEnd 1; LDrop 1 [] []] s4 /\ run 2 s4 (labelsOf 2 post1 s4) s5 /\ code s5 = []
  /\ forallb (fun l => match l with LMode 1 _ | LProcEnd 1 => false | _ => true end) (labelsOf 2 mid1 s2) = true
  /\ flushed 0 1 Stdout (labelsOf 2 post1 s4) = [mkItem 3 [2]; mkItem 7 [6]]
  /\ flushed 0 1 Stderr (labelsOf 2 post1 s4) = [mkItem 5 [3; 4]].
Proof.
  intros s1 s2 s3 s4 s5.
  split; [apply run_of; vm_compute; reflexivity|]. split; [vm_compute; reflexivity|].
  split; [apply step_of; vm_compute; reflexivity|].
  split; [apply run_of; vm_compute; reflexivity|].
  split; [apply step_of; vm_compute; reflexivity|].
  split; [apply run_of; vm_compute; reflexivity|].
  split; [vm_compute; reflexivity|]. split; [vm_compute; reflexivity|]. split; vm_compute; reflexivity.
Qed.

(** C34 is false for three executors: when the one that writes directly has finished, all others that are running begin to
    write directly (targetexecutor.cpp:246-251 has no break), and their outputs are mixed. *)
Definition threeActs : list act :=
  [ATake; AProcStart 0; ATake; AProcStart 1; ATake; AProcStart 2; AProcEnd 0; ACode; AGive 0;
   ACode; ACode; ACode; ACode; ACode; ACode; ACode; ACode;
   AWrite 1 Stdout [1]; AWrite 2 Stdout [2]; ARead 1 Stdout 1; ARead 2 Stdout 1; AWrite 1 Stdout [3]; ARead 1 Stdout 1].
Theorem C34_two_direct_refuted : exists n ls s pre post,
  run n (start n) ls s /\ directWriter s 1 /\ directWriter s 2 /\ p_running (procs s 1%nat) = true /\ p_running (procs s 2%nat) = true
  /\ ls = pre ++ [LPrint 1 Stdout [1] 0 Direct] ++ [LRead 2 Stdout [2] 0; LPrint 2 Stdout [2] 0 Direct] ++
          [LWrite 1 Stdout [3]; LRead 1 Stdout [3] 0; LPrint 1 Stdout [3] 0 Direct] ++ post.
Proof.
  exists 3%nat, (labelsOf 3 threeActs (start 3)), (endOf 3 threeActs (start 3)), (take 15 (labelsOf 3 threeActs (start 3))), [].
  split; [apply run_of; vm_compute; reflexivity|]. split; [split; vm_compute; reflexivity|]. split; [split; vm_compute; reflexivity|].
  split; [vm_compute; reflexivity|]. split; vm_compute; reflexivity.
Qed.

(** C34 is false for output that jom has not read when it notices the end of the process (jomprocess.cpp:429-432: the
    observers are unregistered and the pipes closed): it is lost. *)
Definition lostActs : list act :=
  [ATake; AProcStart 0; AWrite 0 Stdout [1; 2]; AProcEnd 0; ACode; AGive 0; ACode; ACode; ACode; ACode; ACode; AQuit; ACode; ACode].
Theorem C34_unread_output_refuted : exists n ls s,
  run n (start n) ls s /\ over s /\ written 0 Stdout ls = [1; 2] /\ printed 0 Stdout ls = [].
Proof.
  exists 1%nat, (labelsOf 1 lostActs (start 1)), (endOf 1 lostActs (start 1)).
  split; [apply run_of; vm_compute; reflexivity|]. split; [split; vm_compute; reflexivity|]. split; vm_compute; reflexivity.
Qed.

(** C34 is false for the message about a failed command (commandexecutor.cpp:105-117): it is put into the buffer after the output
    of the command has been printed, and comes out only with the next output of the executor or at the end; here after the
    output of another buffered command. *)
Definition errorActs : list act :=
  [ATake; AProcStart 0; ATake; AProcStart 1; ATake; AProcStart 2; AWrite 1 Stdout [1]; ARead 1 Stdout 1; AWrite 2 Stdout [2]; ARead 2 Stdout 1;
   AProcEnd 1; ACode; ACode; AOwn 1 Stderr [69]; AGive 1; AProcEnd 2; ACode; ACode; AGive 2; AProcEnd 0; ACode; AGive 0;
   ACode; ACode; ACode; ACode; ACode; ACode; AQuit; ACode; ACode; ACode; ACode; ACode].
Theorem C34_error_message_refuted : exists n ls s,
  run n (start n) ls s
  /\ omap (fun l => match l with
                    | LPrint e c d t h => Some (e, d)
                    | LGive e => Some (e, [])
                    | _ => None
                    end) ls
     = [(1%nat, [1]); (1%nat, []); (2%nat, [2]); (2%nat, []); (0%nat, []); (1%nat, [69])].
Proof.
  exists 3%nat, (labelsOf 3 errorActs (start 3)), (endOf 3 errorActs (start 3)).
  split; [apply run_of; vm_compute; reflexivity|]. vm_compute; reflexivity.
Qed.

Print Assumptions C34_complete_in_order_partial.
Print Assumptions C34_time_order_partial.
Print Assumptions C34_not_mixed_partial.
Print Assumptions C34_one_piece_partial.
Print Assumptions C34_one_direct_writer_partial.
Print Assumptions C47_some_direct_writer.
Print Assumptions C34_two_direct_refuted.
Print Assumptions C34_unread_output_refuted.
Print Assumptions C34_error_message_refuted.
