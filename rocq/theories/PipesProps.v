(** C63: the ends of the pipes between jom and the processes it starts. *)
From stdpp Require Import prelude gmap.
From Verif Require Import Pipes PipesSpec.
Local Open Scope N_scope.

Lemma tryNames_app k ts : Forall (fun t => is_Some (t_before t !! t_random t) /\ t_fails t = false) ts ->
  forall n ts', exists n', tryNames k n (ts ++ ts') = tryNames k n' ts'.
Proof.
  induction 1 as [|t ts [[x Hx] Hf] _ IH]; intros n ts'; [by exists n|]. cbn. unfold createNamedPipe. rewrite Hf, Hx. apply IH.
Qed.
Lemma last_split {A} (ts : list A) t : last ts = Some t -> ts = removelast ts ++ [t].
Proof.
  induction ts as [|x ts IH]; [done|]. destruct ts as [|y ts]; [by intros [= ->]|]. intros H. change (removelast (x :: y :: ts)) with (x :: removelast (y :: ts)).
  cbn [app]. f_equal. apply IH. exact H.
Qed.

(** If one of the names was not in use, then the end for writing belongs to the pipe of the end for reading, and no other program has
    either of them; otherwise the call fails. Missing: see C63_other_refuted. *)
Theorem C63_ends_partial k ts w2 r o : circumstances ts k w2 -> someFree ts -> setupPipe k ts w2 = Some (r, o) -> r = Some k /\ o = Own k.
Proof.
  intros (_ & _ & Hl & HF) (t0 & Ht0 & Hfree) H. destruct (last ts) as [t|] eqn:El; [|done]. apply last_split in El.
  assert (t0 = t) as ->.
  { rewrite El in Ht0. apply elem_of_app in Ht0 as [Ht0|Ht0]; [|by apply elem_of_list_singleton in Ht0].
    rewrite Forall_forall in HF. destruct (HF t0 Ht0) as [[x Hx] _]. congruence. }
  rewrite Hfree in Hl. unfold setupPipe in H. rewrite El in H. destruct (tryNames_app k _ HF 0 [t]) as [n' E]. rewrite E in H. cbn in H.
  unfold createNamedPipe in H. destruct (t_fails t); [done|]. rewrite Hfree in H.
  destruct (Hl (t_random t) k true) as (b' & Hw & _); [apply lookup_insert|]. unfold createFile in H. rewrite Hw in H.
  destruct b'; [|done]. by injection H as <- <-.
Qed.
Print Assumptions C63_ends_partial.
Definition exTs : list attempt := [Attempt 7 false {[7 := (Other 0, true)]}; Attempt 8 false {[7 := (Other 0, true)]}].
Example C63_case : circumstances exTs 3 {[7 := (Other 0, false); 8 := (Own 3, true)]} /\ someFree exTs /\
  setupPipe 3 exTs {[7 := (Other 0, false); 8 := (Own 3, true)]} = Some (Some 3%nat, Own 3).
Proof.
  split; [|split; [|done]].
  - split; [done|]. split; [cbn; lia|]. split.
    + change (meanwhile (<[8 := (Own 3, true)]> {[7 := (Other 0, true)]}) {[7 := (Other 0, false); 8 := (Own 3, true)]}).
      intros name k b. destruct (decide (name = 8)) as [->|]; [rewrite lookup_insert; intros [= <- <-]; by exists true|]. rewrite lookup_insert_ne by done.
      intros H. apply lookup_singleton_Some in H as [_ H]. done.
    + cbn. constructor; [|constructor]. split; [|done]. by eexists.
  - exists (Attempt 8 false {[7 := (Other 0, true)]}). split; [|done]. by right; left.
Qed.

(** When somebody else connects first the call fails; nothing is read from or written to them. *)
Theorem C63_taken_fails k ts w2 : circumstances ts k w2 -> someFree ts -> (forall name, w2 !! name <> Some (Own k, true)) -> setupPipe k ts w2 = None.
Proof.
  intros HC HS Hn. destruct (setupPipe k ts w2) as [[r o]|] eqn:E; [|done]. exfalso.
  destruct (C63_ends_partial k ts w2 r o HC HS E) as [-> ->]. unfold setupPipe in E.
  destruct (tryNames k 0 ts) as [name w|name|]; [| |done]; unfold createFile in E; destruct (w2 !! name) as [[o' []]|] eqn:Ew; try done.
  injection E as ->. by apply (Hn name).
Qed.
Print Assumptions C63_taken_fails.
Example C63_taken_case : circumstances exTs 3 {[8 := (Own 3, false)]} /\ someFree exTs /\ (forall name, ({[8 := (Own 3, false)]} : pworld) !! name <> Some (Own 3, true)).
Proof.
  split; [|split].
  - split; [done|]. split; [cbn; lia|]. split.
    + change (meanwhile (<[8 := (Own 3, true)]> {[7 := (Other 0, true)]}) {[8 := (Own 3, false)]}).
      intros name k b. destruct (decide (name = 8)) as [->|]; [rewrite lookup_insert; intros [= <- <-]; by exists false|]. rewrite lookup_insert_ne by done.
      intros H. apply lookup_singleton_Some in H as [_ H]. done.
    + cbn. constructor; [|constructor]. split; [|done]. by eexists.
  - exists (Attempt 8 false {[7 := (Other 0, true)]}). split; [|done]. by right; left.
  - intros name H. by apply lookup_singleton_Some in H as [_ H].
Qed.

(** After 1000 names that were in use jom goes on without an end of its own: the function succeeds, the end for reading is no handle, and
    the end for writing belongs to the pipe of another program. *)
Definition busyTs : list attempt := repeat (Attempt 7 false {[7 := (Other 5, true)]}) 1000.
Theorem C63_other_refuted : exists k ts w2 o, circumstances ts k w2 /\ setupPipe k ts w2 = Some (None, Other o).
Proof.
  exists 0%nat, busyTs, {[7 := (Other 5, true)]}, 5%nat. split; [|vm_compute; done]. split; [done|]. split; [vm_compute; lia|]. split.
  - assert (E : last busyTs = Some (Attempt 7 false {[7 := (Other 5, true)]})) by (vm_compute; done). rewrite E. cbn.
    split; [vm_compute; done|]. intros name k b H. eauto.
  - apply Forall_forall. intros t Ht.
    assert (HF : Forall (fun t => t = Attempt 7 false {[7 := (Other 5, true)]}) (removelast busyTs)).
    { assert (G : forall n, Forall (fun t => t = Attempt 7 false {[7 := (Other 5, true)]}) (removelast (repeat (Attempt 7 false {[7 := (Other 5, true)]}) n))).
      { induction n as [|n IH]; [constructor|]. destruct n as [|n]; [constructor|]. cbn [repeat removelast]. constructor; [done|exact IH]. }
      apply G. }
    rewrite Forall_forall in HF. rewrite (HF t Ht). cbn. split; [by eexists|done].
Qed.
Print Assumptions C63_other_refuted.
