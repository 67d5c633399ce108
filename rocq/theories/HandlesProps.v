(** C55: the handles of the processes jom starts. *)
From stdpp Require Import prelude gmap.
From Verif Require Import Handles TempSpec HandlesSpec HandlesProofs.

(** Whatever process objects do, no handle is closed twice, and none that was not made before. *)
Theorem C55_once es n s : hrun es (hstart n) = Some s ->
  forall k h, h_log s !! k = Some (HClose h) -> (exists b, earlier (h_log s) k (HOpen h b)) /\ (forall k', h_log s !! k' = Some (HClose h) -> k' = k).
Proof.
  intros H k h Hk. apply reached in H as [G _]. split; [by apply (g_before _ G)|]. intros k' Hk'. exact (g_once _ G _ _ _ Hk' Hk).
Qed.

(** The CreateProcess at a place of the history. *)
Definition createAt (l : list hev) (k : nat) : option (nat * list nat * list nat * bool) :=
  match l !! k with Some (HCreate i std inh ok) => Some (i, std, elements inh, ok) | _ => None end.
(** Two processes of two executors at the same time; the second one cannot be started directly; a process object is destroyed. *)
Definition exEvents : list hevent :=
  [EStart 0 (Answer true true); EStart 1 (Answer true false); EStart 1 (Answer true true); EFinished 0; EStart 0 (Answer true true); EFinished 1; EFinished 0; EDestroyed 0; EDestroyed 1].
Definition exState : hstate := match hrun exEvents (hstart 3) with Some s => s | None => hstart 0 end.
Lemma ran es s : match hrun es s with Some _ => true | None => false end = true -> hrun es s = Some (match hrun es s with Some s' => s' | None => hstart 0 end).
Proof. by destruct (hrun es s). Qed.
Example C55_once_ex : hrun exEvents (hstart 3) = Some exState /\ h_log exState !! 8 = Some (HOpen 10 false) /\ h_log exState !! 36 = Some (HClose 10) /\
  List.length (List.filter (fun e => match e with HClose _ => true | _ => false end) (h_log exState)) = 24 /\ size (h_open exState) = 6.
Proof. split; [apply ran; vm_compute; reflexivity|split_and!; vm_compute; reflexivity]. Qed.

(** When CreateProcess succeeds, the child gets its three standard handles and they have been made inheritable before; no other child, before or
    after, gets any of them (so the end of output of a process does not wait for another process), and jom closes its own. *)
Theorem C55_separate es n s k i std inh : hrun es (hstart n) = Some s -> h_log s !! k = Some (HCreate i std inh true) ->
  List.length std = 3 /\ forall h, h ∈ std -> h ∈ inh /\ earlier (h_log s) k (HOpen h true) /\ HClose h ∈ h_log s /\
    (forall k' i' std' inh' ok', k' <> k -> h_log s !! k' = Some (HCreate i' std' inh' ok') -> h ∉ inh').
Proof.
  intros H Hk. apply reached in H as [G E]. destruct (E _ _ _ _ _ Hk) as (_ & [E0 Ee] & E2). split; [exact E0|]. intros h Hh.
  destruct (E2 h Hh) as [Hi Hok]. destruct (Hok eq_refl) as [Ho Hx]. split_and!; [exact Hi|by apply Ee| |exact Hx].
  destruct (Ee h Hi) as (j & _ & Hj). apply elem_of_list_lookup_2 in Hj. destruct (g_acc _ G _ _ Hj) as [Hj'|Hj']; [by rewrite Ho in Hj'|exact Hj'].
Qed.
Example C55_separate_ex : hrun exEvents (hstart 3) = Some exState /\
  createAt (h_log exState) 6 = Some (0, [3; 6; 8], [3; 8; 6], true) /\
  createAt (h_log exState) 43 = Some (0, [25; 28; 30], [11; 25; 16; 28; 14; 30], true).
Proof. split; [apply ran; vm_compute; reflexivity|]. split; vm_compute; reflexivity. Qed.

(** A child gets no handle that was not made inheritable before: never jom's ends of pipes, nor handles of processes and threads. *)
Theorem C55_inheritable es n s k i std inh ok h : hrun es (hstart n) = Some s -> h_log s !! k = Some (HCreate i std inh ok) -> h ∈ inh ->
  earlier (h_log s) k (HOpen h true) /\ HOpen h false ∉ h_log s.
Proof.
  intros H Hk Hh. apply reached in H as [G E]. destruct (E _ _ _ _ _ Hk) as (_ & [_ Ee] & _). pose proof (Ee h Hh) as He. split; [exact He|].
  intros Hf. apply elem_of_list_lookup in Hf as [j Hj]. destruct He as (q & _ & Hq). pose proof (g_single _ G _ _ _ _ _ Hj Hq) as ->. by rewrite Hj in Hq.
Qed.
Example C55_inheritable_ex : hrun exEvents (hstart 3) = Some exState /\ h_log exState !! 1 = Some (HOpen 4 false) /\ h_log exState !! 7 = Some (HOpen 9 false) /\
  createAt (h_log exState) 19 = Some (1, [11; 14; 16], [11; 16; 14], false).
Proof. split; [apply ran; vm_compute; reflexivity|split_and!; vm_compute; reflexivity]. Qed.

(** When every process can be started at once, a child gets its three standard handles and no others. Missing: after a start that
    failed this is false (C55_inherited_refuted). *)
Theorem C55_exact_partial es n s k i std inh ok : noFailure es -> hrun es (hstart n) = Some s -> h_log s !! k = Some (HCreate i std inh ok) -> forall h, h ∈ inh <-> h ∈ std.
Proof. intros Hn H Hk. apply (reached_tidy _ _ _ Hn) in H as [_ T]. exact (t_created _ T _ _ _ _ _ Hk). Qed.

(** When every process can be started at once and none is running any more, every handle that was made is closed. Missing: after a
    start that failed this is false (C55_leak_refuted). *)
Theorem C55_closed_partial es n s : noFailure es -> hrun es (hstart n) = Some s -> h_running s = ∅ -> forall h b, HOpen h b ∈ h_log s -> HClose h ∈ h_log s.
Proof.
  intros Hn H Hr h b Hb. apply (reached_tidy _ _ _ Hn) in H as [G T]. destruct (g_acc _ G _ _ Hb) as [Ho|Hc]; [|exact Hc].
  destruct (t_open _ T _ _ Ho) as [[i x] Hk]. apply (t_slots _ T) in Hk as [Hk _]. rewrite Hr in Hk. by apply elem_of_empty in Hk.
Qed.
Definition exFine : list hevent := [EStart 0 (Answer true true); EStart 1 (Answer true true); EFinished 1; EStart 1 (Answer true true); EFinished 0; EFinished 1].
Definition exFineState : hstate := match hrun exFine (hstart 0) with Some s => s | None => hstart 0 end.
Example C55_closed_partial_ex : noFailure exFine /\ hrun exFine (hstart 0) = Some exFineState /\ h_running exFineState = ∅ /\ List.length (h_log exFineState) = 51 /\
  createAt (h_log exFineState) 19 = Some (1, [8; 11; 13], [11; 13; 8], true).
Proof.
  split; [|split; [apply ran; vm_compute; reflexivity|split; [|split; vm_compute; reflexivity]]].
  - intros i a H. unfold exFine in H. rewrite !elem_of_cons, elem_of_nil in H. destruct H as [H|[H|[H|[H|[H|[H|[]]]]]]]; congruence.
  - assert (E : elements (h_running exFineState) = []) by (vm_compute; reflexivity). apply leibniz_equiv, elements_empty_inv. by rewrite E.
Qed.

(** Every command that cannot be started directly, but by the shell, leaves six handles open: the pipes of the first start are
    overwritten by those of the second one. After [m] of them 6 * m handles are made and not closed, although no process is running. *)
Theorem C55_leak_refuted m n : exists s hs, hrun (rounds m 0) (hstart n) = Some s /\ h_running s = ∅ /\
  NoDup hs /\ List.length hs = 6 * m /\ forall h, h ∈ hs -> neverClosed (h_log s) h.
Proof.
  destruct (rounds_leak m 0 (hstart n) (good_start n)) as (s & H & G & Hi & S); [apply not_elem_of_empty|].
  exists s, (elements (dom (h_open s))). split_and!; [exact H| |apply NoDup_elements| |].
  - exact (rounds_running m (hstart n) s eq_refl H).
  - change (size (dom (h_open s)) = 6 * m). rewrite size_dom, S. cbn [h_open hstart]. rewrite map_size_empty. lia.
  - intros h Hh. apply elem_of_elements, elem_of_dom in Hh. by apply (open_is _ _ G).
Qed.
(** And the next child gets the ends of the lost pipes too. *)
Theorem C55_inherited_refuted : exists es s k i std inh h, hrun es (hstart 0) = Some s /\ h_log s !! k = Some (HCreate i std inh true) /\ h ∈ inh /\ h ∉ std.
Proof.
  set (es := [EStart 0 (Answer true false); EStart 0 (Answer true true)]).
  assert (H : exists s, hrun es (hstart 0) = Some s /\ createAt (h_log s) 13 = Some (0, [6; 9; 11], [0; 3; 11; 5; 9; 6], true)) by (eexists; split; [apply ran; vm_compute; reflexivity|vm_compute; reflexivity]).
  destruct H as (s & H & Hc). unfold createAt in Hc. destruct (h_log s !! 13) as [[| |i std inh ok]|] eqn:E; try done. injection Hc as -> -> Hi ->.
  exists es, s, 13, 0, [6; 9; 11], inh, 3. split; [exact H|]. split; [exact E|]. split.
  - apply elem_of_elements. rewrite Hi. apply elem_of_list_lookup. by exists 1.
  - rewrite !elem_of_cons, elem_of_nil. lia.
Qed.

Print Assumptions C55_once.
Print Assumptions C55_separate.
Print Assumptions C55_inheritable.
Print Assumptions C55_exact_partial.
Print Assumptions C55_closed_partial.
Print Assumptions C55_leak_refuted.
Print Assumptions C55_inherited_refuted.
