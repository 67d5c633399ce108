(** The build driver keeps the scheduler invariants. *)
From Coq Require Import Relations.
From stdpp Require Import prelude gmap.
From RecordUpdate Require Import RecordUpdate.
From Verif Require Import Base Data Infer UpToDate Graph Exec ExecSpec GraphProofs BuildProofs PruneProofs SchedInv TraceInv.

Local Arguments cmdsRunning : simpl never.
Local Arguments passes : simpl never.
Local Arguments markParents : simpl never.
Local Arguments removeLeaf : simpl never.
Local Arguments findNextTarget : simpl never.

Definition jt (js : list job) : list tid := map j_target js.

Section Inv.
Context (xp : qstr -> option qstr) (prep : mkfile -> tid -> nat -> option (list command))
        (kind : command -> ckind) (w : world) (o : bopts) (roots : list (option tid)).
Context (Hjobs : 0 < o_jobs o) (LF : Prop).

(** *** Finished and unfinished passes *)
Definition passGood (p : pass) : Prop := PP w o (p_root p) (p_mk p) (p_log p).
Definition passDone (p : pass) : Prop :=
  acyclicFrom (p_mk p) (p_root p) -> forall x, neededFor (p_mk p) (p_root p) x -> dealtWith (p_log p) x.
Definition passTr (js : list tid) (p : pass) : Prop :=
  TI kind (fun t st => t ∈ js /\ forall f, st <> Finished f) (p_log p)
  /\ (forall t, t ∈ js -> not (dealtWith (p_log p) t)).
Definition passClean (p : pass) : Prop := o_keep o = false -> forall t, not (failed (p_log p) t).
Definition passFresh (p : pass) : Prop :=
  forall t b, mk_targets (p_mk p) !! t = Some b -> b_exists b = false /\ b_time b = 0%N.
Definition prevOk (pre : list logev) : Prop :=
  forall p, p ∈ passes pre -> passGood p /\ (passDone p /\ passClean p) /\ passTr [] p.
Definition tailFresh (log : list logev) : Prop := forall p, p ∈ tail (passes log) -> passFresh p.

Definition jobP (js : list job) (t : tid) (st : tstatus) : Prop :=
  exists j, j ∈ js /\ j_target j = t /\ st = Running (j_cmds j).

(** What holds after every step, even when jom has ended. *)
Record LI (s : est) : Prop := {
  li_good : forall p, p ∈ passes (e_log s) -> passGood p /\ exists js, passTr js p;
  li_done : forall p, p ∈ removelast (passes (e_log s)) -> passDone p /\ passClean p;
  li_bound : bounded (o_jobs o) (e_log s);
  li_roots : rootsOf (e_log s) `prefix_of` roots;
  li_fresh : tailFresh (e_log s);
}.

(** Common to running and aborted builds. *)
Record CI (pre : list logev) (r : tid) (mk0 : mkfile) (evs : list logev) (s : est) : Prop := {
  ci_log : e_log s = pre ++ LRoot r mk0 :: evs;
  ci_prev : prevOk pre;
  ci_ji : JI w o r mk0 (jt (e_jobs s)) evs;
  ci_ti : TI kind (jobP (e_jobs s)) evs;
  ci_exec : e_avail s ++ map j_exec (e_jobs s) ≡ₚ seq 0 (o_jobs o);
  ci_run : cmdsRunning (e_log s) ≡ₚ jt (e_jobs s);
  ci_bound : bounded (o_jobs o) (e_log s);
  ci_net : e_net s = (Z.of_nat (e_acq s) - if decide (e_acquiring s = ARequested) then 1 else 0)%Z;
  ci_kind : forall j, j ∈ e_jobs s -> exists c cs, j_cmds j = c :: cs /\ kind c = KProcess;
  ci_allok : e_allok s = false <-> exists t, LEnd t true ∈ e_log s;
  ci_fresh : tailFresh (e_log s);
  ci_roots : rootsOf (e_log s) `prefix_of` roots;
}.

Definition pend (s : est) : nat := if decide (e_acquiring s = AIdle) then 0 else 1.

(** The build has not been aborted. *)
Record NA (r : tid) (mk0 : mkfile) (evs : list logev) (s : est) : Prop := {
  na_gi : GI o r mk0 (e_mk s) (e_g s) (e_next s) (jt (e_jobs s)) evs;
  na_wait : e_wait s = None;
  na_next : is_Some (e_next s) <-> e_acquiring s <> AIdle;
  na_avail : e_acquiring s <> AIdle -> e_avail s <> [];
  na_cmds : forall t b, e_next s = Some t -> mk_targets (e_mk s) !! t = Some b -> b_cmds b <> [];
  na_acq : e_acq s = length (e_jobs s) + pend s - 1;
  na_state : forall j, j ∈ e_jobs s -> procRunning j = true;
  na_pend : forall t, Some t ∈ e_pending s -> is_Some (mk_targets (e_mk s) !! t);
  na_roots : rootsOf (e_log s) ++ e_pending s = roots;
  na_ok : e_allok s = false -> o_keep o = true;
}.

(** There is always something to wait for. *)
Definition live (s : est) : Prop := e_queue s = 0 -> e_acquiring s = AIdle -> e_jobs s <> [].

(** After a failure without /K: every command that was running then has ended or is still watched. *)
Definition waited (log : list logev) (js : list job) : Prop :=
  forall pre x post, log = pre ++ LEnd x true :: post -> (forall y, LEnd y true ∉ pre) ->
  forall t, t ∈ cmdsRunning pre ->
    (exists c code, LExit t c code ∈ post) \/ exists j, j ∈ js /\ j_target j = t /\ procRunning j = true.

Record AB0 (s : est) : Prop := {
  ab_keep : o_keep o = false;
  ab_fail : e_allok s = false;
  ab_pend : e_pending s = [];
  ab_g : g_nodes (e_g s) = ∅;
  ab_waited : waited (e_log s) (e_jobs s);
}.
Definition waitOk (s : est) : Prop :=
  (exists k j, e_wait s = Some (WProc k) /\ jobOf k s = Some j /\ procRunning j = true
     /\ forall j', j' ∈ e_jobs s -> j_exec j' < k -> procRunning j' = false)
  \/ (e_wait s = Some WJob /\ e_acquiring s <> AIdle /\ forall j', j' ∈ e_jobs s -> procRunning j' = false).

(** Nothing to do: the makefile has no targets. *)
Definition freshS (s : est) : Prop :=
  e_log s = [] /\ e_jobs s = [] /\ e_next s = None /\ g_nodes (e_g s) = ∅ /\ g_leaves (e_g s) = []
  /\ e_pending s = [] /\ e_aborted s = false /\ e_acquiring s = AIdle /\ e_avail s = seq 0 (o_jobs o)
  /\ e_allok s = true /\ e_acq s = 0 /\ e_net s = 0%Z /\ e_wait s = None /\ e_queue s <> 0 /\ roots = [].

Definition SInv (s : est) : Prop :=
  freshS s \/ exists pre r mk0 evs, CI pre r mk0 evs s
    /\ (if e_aborted s then AB0 s /\ waitOk s else NA r mk0 evs s /\ live s).

(** How jom ends; [LF]: the operating system did not start a process. *)
Inductive EndsBy (s : est) : Prop :=
| EB_done : e_end s = Some (EExit (if e_allok s then 0 else 1)%N) -> cmdsRunning (e_log s) = [] -> e_net s = 0%Z ->
    rootsOf (e_log s) = roots -> (forall p, p ∈ passes (e_log s) -> passDone p) ->
    (e_allok s = false -> o_keep o = true) -> (e_allok s = false <-> exists t, LEnd t true ∈ e_log s) ->
    EndsBy s
| EB_exception : e_end s = Some EError -> ((exists t, LEnd t true ∈ e_log s) -> o_keep o = true) -> ((exists t n b, mk_targets (e_mk s) !! t = Some b /\ b_cmds b <> [] /\ prep (e_mk s) t n = None) \/ inferThrows o xp) -> EndsBy s
| EB_missing n root rest : e_end s = Some (EExit 2) -> missingDep (w n) (e_mk s) root ->
    rootsOf (e_log s) ++ Some root :: rest = roots -> (forall p, p ∈ passes (e_log s) -> passDone p) ->
    ((exists t, LEnd t true ∈ e_log s) -> o_keep o = true) -> cmdsRunning (e_log s) = [] -> e_net s = 0%Z -> EndsBy s
| EB_failed : e_end s = Some (EExit 2) -> e_allok s = false -> o_keep o = false ->
    (exists t, LEnd t true ∈ e_log s) -> waited (e_log s) (e_jobs s) ->
    (forall j, j ∈ e_jobs s -> procRunning j = false) -> EndsBy s
| EB_crash : e_end s = Some ECrash -> (None ∈ roots \/ (exists t n b, mk_targets (e_mk s) !! t = Some b /\ b_cmds b <> [] /\ prep (e_mk s) t n = Some []) \/ LF) -> EndsBy s
| EB_diverge p : e_end s = Some EDiverge -> o_keep o = true -> p ∈ passes (e_log s) ->
    not (acyclicFrom (p_mk p) (p_root p)) -> EndsBy s.

(** *** Reading off the log invariant *)
Lemma passes_ci pre r mk0 evs : noRoot evs -> passes (pre ++ LRoot r mk0 :: evs) = passes pre ++ [Pass r mk0 evs].
Proof. apply passes_split. Qed.

Lemma LI_intro pre r mk0 evs (js : list tid) s :
  e_log s = pre ++ LRoot r mk0 :: evs -> prevOk pre -> PP w o r mk0 evs ->
  TI kind (fun t st => t ∈ js /\ forall f, st <> Finished f) evs -> (forall t, t ∈ js -> not (dealtWith evs t)) ->
  bounded (o_jobs o) (e_log s) -> rootsOf (e_log s) `prefix_of` roots -> tailFresh (e_log s) -> LI s.
Proof.
  intros Hl Hp Hpp Hti Hjs Hb Hr Hf. split; try done.
  - rewrite Hl, passes_split by apply Hpp. intros p [H|H]%elem_of_app.
    + destruct (Hp p H) as (H1 & H2 & H3). split; [done|by exists []].
    + apply elem_of_list_singleton in H. subst p. split; [exact Hpp|]. exists js. split; done.
  - rewrite Hl, passes_split by apply Hpp. rewrite removelast_last. intros p H. apply (Hp p H).
Qed.
Lemma jobP_weak js evs : TI kind (jobP js) evs -> TI kind (fun t st => t ∈ jt js /\ forall f, st <> Finished f) evs.
Proof.
  apply TI_mono. intros t st (j & Hj & <- & ->). split; [|done]. apply elem_of_list_In, in_map_iff. exists j.
  split; [done|]. by apply elem_of_list_In.
Qed.
Lemma CI_LI pre r mk0 evs s : CI pre r mk0 evs s -> LI s.
Proof.
  intros [C1 C2 C3 C4 C5 C6 C7 C8 C9 C10 C11 C12]. eapply LI_intro; try done.
  - apply C3.
  - by apply jobP_weak.
  - intros t Ht. by apply (ji_jobs _ _ _ _ _ _ C3) in Ht as [_ ?].
Qed.

(** The log and bookkeeping only depend on some of the fields. *)
Lemma CI_ext pre r mk0 evs s s' : CI pre r mk0 evs s -> e_log s' = e_log s -> e_jobs s' = e_jobs s ->
  e_avail s' = e_avail s -> e_net s' = e_net s -> e_acq s' = e_acq s -> e_acquiring s' = e_acquiring s ->
  e_allok s' = e_allok s -> CI pre r mk0 evs s'.
Proof.
  intros [C1 C2 C3 C4 C5 C6 C7 C8 C9 C10 C11 C12] E1 E2 E3 E4 E5 E6 E7. split; rewrite ?E1, ?E2, ?E3, ?E4, ?E5, ?E6, ?E7; done.
Qed.
Lemma LI_ext s s' : LI s -> e_log s' = e_log s -> LI s'.
Proof. intros [L1 L2 L3 L4 L5] E. split; rewrite ?E; done. Qed.

(** *** Jobs *)
Lemma jobOf_spec k s j : jobOf k s = Some j -> j ∈ e_jobs s /\ j_exec j = k.
Proof.
  unfold jobOf. intros H. apply find_some in H as [H1 H2]. apply Nat.eqb_eq in H2. split; [by apply elem_of_list_In|done].
Qed.
Lemma jobOf_none k s : jobOf k s = None -> forall j, j ∈ e_jobs s -> j_exec j <> k.
Proof.
  unfold jobOf. intros H j Hj. pose proof (find_none _ _ H j) as Hn. cbn in Hn.
  apply Nat.eqb_neq. apply Hn. by apply elem_of_list_In.
Qed.
Definition dropped (k : nat) (js : list job) : list job := List.filter (fun j => negb (Nat.eqb (j_exec j) k)) js.
Definition replaced (j : job) (js : list job) : list job := map (fun j' => if Nat.eqb (j_exec j') (j_exec j) then j else j') js.
Lemma dropped_notin k js : (forall j, j ∈ js -> j_exec j <> k) -> dropped k js = js.
Proof.
  induction js as [|j js IH]; intros H; cbn; [done|].
  destruct (Nat.eqb_spec (j_exec j) k) as [E|E]; cbn.
  - exfalso. by eapply H; [left|].
  - f_equal. apply IH. intros. apply H. by right.
Qed.
Lemma dropped_perm k js j : NoDup (map j_exec js) -> j ∈ js -> j_exec j = k -> js ≡ₚ j :: dropped k js.
Proof.
  intros Hn Hj Hk. induction js as [|i js IH]; [by apply elem_of_nil in Hj|]. cbn in Hn. apply NoDup_cons in Hn as [Hni Hn].
  cbn. destruct (Nat.eqb_spec (j_exec i) k) as [E|E]; cbn.
  - assert (forall j', j' ∈ js -> j_exec j' <> k) as Hother.
    { intros j' Hj' Hk'. apply Hni. rewrite E, <- Hk'. apply elem_of_list_In, in_map, elem_of_list_In, Hj'. }
    apply elem_of_cons in Hj as [->|Hj]; [|exfalso; by eapply Hother].
    change (List.filter _ js) with (dropped k js). by rewrite dropped_notin.
  - apply elem_of_cons in Hj as [->|Hj]; [done|]. rewrite Permutation_swap. f_equiv. by apply IH.
Qed.
Lemma replaced_notin j js : (forall j', j' ∈ js -> j_exec j' <> j_exec j) -> replaced j js = js.
Proof.
  induction js as [|i js IH]; intros H; cbn; [done|].
  destruct (Nat.eqb_spec (j_exec i) (j_exec j)) as [E|E].
  - exfalso. by eapply H; [left|].
  - f_equal. apply IH. intros. apply H. by right.
Qed.
Lemma replaced_perm j j' js : NoDup (map j_exec js) -> j' ∈ js -> j_exec j' = j_exec j -> replaced j js ≡ₚ j :: dropped (j_exec j) js.
Proof.
  intros Hn Hj Hk. induction js as [|i js IH]; [by apply elem_of_nil in Hj|]. cbn in Hn. apply NoDup_cons in Hn as [Hni Hn].
  cbn. destruct (Nat.eqb_spec (j_exec i) (j_exec j)) as [E|E]; cbn.
  - assert (forall j', j' ∈ js -> j_exec j' <> j_exec j) as Hother.
    { intros i' Hi' Hk'. apply Hni. rewrite E, <- Hk'. apply elem_of_list_In, in_map, elem_of_list_In, Hi'. }
    change (map _ js) with (replaced j js). change (List.filter _ js) with (dropped (j_exec j) js).
    by rewrite dropped_notin, replaced_notin.
  - apply elem_of_cons in Hj as [->|Hj]; [done|]. rewrite Permutation_swap. f_equiv. by apply IH.
Qed.
Lemma replaced_exec j js : map j_exec (replaced j js) = map j_exec js.
Proof.
  induction js as [|i js IH]; cbn; [done|]. destruct (Nat.eqb_spec (j_exec i) (j_exec j)) as [E|E]; cbn; by rewrite ?E, <- IH.
Qed.
Lemma exec_nodup s : e_avail s ++ map j_exec (e_jobs s) ≡ₚ seq 0 (o_jobs o) -> NoDup (map j_exec (e_jobs s)).
Proof.
  intros H. pose proof (NoDup_ListNoDup (seq 0 (o_jobs o))) as Hs. assert (NoDup (seq 0 (o_jobs o))) as Hn by (apply Hs, seq_NoDup).
  rewrite <- H in Hn. by apply NoDup_app in Hn as (_ & _ & ?).
Qed.
Lemma exec_lt s j : e_avail s ++ map j_exec (e_jobs s) ≡ₚ seq 0 (o_jobs o) -> j ∈ e_jobs s -> j_exec j < o_jobs o.
Proof.
  intros H Hj. assert (j_exec j ∈ seq 0 (o_jobs o)) as Hin.
  { rewrite <- H. apply elem_of_app. right. apply elem_of_list_In, in_map, elem_of_list_In, Hj. }
  apply elem_of_seq in Hin. lia.
Qed.

(** *** Waiting for the processes after a failure *)
Lemma jobOf_unique s j : NoDup (map j_exec (e_jobs s)) -> j ∈ e_jobs s -> jobOf (j_exec j) s = Some j.
Proof.
  intros Hn Hj. destruct (jobOf (j_exec j) s) as [i|] eqn:E.
  - apply jobOf_spec in E as [Hi Hk]. f_equal.
    clear -Hn Hj Hi Hk. induction (e_jobs s) as [|a l IH]; [by apply elem_of_nil in Hj|].
    cbn in Hn. apply NoDup_cons in Hn as [Ha Hn].
    apply elem_of_cons in Hj as [Hj|Hj]; apply elem_of_cons in Hi as [Hi|Hi]; try congruence; [| |by apply IH].
    + exfalso. apply Ha. subst a. rewrite <- Hk. apply elem_of_list_In, in_map, elem_of_list_In, Hi.
    + exfalso. apply Ha. subst a. rewrite Hk. apply elem_of_list_In, in_map, elem_of_list_In, Hj.
  - exfalso. by eapply jobOf_none.
Qed.

Lemma waitFrom_spec pre r mk0 evs n : forall k s, CI pre r mk0 evs s -> AB0 s -> e_end s = None -> e_aborted s = true ->
  n + k = o_jobs o -> (forall j, j ∈ e_jobs s -> j_exec j < k -> procRunning j = false) ->
  let s' := waitFrom o n k s in
  (e_end s' = None /\ e_aborted s' = true /\ CI pre r mk0 evs s' /\ AB0 s' /\ waitOk s')
  \/ (is_Some (e_end s') /\ LI s' /\ EndsBy s').
Proof.
  induction n as [|n IH]; intros k s C A He Hab Hnk Hlow; cbn [waitFrom].
  - assert (forall j, j ∈ e_jobs s -> procRunning j = false) as Hall.
    { intros j Hj. apply Hlow; [done|]. pose proof (exec_lt s j (ci_exec _ _ _ _ _ C) Hj). lia. }
    destruct (e_acquiring s) eqn:Eq; cbn.
    + right. split; [eauto|]. split.
      * eapply CI_LI. eapply CI_ext; [exact C|done..].
      * apply EB_failed; cbn; try done; try apply A. apply (ci_allok _ _ _ _ _ C), A.
    + left. split_and!; try done.
      * eapply CI_ext; [exact C|done..].
      * destruct A. split; done.
      * right. split_and!; try done. cbn. by rewrite Eq.
    + left. split_and!; try done.
      * eapply CI_ext; [exact C|done..].
      * destruct A. split; done.
      * right. split_and!; try done. cbn. by rewrite Eq.
  - destruct (jobOf k s) as [j|] eqn:Ej.
    + destruct (procRunning j) eqn:Er.
      * left. cbn. split_and!; try done.
        -- eapply CI_ext; [exact C|done..].
        -- destruct A. split; done.
        -- left. exists k, j. split_and!; done.
      * apply IH; try done; [lia|]. intros j' Hj' Hlt. destruct (decide (j_exec j' = k)) as [Heq|Hne].
        -- apply jobOf_spec in Ej as Ej'. destruct Ej' as [Hj Hk].
           pose proof (jobOf_unique s j' (exec_nodup s (ci_exec _ _ _ _ _ C)) Hj') as Hu. rewrite Heq, Ej in Hu.
           by injection Hu as ->.
        -- apply Hlow; [done|lia].
    + apply IH; try done; [lia|]. intros j' Hj' Hlt. apply Hlow; [done|]. pose proof (jobOf_none _ _ Ej j' Hj'). lia.
Qed.

(** *** A target has finished *)
Definition afterChild (k : nat) (t : tid) (failed : bool) (g2 : graph) (s : est) : est :=
  Est (e_mk s) (removeLeaf t g2) (e_next s) (e_pending s) (e_avail s ++ [k]) (dropped k (e_jobs s))
      (pred (e_acq s)) (e_acquiring s) (e_aborted s) (if failed then false else e_allok s) (e_queue s)
      (e_wait s) (e_end s) (match e_acq s with O => e_net s | S _ => (e_net s - 1)%Z end)
      (e_log s ++ [LEnd t failed]).
Definition abort (s : est) : est := s <| e_aborted := true |> <| e_g ::= clearGraph |> <| e_pending := [] |>.
Definition continue (k : nat) (t : tid) (failed : bool) (g2 : graph) (s : est) : est :=
  if failed && negb (o_keep o) then waitFrom o (o_jobs o) 0 (abort (afterChild k t failed g2 s))
  else (afterChild k t failed g2 s) <| e_queue ::= S |>.
Lemma childFinished_eq k t failed s :
  childFinished o k t failed s =
  if failed && o_keep o then
    match g_nodes (e_g s) !! t with
    | None => ended ECrash (addLog [LEnd t failed] s <| e_allok := false |>)
    | Some _ => match markParents (S (size (g_nodes (e_g s)))) t (e_g s) with
                | None => ended EDiverge (addLog [LEnd t failed] s <| e_allok := false |>)
                | Some g2 => continue k t failed g2 s
                end
    end
  else continue k t failed (e_g s) s.
Proof.
  unfold childFinished, continue, abort, afterChild. destruct s as [mk g nx pe av js ac aq ab ao qu wt en nt lg].
  cbn -[markParents]. destruct failed; cbn -[markParents].
  - destruct (o_keep o) eqn:Ek; cbn -[markParents].
    + destruct (g_nodes g !! t); [|done]. destruct (markParents (S (size (g_nodes g))) t g) as [g2|]; [|done]. by destruct ac.
    + by destruct ac.
  - by destruct ac.
Qed.

(** What must hold when a target finishes. *)
Record MI (pre : list logev) (r : tid) (mk0 : mkfile) (evs : list logev) (k : nat) (t : tid) (failed : bool) (s : est) : Prop := {
  mi_log : e_log s = pre ++ LRoot r mk0 :: evs;
  mi_prev : prevOk pre;
  mi_ji : JI w o r mk0 (t :: jt (dropped k (e_jobs s))) evs;
  mi_ti : TI kind (jobP (dropped k (e_jobs s))) (evs ++ [LEnd t failed]);
  mi_exec : e_avail s ++ k :: map j_exec (dropped k (e_jobs s)) ≡ₚ seq 0 (o_jobs o);
  mi_run : cmdsRunning (e_log s) ≡ₚ jt (dropped k (e_jobs s));
  mi_bound : bounded (o_jobs o) (e_log s);
  mi_net : e_net s = (Z.of_nat (e_acq s) - if decide (e_acquiring s = ARequested) then 1 else 0)%Z;
  mi_kind : forall j, j ∈ dropped k (e_jobs s) -> exists c cs, j_cmds j = c :: cs /\ kind c = KProcess;
  mi_allok : e_allok s = false <-> exists t, LEnd t true ∈ e_log s;
  mi_fresh : tailFresh (e_log s);
  mi_roots : rootsOf (e_log s) `prefix_of` roots;
}.
Lemma passes_nonroot log e : (forall r mk, e <> LRoot r mk) -> passes (log ++ [e]) = addToLast e (passes log).
Proof. intros H. rewrite passes_snoc. destruct e; try done. by edestruct H. Qed.
Lemma addToLast_roots e ps : map (fun p => Some (p_root p)) (addToLast e ps) = map (fun p => Some (p_root p)) ps.
Proof. induction ps as [|p [|q ps] IH]; cbn in *; [done|done|]. by rewrite IH. Qed.
Lemma rootsOf_app log l : noRoot l -> rootsOf (log ++ l) = rootsOf log.
Proof.
  induction l as [|e l IH] using rev_ind; intros Hn; [by rewrite app_nil_r|]. apply noRoot_app in Hn as [Hn He].
  rewrite app_assoc. unfold rootsOf. rewrite passes_nonroot, addToLast_roots.
  - by apply IH.
  - intros r mk ->. by eapply He; left.
Qed.
Lemma addToLast_fresh e ps : (forall p, p ∈ tail ps -> passFresh p) -> forall p, p ∈ tail (addToLast e ps) -> passFresh p.
Proof.
  assert (forall ps, (forall p, p ∈ ps -> passFresh p) -> forall p, p ∈ addToLast e ps -> passFresh p) as H0.
  { clear ps. intros ps. induction ps as [|q [|q' ps] IH]; intros H p Hp; [by apply elem_of_nil in Hp| |].
    - cbn in Hp. apply elem_of_list_singleton in Hp. subst p. intros t b Hb. eapply (H q); [by left|exact Hb].
    - change (addToLast e (q :: q' :: ps)) with (q :: addToLast e (q' :: ps)) in Hp.
      apply elem_of_cons in Hp as [->|Hp]; [apply H; by left|]. apply IH; [|done]. intros. apply H. by right. }
  intros H p. destruct ps as [|q [|q' ps]]; [by intros ?%elem_of_nil|by intros ?%elem_of_nil|].
  change (tail (addToLast e (q :: q' :: ps))) with (addToLast e (q' :: ps)). by apply H0.
Qed.
Lemma tailFresh_app log l : noRoot l -> tailFresh log -> tailFresh (log ++ l).
Proof.
  induction l as [|e l IH] using rev_ind; intros Hn H; [by rewrite app_nil_r|]. apply noRoot_app in Hn as [Hn He].
  rewrite app_assoc. unfold tailFresh. rewrite passes_nonroot.
  - apply addToLast_fresh. by apply IH.
  - intros r mk ->. by eapply He; left.
Qed.
Lemma noRoot_end t f : noRoot [LEnd t f].
Proof. intros r mk H%elem_of_list_singleton. done. Qed.

Lemma CI_afterChild pre r mk0 evs k t failed g2 s :
  MI pre r mk0 evs k t failed s -> CI pre r mk0 (evs ++ [LEnd t failed]) (afterChild k t failed g2 s).
Proof.
  intros [M1 M2 M3 M4 M5 M6 M7 M8 M9 M10 M11 M12]. split; cbn.
  - by rewrite M1, <- app_assoc.
  - done.
  - by apply JI_finish.
  - done.
  - rewrite <- M5. rewrite <- app_assoc. done.
  - rewrite noCmd_running; [done|]. constructor; [by intros []|constructor].
  - apply noCmd_bounded; [|done]. constructor; [by intros []|constructor].
  - rewrite M8. destruct (e_acq s); cbn; [done|]. lia.
  - done.
  - setoid_rewrite elem_of_app. setoid_rewrite elem_of_list_singleton. destruct failed.
    + split; [|done]. intros _. exists t. by right.
    + rewrite M10. split; intros [x Hx]; exists x; [by left|]. by destruct Hx as [?|?].
  - apply tailFresh_app; [apply noRoot_end|done].
  - rewrite rootsOf_app; [done|apply noRoot_end].
Qed.

Lemma waited_snoc log js js' e :
  waited log js -> (exists t, LEnd t true ∈ log) ->
  (forall t j, j ∈ js -> j_target j = t -> procRunning j = true ->
      (exists c code, e = LExit t c code) \/ exists j', j' ∈ js' /\ j_target j' = t /\ procRunning j' = true) ->
  waited (log ++ [e]) js'.
Proof.
  intros H [y Hy] Hj pre x post E Hfirst t Ht. apply snoc_split in E as [(-> & -> & ->)|(post' & -> & E)].
  - exfalso. by eapply Hfirst.
  - destruct (H _ _ _ E Hfirst t Ht) as [(c & code & Hc)|(j & Hjs & Htj & Hr)].
    + left. exists c, code. apply elem_of_app. by left.
    + destruct (Hj t j Hjs Htj Hr) as [(c & code & ->)|?]; [|by right]. left. exists c, code. apply elem_of_app. right. by left.
Qed.

Lemma childFinished_spec pre r mk0 evs k t failed s nx :
  MI pre r mk0 evs k t failed s -> e_end s = None ->
  (e_aborted s = true -> o_keep o = false /\ e_pending s = [] /\ g_nodes (e_g s) = ∅ /\ e_allok s = false
       /\ waited (e_log s) (dropped k (e_jobs s))) ->
  (e_aborted s = false -> GI o r mk0 (e_mk s) (e_g s) nx (t :: jt (dropped k (e_jobs s))) evs
     /\ (forall j, j ∈ dropped k (e_jobs s) -> procRunning j = true) /\ (e_allok s = false -> o_keep o = true)) ->
  let s' := childFinished o k t failed s in
  (is_Some (e_end s') /\ LI s' /\ EndsBy s')
  \/ (e_end s' = None /\ e_aborted s' = true /\ o_keep o = false /\ CI pre r mk0 (evs ++ [LEnd t failed]) s' /\ AB0 s'
      /\ failed = true /\ waitOk s')
  \/ exists g2, s' = (afterChild k t failed g2 s) <| e_queue ::= S |>
      /\ CI pre r mk0 (evs ++ [LEnd t failed]) s'
      /\ (failed = true -> o_keep o = true)
      /\ (e_aborted s = true -> AB0 s')
      /\ (e_aborted s = false -> GI o r mk0 (e_mk s) (removeLeaf t g2) nx (jt (dropped k (e_jobs s))) (evs ++ [LEnd t failed])).
Proof.
  intros M He Hab Hna. cbv zeta. rewrite childFinished_eq.
  assert (forall g2 x, waited (e_log s) (dropped k (e_jobs s)) -> e_allok s = false -> waited (e_log (afterChild k t x g2 s)) (e_jobs (afterChild k t x g2 s))) as Hwt.
  { intros g2 x Hw Hf. cbn. eapply waited_snoc; [exact Hw|by apply (mi_allok _ _ _ _ _ _ _ _ M)|]. intros y j Hj Hy Hr. right. by exists j. }
  destruct (failed && o_keep o) eqn:Efk.
  - apply andb_true_iff in Efk as [-> Hk].
    destruct (e_aborted s) eqn:Ea; [exfalso; destruct (Hab eq_refl); congruence|].
    destruct (Hna eq_refl) as (G & Hst & Hok).
    assert (inG (e_g s) t) as [nd Hnd] by (eapply gi_jin; [exact G|by left]).
    rewrite Hnd. destruct (markParents (S (size (g_nodes (e_g s)))) t (e_g s)) as [g2|] eqn:Em.
    + right. right. exists g2. unfold continue. rewrite Hk. cbn [negb andb]. split_and!; try done.
      * eapply CI_ext; [by apply (CI_afterChild _ _ _ _ k t _ (e_g s))|done..].
      * intros _. eapply (GI_finish w); [exact G|exact (mi_ji _ _ _ _ _ _ _ _ M)|done|]. by exists (S (size (g_nodes (e_g s)))).
    + left. cbn. split; [eauto|].
      assert (CI pre r mk0 (evs ++ [LEnd t true]) (afterChild k t true (e_g s) s)) as C by by apply CI_afterChild.
      split; [eapply LI_ext; [eapply CI_LI; exact C|done]|].
      eapply (EB_diverge _ (Pass r mk0 (evs ++ [LEnd t true]))); cbn; try done.
      * pose proof (ci_log _ _ _ _ _ C) as Hlg. cbn in Hlg. rewrite Hlg, passes_split.
        -- apply elem_of_app. right. by left.
        -- apply (pp_noroot _ _ _ _ _ (ji_pp _ _ _ _ _ _ (ci_ji _ _ _ _ _ C))).
      * intros Hac. eapply markParents_total in Em; [done|apply G|]. eapply GI_acyclic; [exact G|done].
  - unfold continue. destruct (failed && negb (o_keep o)) eqn:Efn.
    + apply andb_true_iff in Efn as [-> Hk%negb_true_iff].
      assert (CI pre r mk0 (evs ++ [LEnd t true]) (abort (afterChild k t true (e_g s) s))) as C.
      { eapply CI_ext; [by apply (CI_afterChild _ _ _ _ k t _ (e_g s))|done..]. }
      assert (AB0 (abort (afterChild k t true (e_g s) s))) as A.
      { split; cbn; try done. destruct (e_aborted s) eqn:Ea.
        - destruct (Hab eq_refl) as (_ & _ & _ & Hf & Hw). by apply (Hwt (e_g s) true).
        - destruct (Hna eq_refl) as (G & Hst & Hok).
          assert (not (exists y, LEnd y true ∈ e_log s)) as Hnofail.
          { intros (y & Hy). assert (e_allok s = false) as Hf by (apply (mi_allok _ _ _ _ _ _ _ _ M); eauto).
            apply Hok in Hf. congruence. }
          intros pre' x post E Hfirst z Hz. apply snoc_split in E as [(-> & -> & E)|(post' & -> & E)].
          + rewrite (mi_run _ _ _ _ _ _ _ _ M) in Hz. right. apply elem_of_list_In, in_map_iff in Hz as (j & Hj & Hin).
            apply elem_of_list_In in Hin. exists j. auto.
          + exfalso. apply Hnofail. exists x. rewrite E. apply elem_of_app. right. by left. }
      destruct (waitFrom_spec pre r mk0 (evs ++ [LEnd t true]) (o_jobs o) 0 _ C A He eq_refl) as [(W1 & W2 & W3 & W4 & W5)|?].
      * lia.
      * intros; lia.
      * right. left. done.
      * by left.
    + assert (failed = false) as ->.
      { destruct failed; [|done]. destruct (o_keep o); done. }
      right. right. exists (e_g s). split_and!; try done.
      * eapply CI_ext; [by apply (CI_afterChild _ _ _ _ k t _ (e_g s))|done..].
      * intros Ha. destruct (Hab Ha) as (B1 & B2 & B3 & B4 & B5). split; cbn; try done.
        -- rewrite removeLeaf_absent; [done|]. rewrite B3. apply lookup_empty.
        -- by apply (Hwt (e_g s) false).
      * intros Ha. destruct (Hna Ha) as (G & Hst & Hok). eapply (GI_finish w o r mk0 (e_mk s) (e_g s) (e_g s) nx _ evs t false); [exact G|exact (mi_ji _ _ _ _ _ _ _ _ M)|done|done].
Qed.

Local Arguments dropped : simpl never.
Local Arguments replaced : simpl never.
Local Arguments jt : simpl never.
Local Arguments childFinished : simpl never.

Definition Good (s : est) : Prop := (e_end s = None /\ SInv s) \/ (is_Some (e_end s) /\ LI s /\ EndsBy s).

Lemma EndsBy_ext s s' : EndsBy s -> e_end s' = e_end s -> e_log s' = e_log s -> e_jobs s' = e_jobs s -> e_net s' = e_net s ->
  e_allok s' = e_allok s -> e_mk s' = e_mk s -> EndsBy s'.
Proof.
  intros [] E1 E2 E3 E4 E5 E6.
  - apply EB_done; rewrite ?E1, ?E2, ?E3, ?E4, ?E5; done.
  - apply EB_exception; [by rewrite E1|by rewrite E2|by rewrite E6].
  - eapply EB_missing; rewrite ?E1, ?E2, ?E3, ?E4, ?E5, ?E6; done.
  - apply EB_failed; rewrite ?E1, ?E2, ?E3, ?E4, ?E5; done.
  - apply EB_crash; [by rewrite E1|by rewrite E6].
  - eapply EB_diverge; rewrite ?E1, ?E2, ?E3, ?E4, ?E5; done.
Qed.
Lemma AB0_ext s s' : AB0 s -> e_allok s' = e_allok s -> e_pending s' = e_pending s -> e_g s' = e_g s -> e_log s' = e_log s ->
  e_jobs s' = e_jobs s -> AB0 s'.
Proof. intros [] E1 E2 E3 E4 E5. split; rewrite ?E1, ?E2, ?E3, ?E4, ?E5; done. Qed.
Lemma waitOk_ext s s' : waitOk s -> e_wait s' = e_wait s -> e_jobs s' = e_jobs s -> (e_acquiring s <> AIdle -> e_acquiring s' <> AIdle) -> waitOk s'.
Proof.
  intros H E1 E2 E3. unfold waitOk, jobOf. rewrite E1, E2. destruct H as [(k & j & H)|(H1 & H2 & H3)]; [left; by exists k, j|].
  right. split_and!; auto.
Qed.

Lemma ranTo_resume t cs tr rest l st : ranTo kind t cs tr (Stopped rest) -> ranTo kind t rest l st -> ranTo kind t cs (tr ++ l) st.
Proof.
  intros H. remember (Stopped rest) as st0 eqn:E. revert E. induction H; intros E Hl; try done.
  - injection E as <-. done.
  - cbn. constructor; [done|]. auto.
Qed.

Lemma jobs_count s : e_avail s ++ map j_exec (e_jobs s) ≡ₚ seq 0 (o_jobs o) -> length (e_avail s) + length (e_jobs s) = o_jobs o.
Proof. intros H%Permutation_length. rewrite app_length, map_length, seq_length in H. done. Qed.
Lemma noRoot_start t cmds l : Forall cmdEvent l -> noRoot (LStart t cmds :: l).
Proof. intros Hl r mk [?|Hin]%elem_of_cons; [done|]. rewrite Forall_forall in Hl. by apply Hl in Hin. Qed.
Lemma noRoot_cmds l : Forall cmdEvent l -> noRoot l.
Proof. intros Hl r mk Hin. rewrite Forall_forall in Hl. by apply Hl in Hin. Qed.
Lemma no_LEnd l : Forall cmdEvent l -> forall t f, LEnd t f ∉ l.
Proof. intros Hl t f Hin. rewrite Forall_forall in Hl. by apply Hl in Hin. Qed.
Lemma allok_app (log l : list logev) (P : Prop) : (P <-> exists t, LEnd t true ∈ log) -> (forall t, LEnd t true ∉ l) ->
  (P <-> exists t, LEnd t true ∈ log ++ l).
Proof.
  intros H Hn. rewrite H. split; intros [t Ht]; exists t; [apply elem_of_app; by left|].
  apply elem_of_app in Ht as [?|Ht]; [done|]. exfalso. by eapply Hn.
Qed.

Lemma runCmds_fatal t cmds : forall codes launch l, runCmds kind t cmds codes launch = Some (RFatal l) -> launch = false.
Proof.
  induction cmds as [|c cmds IH]; intros codes launch l; cbn [runCmds].
  - by destruct codes.
  - destruct (kind c) as [|allowed].
    + destruct codes; [|done]. by destruct launch.
    + destruct codes as [|k codes]; [done|]. destruct (existsb (N.eqb k) allowed); [|done].
      destruct (c_max c <? k)%N; [by destruct codes|].
      destruct (runCmds kind t cmds codes launch) as [[]|] eqn:Er; try done. intros _. by eapply IH.
Qed.

(** *** Starting the next target *)
Record BN (pre : list logev) (r : tid) (mk0 : mkfile) (evs : list logev) (t : tid) (s : est) : Prop := {
  bn_ci : CI pre r mk0 evs s;
  bn_end : e_end s = None;
  bn_ab : e_aborted s = false;
  bn_next : e_next s = Some t;
  bn_gi : GI o r mk0 (e_mk s) (e_g s) (Some t) (jt (e_jobs s)) evs;
  bn_wait : e_wait s = None;
  bn_acq0 : e_acquiring s = AIdle;
  bn_avail : e_avail s <> [];
  bn_cmds : forall b, mk_targets (e_mk s) !! t = Some b -> b_cmds b <> [];
  bn_acq : e_acq s = length (e_jobs s);
  bn_state : forall j, j ∈ e_jobs s -> procRunning j = true;
  bn_pend : forall t, Some t ∈ e_pending s -> is_Some (mk_targets (e_mk s) !! t);
  bn_roots : rootsOf (e_log s) ++ e_pending s = roots;
  bn_ok : e_allok s = false -> o_keep o = true;
}.

Lemma pend_idle s : e_acquiring s = AIdle -> pend s = 0.
Proof. unfold pend. by intros ->. Qed.
Lemma pend_busy s : e_acquiring s <> AIdle -> pend s = 1.
Proof. unfold pend. intros H. by destruct (decide _). Qed.
Lemma perm_snoc_jt js k t rest st : jt (js ++ [Job k t rest st]) ≡ₚ t :: jt js.
Proof. unfold jt. rewrite map_app. cbn. by rewrite Permutation_app_comm. Qed.

Lemma buildNextTarget_spec pre r mk0 evs t s ch s' : BN pre r mk0 evs t s -> (ch_launch ch = false -> LF) ->
  buildNextTarget prep kind o ch s = Some s' -> Good s'.
Proof.
  intros [C He Hab Hnx G Hwt Haq Hav Hcm Hacq Hst Hpe Hrt Hok] Hlf H.
  pose proof C as [C1 C2 C3 C4 C5 C6 C7 C8 C9 C10 C11 C12].
  unfold buildNextTarget in H. rewrite Hab, Hnx in H.
  destruct (e_avail s) as [|k avail] eqn:Eav; [done|]. clear Hav.
  assert (forall e, LI (ended e s)) as HLI by (intros; eapply LI_ext; [by eapply CI_LI|done]).
  destruct (mk_targets (e_mk s) !! t) as [b|] eqn:Eb.
  2: { exfalso. destruct (gi_mk _ _ _ _ _ _ _ _ G t) as [b Hb]; [|congruence]. by apply (gi_next _ _ _ _ _ _ _ _ G t). }
  destruct (isNil (b_cmds b)) eqn:En; [apply isNil_true in En; by destruct (Hcm b eq_refl)|].
  destruct (prep (e_mk s) t (ch_prep ch)) as [[|c0 cmds0]|] eqn:Ep.
  1: { injection H as <-. right. cbn. split; [eauto|]. split; [apply HLI|]. apply EB_crash; [done|]. right. left. exists t, (ch_prep ch), b. split_and!; [done|by apply Hcm|done]. }
  2: { injection H as <-. right. cbn. split; [eauto|]. split; [eapply LI_ext; [by eapply CI_LI|done]|]. apply EB_exception; [done|by intros ?%C10; auto|]. left. exists t, (ch_prep ch), b. split_and!; [done|by apply Hcm|done]. }
  set (cmds := c0 :: cmds0) in *.
  destruct (runCmds kind t cmds (ch_codes ch) (ch_launch ch)) as [res|] eqn:Er; [|done].
  pose proof (runCmds_spec kind t cmds _ _ _ Er) as Hres.
  destruct (GI_start w _ _ _ _ _ _ _ _ cmds G C3) as [G1 J1].
  pose proof (gi_next _ _ _ _ _ _ _ _ G t eq_refl) as [Hin Hnjt].
  assert (not (started evs t)) as Hns.
  { intros Hs. apply Hnjt, (ji_jobs _ _ _ _ _ _ C3). split; [done|]. by destruct (gi_in _ _ _ _ _ _ _ _ G t Hin). }
  destruct (TI_begin kind _ evs t cmds C4 Hns) as [T1|?]; [|done].
  assert (forall j, j ∈ e_jobs s -> j_exec j <> k) as Hk.
  { intros j Hj Heq. assert (NoDup (k :: avail ++ map j_exec (e_jobs s))) as Hnd.
    { change (k :: avail ++ map j_exec (e_jobs s)) with ((k :: avail) ++ map j_exec (e_jobs s)). rewrite C5.
      apply NoDup_ListNoDup, seq_NoDup. }
    apply NoDup_cons in Hnd as [Hnd _]. apply Hnd, elem_of_app. right. rewrite <- Heq.
    apply elem_of_list_In, in_map, elem_of_list_In, Hj. }
  assert (length avail + S (length (e_jobs s)) = o_jobs o) as Hcount.
  { pose proof (jobs_count s) as Hc. rewrite Eav in Hc. specialize (Hc C5). cbn in Hc. lia. }
  assert (dropped k (e_jobs s) = e_jobs s) as Hdr by by apply dropped_notin.
  assert (forall l st, ranTo kind t cmds l st ->
    bounded (o_jobs o) ((e_log s ++ [LStart t cmds]) ++ l) /\
    cmdsRunning ((e_log s ++ [LStart t cmds]) ++ l) ≡ₚ match st with Running _ => t :: jt (e_jobs s) | _ => jt (e_jobs s) end) as Hrun.
  { intros l st Hr. assert (cmdsRunning (e_log s ++ [LStart t cmds]) = cmdsRunning (e_log s)) as Hsame.
    { apply noCmd_running. constructor; [by intros []|constructor]. }
    destruct (ranTo_bounded kind (o_jobs o) t cmds l st Hr (e_log s ++ [LStart t cmds])) as [B1 B2].
    - apply noCmd_bounded; [|done]. constructor; [by intros []|constructor].
    - rewrite Hsame, C6. done.
    - rewrite Hsame, C6. unfold jt. rewrite map_length. lia.
    - split; [done|]. rewrite B2, Hsame. destruct st; rewrite C6; done. }
  assert (forall l, Forall cmdEvent l -> (e_log s ++ [LStart t cmds]) ++ l = pre ++ LRoot r mk0 :: ((evs ++ [LStart t cmds]) ++ l)) as Hlog.
  { intros l _. rewrite C1, <- !app_assoc. done. }
  assert (forall l, Forall cmdEvent l -> (e_allok s = false <-> exists t0, LEnd t0 true ∈ (e_log s ++ [LStart t cmds]) ++ l)) as Hall.
  { intros l Hl. rewrite <- app_assoc. apply allok_app; [done|]. intros x [?|Hx]%elem_of_cons; [done|]. by eapply no_LEnd. }
  assert (forall l, Forall cmdEvent l -> tailFresh ((e_log s ++ [LStart t cmds]) ++ l)) as Hfr.
  { intros l Hl. rewrite <- app_assoc. apply tailFresh_app; [|done]. by apply noRoot_start. }
  assert (forall l, Forall cmdEvent l -> rootsOf ((e_log s ++ [LStart t cmds]) ++ l) = rootsOf (e_log s)) as Hro.
  { intros l Hl. rewrite <- app_assoc. apply rootsOf_app. by apply noRoot_start. }
  assert (sameDom (e_mk s) (setBlock (e_mk s) t (setCmds cmds b))) as Hdom by by eapply sameDom_setBlock'.
  assert (started (evs ++ [LStart t cmds]) t) as Hst1.
  { apply started_app. right. apply started_one. eauto. }
  assert (not (dealtWith (evs ++ [LStart t cmds]) t)) as Hnd1.
  { assert (t ∈ t :: jt (e_jobs s)) as Ht by by left. by apply (ji_jobs _ _ _ _ _ _ J1) in Ht as [_ ?]. }
  destruct res as [failed l|rest l|l].
  - (* all commands are done *)
    pose proof (ranTo_about kind _ _ _ _ Hres) as Hab'. pose proof (about_cmdEvent t l Hab') as Hcl.
    destruct (Hrun l _ Hres) as [R1 R2].
    set (s1 := addLog l (addLog [LStart t cmds] _)) in H. injection H as <-.
    assert (MI pre r mk0 ((evs ++ [LStart t cmds]) ++ l) k t failed s1) as M.
    { split; unfold s1; cbn; rewrite ?Hdr.
      - by apply Hlog.
      - done.
      - by apply JI_cmds.
      - rewrite <- app_assoc. eapply TI_finish; [exact T1|done|done| |done|].
        + intros x st Hne [[_ ?]|[? _]]; done.
        + intros cs tr st Hr [[? _]|[_ ->]]; [done|]. cbn in Hr. by eapply ranTo_resume.
      - change ((k :: avail) ++ map j_exec (e_jobs s)) with (k :: avail ++ map j_exec (e_jobs s)) in C5.
        rewrite <- C5. by rewrite Permutation_middle.
      - done.
      - done.
      - done.
      - done.
      - by apply Hall.
      - by apply Hfr.
      - by rewrite Hro. }
    destruct (childFinished_spec _ _ _ _ _ _ _ _ None M He) as [(E1 & E2 & E3)|[(E1 & E2 & E3 & E4 & E5 & E6 & E7)|(g2 & E1 & E2 & E3 & E4 & E5)]].
    + cbn. congruence.
    + cbn. intros _. rewrite Hdr. split_and!; [|done|done].
      eapply GI_mk; [exact Hdom|]. by apply GI_cmds.
    + right. cbn. split_and!; [done|by eapply LI_ext|by eapply EndsBy_ext].
    + left. cbn. split; [done|]. right. exists pre, r, mk0, (((evs ++ [LStart t cmds]) ++ l) ++ [LEnd t failed]).
      split; [by eapply CI_ext|]. cbn. rewrite E2. split; [by eapply AB0_ext|]. by eapply waitOk_ext.
    + left. rewrite E1. cbn. split; [done|]. right. exists pre, r, mk0, (((evs ++ [LStart t cmds]) ++ l) ++ [LEnd t failed]).
      rewrite E1 in E2. split; [by eapply CI_ext|]. cbn. rewrite Hab. split; [|intros ?; cbn in *; lia].
      specialize (E5 Hab). cbn in E5. rewrite Hdr in E5.
      split; cbn; rewrite ?Hdr; try done.
      * rewrite Haq. by split; [intros []|].
      * rewrite pend_idle by done. cbn. rewrite Hacq. lia.
      * intros x Hx. apply Hdom. auto.
      * rewrite rootsOf_app by apply noRoot_end. by rewrite Hro.
      * destruct failed; [auto|done].
  - (* a process was started *)
    destruct Hres as [Hres Hrest].
    pose proof (ranTo_about kind _ _ _ _ Hres) as Hab'. pose proof (about_cmdEvent t l Hab') as Hcl.
    destruct (Hrun l _ Hres) as [R1 R2]. cbn in R2.
    injection H as <-. left. cbn. split; [done|]. right.
    exists pre, r, mk0, ((evs ++ [LStart t cmds]) ++ l). split.
    + split; cbn.
      * by apply Hlog.
      * done.
      * apply (JI_jt _ _ _ _ (t :: jt (e_jobs s))); [symmetry; apply perm_snoc_jt|]. by apply JI_cmds.
      * eapply TI_extend; [exact T1|done|done| |done| |].
        -- intros x st Hne [[_ (j & Hj & H1 & H2)]|[? _]]; [|done]. exists j. split; [|done]. apply elem_of_app. by left.
        -- intros cs tr st Hr [[? _]|[_ ->]]; [done|]. cbn in Hr. exists (Running rest). split; [by eapply ranTo_resume|].
           exists (Job k t rest JWatched). split; [|done]. apply elem_of_app. right. by left.
        -- intros f (j & _ & _ & ?). done.
      * rewrite map_app. cbn. rewrite <- C5. cbn. rewrite app_assoc, Permutation_app_comm. done.
      * by rewrite perm_snoc_jt.
      * done.
      * done.
      * intros j [Hj|Hj%elem_of_list_singleton]%elem_of_app; [auto|]. subst j. done.
      * by apply Hall.
      * by apply Hfr.
      * by rewrite Hro.
    + cbn. rewrite Hab. split; [|intros ?; cbn in *; lia]. split; cbn; try done.
      * apply (GI_jt _ _ _ _ _ _ (t :: jt (e_jobs s))); [symmetry; apply perm_snoc_jt|]. eapply GI_mk; [exact Hdom|]. by apply GI_cmds.
      * rewrite Haq. by split; [intros []|].
      * rewrite pend_idle by done. rewrite app_length. cbn. lia.
      * intros j [Hj|Hj%elem_of_list_singleton]%elem_of_app; [auto|]. by subst j.
      * intros x Hx. apply Hdom. auto.
      * by rewrite Hro.
  - (* CreateProcess failed *)
    destruct Hres as [rest Hres].
    pose proof (ranTo_about kind _ _ _ _ Hres) as Hab'. pose proof (about_cmdEvent t l Hab') as Hcl.
    destruct (Hrun l _ Hres) as [R1 R2].
    injection H as <-. right. cbn. split; [eauto|]. split; [|apply EB_crash; [done|]; right; right; apply Hlf; eapply runCmds_fatal; exact Er].
    eapply (LI_intro pre r mk0 ((evs ++ [LStart t cmds]) ++ l) (t :: jt (e_jobs s))); cbn.
    + by apply Hlog.
    + done.
    + apply PP_cmds; [apply J1|done].
    + eapply TI_extend; [exact T1|done|done| |done| |].
      * intros x st Hne [[_ (j & Hj & H1 & ->)]|[? _]]; [|done]. split; [|done]. right. rewrite <- H1.
        apply elem_of_list_In, in_map, elem_of_list_In, Hj.
      * intros cs tr st Hr [[? _]|[_ ->]]; [done|]. cbn in Hr. exists (Stopped rest). split; [by eapply ranTo_resume|].
        split; [by left|done].
      * intros f [_ Hf]. by eapply Hf.
    + pose proof (JI_cmds _ _ _ _ _ _ l Hcl J1) as J2. intros x Hx. by apply (ji_jobs _ _ _ _ _ _ J2) in Hx as [_ ?].
    + done.
    + by rewrite Hro.
    + by apply Hfr.
Qed.

(** *** Looking for something to do *)
Lemma prunes_events g es g' : prunes w o g es g' -> Forall (fun e => plain e /\ not (cmdEvent e) /\ (forall t f, e <> LEnd t f)
  /\ forall r mk, e <> LRoot r mk) es.
Proof. induction 1 as [|g t e es g' He Hin Hc Hj Hp IH]; constructor; [|done]. destruct e; cbn in *; try done; by split_and!; try done; intros []. Qed.

Lemma CI_prune pre r mk0 evs es s s' : CI pre r mk0 evs s ->
  JI w o r mk0 (jt (e_jobs s)) (evs ++ es) ->
  Forall (fun e => plain e /\ not (cmdEvent e) /\ (forall t f, e <> LEnd t f) /\ forall r mk, e <> LRoot r mk) es ->
  e_log s' = e_log s ++ es -> e_jobs s' = e_jobs s ->
  e_avail s' = e_avail s -> e_net s' = e_net s -> e_acq s' = e_acq s -> e_acquiring s' = e_acquiring s ->
  e_allok s' = e_allok s -> CI pre r mk0 (evs ++ es) s' /\ rootsOf (e_log s') = rootsOf (e_log s).
Proof.
  intros [C1 C2 C3 C4 C5 C6 C7 C8 C9 C10 C11 C12] J Hes E1 E2 E3 E4 E5 E6 E7.
  assert (Forall (fun e => not (cmdEvent e)) es) as Hc by (eapply Forall_impl; [exact Hes|]; by intros ? (_ & ? & _)).
  assert (Forall plain es) as Hp by (eapply Forall_impl; [exact Hes|]; by intros ? (? & _)).
  assert (noRoot es) as Hr.
  { intros r' mk' Hin. rewrite Forall_forall in Hes. by apply Hes in Hin as (_ & _ & _ & H); eapply H. }
  assert (forall t, LEnd t true ∉ es) as Hend.
  { intros t Hin. rewrite Forall_forall in Hes. by apply Hes in Hin as (_ & _ & H & _); eapply H. }
  split; [|by rewrite E1, rootsOf_app].
  split; rewrite ?E1, ?E2, ?E3, ?E4, ?E5, ?E6, ?E7; try done.
  - by rewrite C1, <- app_assoc.
  - by apply TI_plain.
  - by rewrite noCmd_running.
  - by apply noCmd_bounded.
  - by apply allok_app.
  - by apply tailFresh_app.
  - by rewrite rootsOf_app.
Qed.

Lemma sameDom_tick mk n : sameDom mk (Mkfile (mk_targets mk) (mk_first mk) (mk_dir mk) n).
Proof. intros t. done. Qed.
Lemma sameDom_inval mk : sameDom mk (invalidateTimeStamps mk).
Proof. intros t. cbn. rewrite lookup_fmap. by destruct (mk_targets mk !! t) eqn:E; cbn; rewrite ?E, ?fmap_is_Some. Qed.
Lemma passFresh_inval r mk evs : passFresh (Pass r (invalidateTimeStamps mk) evs).
Proof.
  intros t b H. cbn in H. rewrite lookup_fmap in H. apply fmap_Some in H as (b' & _ & ->). done.
Qed.

(** A pass is over. *)
Lemma pass_over pre r mk0 evs s : CI pre r mk0 evs s -> GI o r mk0 (e_mk s) (e_g s) None (jt (e_jobs s)) evs ->
  e_jobs s = [] -> allExecuting (e_g s) -> (e_allok s = false -> o_keep o = true) ->
  passes (e_log s) = passes pre ++ [Pass r mk0 evs] /\ prevOk (e_log s).
Proof.
  intros C G Hj Ha Hok. pose proof C as [C1 C2 C3 C4 C5 C6 C7 C8 C9 C10 C11 C12].
  assert (noRoot evs) as Hn by apply C3.
  assert (passes (e_log s) = passes pre ++ [Pass r mk0 evs]) as Hp by (rewrite C1; by apply passes_split).
  split; [done|]. intros p. rewrite Hp. intros [Hin|Hin%elem_of_list_singleton]%elem_of_app; [by apply C2|]. subst p.
  split_and!.
  - apply C3.
  - intros Hac x Hx. rewrite Hj in G. by eapply GI_done.
  - intros Hk t Hf. assert (e_allok s = false) as Hfalse; [|apply Hok in Hfalse; congruence].
    apply C10. exists t. rewrite C1. apply elem_of_app. right. by right.
  - split; [|by intros t ?%elem_of_nil]. cbn. rewrite Hj in C4. eapply TI_mono; [|exact C4].
    intros t st (j & Hin%elem_of_nil & _). done.
Qed.

Lemma startProcesses_spec pre r mk0 evs s ch s' : CI pre r mk0 evs s -> e_end s = None ->
  (if e_aborted s then AB0 s /\ waitOk s else NA r mk0 evs s) -> (ch_launch ch = false -> LF) ->
  startProcesses xp prep kind w o ch s = Some s' -> Good s'.
Proof.
  intros C He HA Hlf H. unfold startProcesses in H.
  destruct (e_aborted s) eqn:Eab; cbn [orb] in H.
  { injection H as <-. left. split; [done|]. right. exists pre, r, mk0, evs. rewrite Eab. done. }
  pose proof HA as [N1 N2 N3 N4 N5 N6 N7 N8 N9 N10].
  destruct (bool_decide (e_acquiring s = AIdle)) eqn:Eaq; cbn [negb orb] in H.
  2: { injection H as <-. apply bool_decide_eq_false in Eaq. left. split; [done|]. right. exists pre, r, mk0, evs. rewrite Eab.
       split; [done|]. split; [done|]. intros _ ?. done. }
  apply bool_decide_eq_true in Eaq.
  pose proof (jobs_count s (ci_exec _ _ _ _ _ C)) as Hcnt.
  destruct (isNil (e_avail s)) eqn:Eav.
  { injection H as <-. apply isNil_true in Eav. left. split; [done|]. right. exists pre, r, mk0, evs. rewrite Eab.
    split; [done|]. split; [done|]. intros _ _ Hj. rewrite Eav, Hj in Hcnt. cbn in Hcnt. lia. }
  apply isNil_false in Eav.
  assert (e_next s = None) as Enx.
  { destruct (e_next s) eqn:E; [|done]. exfalso. by apply N3; [eauto|]. }
  rewrite Enx in H, N1. clear N3 N4 N5.
  pose proof (findNextTarget_spec w o xp (S (S (size (g_nodes (e_g s))))) (e_mk s) (e_g s) [] (gi_wf _ _ _ _ _ _ _ _ N1)) as Hfn.
  destruct (findNextTarget xp w o _ (e_mk s) (e_g s) []) as [[[[next mk] g] log]| |c| |] eqn:Ef; try (exfalso; apply Hfn; lia).
  2: { injection H as <-. right. cbn. split; [eauto|]. split; [eapply LI_ext; [by eapply CI_LI|done]|].
       apply EB_exception; [done|intros ?%(ci_allok _ _ _ _ _ C); auto|]. right. apply Hfn. lia. }
  destruct Hfn as (D & g1 & es & E & P & W & Hr); [lia|]. cbn [app] in E. subst log.
  destruct (GI_prunes w _ _ _ (e_mk s) _ _ _ _ _ P evs N1 (ci_ji _ _ _ _ _ C) eq_refl) as [G1 J1].
  pose proof (prunes_events _ _ _ P) as Hev.
  set (s1 := addLog es _) in H.
  destruct (CI_prune _ _ _ _ es s s1 C J1 Hev) as [C1 R1]; try done.
  assert (noneRunning o s1 = true <-> e_jobs s = []) as Hnr.
  { unfold noneRunning. cbn. rewrite Nat.eqb_eq. rewrite <- Hcnt. rewrite <- length_zero_iff_nil. lia. }
  assert (e_acq s = pred (length (e_jobs s))) as Hacq by (rewrite N6, pend_idle by done; lia).
  destruct next as [t|].
  - destruct Hr as (Hl & Hs & Hu & (b & Hb & Hbc) & ->).
    pose proof (GI_choose _ _ _ _ _ _ _ _ G1 Hl Hs Hu) as G2. apply (GI_mk _ _ _ _ _ _ _ _ _ D) in G2.
    destruct (noneRunning o s1) eqn:En.
    + pose proof (proj1 Hnr eq_refl) as Hj. eapply buildNextTarget_spec; [|exact Hlf|exact H].
      split; try done.
      * cbn. naive_solver.
      * cbn. rewrite Hacq, Hj. done.
      * cbn. intros x Hx. apply D. auto.
      * by rewrite R1.
    + assert (e_jobs s <> []) as Hj by (intros Hj; apply Hnr in Hj; congruence).
      injection H as <-. left. split; [done|]. right. exists pre, r, mk0, (evs ++ es). cbn. rewrite Eab.
      destruct C1 as [K1 K2 K3 K4 K5 K6 K7 K8 K9 K10 K11 K12].
      assert (length (e_jobs s) <> 0) as Hlen by (intros ?%length_zero_iff_nil; done).
      split; [|split].
      * split; try done. cbn -[decide]. cbn -[decide] in K8. rewrite Eaq, decide_False in K8 by done. rewrite decide_True by done. lia.
      * split; try done; cbn.
        -- intros t' b' [= <-]. naive_solver.
        -- rewrite pend_busy by done. lia.
        -- intros x Hx. apply D. auto.
        -- unfold s1 in R1. cbn in R1. by rewrite R1.
      * by intros _ ?.
  - destruct Hr as [-> Hall]. apply (GI_mk _ _ _ _ _ _ _ _ _ D) in G1.
    destruct (noneRunning o s1) eqn:En.
    + pose proof (proj1 Hnr eq_refl) as Hj.
      destruct (pass_over _ _ _ _ _ C1 G1 Hj Hall N10) as [Hps Hprev].
      destruct (e_pending s1) as [|[t|] pending] eqn:Epe; cbn in Epe.
      * injection H as <-. right. cbn [finishBuild ended e_end]. split; [eauto|].
        split; [eapply LI_ext; [by eapply CI_LI|done]|].
        apply EB_done; try done.
        2: { pose proof (ci_run _ _ _ _ _ C1) as Hrn. change (e_jobs s1) with (e_jobs s) in Hrn. rewrite Hj in Hrn. symmetry in Hrn. by apply Permutation_nil in Hrn. }
        -- cbn. destruct (e_allok s) eqn:Eok; [done|]. by rewrite N10.
        -- cbn. pose proof (ci_net _ _ _ _ _ C1) as Hnet. cbn in Hnet. rewrite Hnet, Eaq, Hacq, Hj. done.
        -- change (rootsOf (e_log s1) = roots). by rewrite R1, <- N9, Epe, app_nil_r.
        -- intros p Hp. by apply Hprev.
        -- apply (ci_allok _ _ _ _ _ C1).
      * (* the next root *)
        assert (is_Some (mk_targets mk !! t)) as Ht.
        { apply D, N8. rewrite Epe. by left. }
        assert (is_Some (mk_targets (invalidateTimeStamps mk) !! t)) as Ht' by by apply sameDom_inval.
        unfold newRoot in H. cbn -[buildGraph invalidateTimeStamps] in H.
        match type of H with context [buildGraph ?sn ?m ?gg ?x] =>
          pose proof (buildGraph_spec sn m gg x eq_refl eq_refl Ht') as Hb; destruct (buildGraph sn m gg x) as [g'| |c| |]; try done
        end.
        2: { destruct Hb as [-> Hm]. cbn in H. injection H as <-. right. cbn. split; [eauto|].
             split; [eapply LI_ext; [by eapply CI_LI|done]|]. eapply EB_missing; [done|exact Hm|..].
             - assert (rootsOf (e_log s1) ++ Some t :: pending = roots) as Hx by (by rewrite R1, <- N9, Epe). exact Hx.
             - intros p Hp. by apply Hprev.
             - intros ?%(ci_allok _ _ _ _ _ C1). auto.
             - pose proof (ci_run _ _ _ _ _ C1) as Hrn. change (e_jobs s1) with (e_jobs s) in Hrn. rewrite Hj in Hrn. symmetry in Hrn. by apply Permutation_nil in Hrn.
             - cbn. pose proof (ci_net _ _ _ _ _ C1) as Hnet. cbn in Hnet. rewrite Hnet, Eaq, Hacq, Hj. done. }
        destruct Hb as [Hb _]. cbn -[invalidateTimeStamps] in H. rewrite He in H. injection H as <-.
        left. split; [done|]. right. exists (e_log s1), t, (invalidateTimeStamps mk), [].
        cbn -[invalidateTimeStamps]. rewrite Eab.
        destruct (GI_new w o _ _ _ (Mkfile (mk_targets (invalidateTimeStamps mk)) (mk_first (invalidateTimeStamps mk)) (mk_dir (invalidateTimeStamps mk)) (S (mk_tick (invalidateTimeStamps mk)))) _ Hb) as [G2 J2]; [by apply sameDom_tick|].
        assert (passes (e_log s1 ++ [LRoot t (invalidateTimeStamps mk)]) = passes (e_log s1) ++ [Pass t (invalidateTimeStamps mk) []]) as Hps2
          by by rewrite passes_snoc.
        assert (rootsOf (e_log s1 ++ [LRoot t (invalidateTimeStamps mk)]) = rootsOf (e_log s1) ++ [Some t]) as Hro2.
        { unfold rootsOf. by rewrite Hps2, map_app. }
        assert (Forall (fun e => not (cmdEvent e)) [LRoot t (invalidateTimeStamps mk)]) as Hnc by (constructor; [by intros []|constructor]).
        assert ((rootsOf (e_log s1) ++ [Some t]) ++ pending = roots) as Hroots by by rewrite R1, <- app_assoc, <- N9, Epe.
        destruct C1 as [K1 K2 K3 K4 K5 K6 K7 K8 K9 K10 K11 K12].
        split; [|split].
        -- split; cbn -[invalidateTimeStamps]; rewrite ?Hj; try done.
           ++ apply TI_nil.
           ++ rewrite <- K5. cbn. by rewrite Hj.
           ++ change (cmdsRunning (e_log s1 ++ [LRoot t (invalidateTimeStamps mk)]) ≡ₚ []). rewrite noCmd_running, K6 by done. cbn. by rewrite Hj.
           ++ by apply (noCmd_bounded _ (e_log s1)).
           ++ by intros j ?%elem_of_nil.
           ++ apply (allok_app (e_log s1)); [done|]. by intros x ?%elem_of_list_singleton.
           ++ change (tailFresh (e_log s1 ++ [LRoot t (invalidateTimeStamps mk)])). intros p. rewrite Hps2.
              destruct (passes (e_log s1)) as [|q l] eqn:Eq; [by intros ?%elem_of_nil|]. cbn [tail app].
              intros [Hp|Hp%elem_of_list_singleton]%elem_of_app.
              ** apply K11. by rewrite Eq.
              ** subst p. apply passFresh_inval.
           ++ change (rootsOf (e_log s1 ++ [LRoot t (invalidateTimeStamps mk)]) `prefix_of` roots). rewrite Hro2, <- Hroots. by eexists.
        -- split; cbn -[invalidateTimeStamps]; rewrite ?Hj; try done.
           ++ rewrite Eaq. by split; [intros []|].
           ++ by rewrite pend_idle, Hacq, Hj by done.
           ++ by intros j ?%elem_of_nil.
           ++ intros x Hx. apply (sameDom_inval mk), D, N8. rewrite Epe. by right.
           ++ change (rootsOf (e_log s1 ++ [LRoot t (invalidateTimeStamps mk)]) ++ pending = roots). by rewrite Hro2.
        -- intros ?. cbn in *. lia.
      * injection H as <-. right. cbn. split; [eauto|]. split; [eapply LI_ext; [by eapply CI_LI|done]|].
        apply EB_crash; [done|]. left. rewrite <- N9, Epe. apply elem_of_app. right. by left.
    + assert (e_jobs s <> []) as Hj by (intros Hj; apply Hnr in Hj; congruence).
      injection H as <-. left. split; [done|]. right. exists pre, r, mk0, (evs ++ es). cbn. rewrite Eab.
      split; [done|]. split; [|by intros _ _].
      split; try done; cbn.
      * rewrite Eaq. by split; [intros []|].
      * intros x Hx. apply D. auto.
      * unfold s1 in R1. cbn in R1. by rewrite R1.
Qed.

(** *** A process has ended *)
Lemma jt_perm js js' : js ≡ₚ js' -> jt js ≡ₚ jt js'.
Proof. intros H. unfold jt. by rewrite H. Qed.
Lemma elem_jt js j : j ∈ js -> j_target j ∈ jt js.
Proof. intros H. apply elem_of_list_In, in_map, elem_of_list_In, H. Qed.
Lemma dropped_in k js j : j ∈ dropped k js <-> j ∈ js /\ j_exec j <> k.
Proof.
  unfold dropped. rewrite elem_of_list_In, filter_In, <- elem_of_list_In, negb_true_iff, Nat.eqb_neq. done.
Qed.
Lemma replaced_in j js i : i ∈ replaced j js -> i = j \/ i ∈ js /\ j_exec i <> j_exec j.
Proof.
  unfold replaced. rewrite elem_of_list_In, in_map_iff. intros (i' & <- & H%elem_of_list_In).
  destruct (Nat.eqb_spec (j_exec i') (j_exec j)); auto.
Qed.
Lemma replaced_self j j' js : j' ∈ js -> j_exec j' = j_exec j -> j ∈ replaced j js.
Proof.
  intros H E. unfold replaced. apply elem_of_list_In, in_map_iff. exists j'. rewrite E, Nat.eqb_refl.
  split; [done|by apply elem_of_list_In].
Qed.
Lemma replaced_other j i js : i ∈ js -> j_exec i <> j_exec j -> i ∈ replaced j js.
Proof.
  intros H E. unfold replaced. apply elem_of_list_In, in_map_iff. exists i. apply Nat.eqb_neq in E as ->.
  split; [done|by apply elem_of_list_In].
Qed.

(** What does not depend on the end of the process. *)
Lemma waited_app log js js' l :
  waited log js -> (exists t, LEnd t true ∈ log) ->
  (forall t j, j ∈ js -> j_target j = t -> procRunning j = true ->
      (exists c code, LExit t c code ∈ l) \/ exists j', j' ∈ js' /\ j_target j' = t /\ procRunning j' = true) ->
  (forall t, LEnd t true ∉ l) ->
  waited (log ++ l) js'.
Proof.
  intros H [y Hy] Hj Hnl pre x post E Hfirst t Ht.
  apply split_tail in E as (post' & -> & E); [|apply Hnl].
  destruct (H _ _ _ E Hfirst t Ht) as [(c & code & Hc)|(j & Hjs & Htj & Hr)].
  - left. exists c, code. apply elem_of_app. by left.
  - destruct (Hj t j Hjs Htj Hr) as [(c & code & Hin)|?]; [|by right]. left. exists c, code. apply elem_of_app. by right.
Qed.

Lemma addLog_nil s : addLog [] s = s.
Proof. destruct s. unfold addLog, set. cbn. by rewrite app_nil_r. Qed.

Lemma processExit_spec pre r mk0 evs s k code ch j s' : CI pre r mk0 evs s -> e_end s = None ->
  (if e_aborted s then AB0 s /\ waitOk s else NA r mk0 evs s) -> (ch_launch ch = false -> LF) ->
  jobOf k s = Some j -> j_state j = JWatched ->
  processExit kind o k code ch j s = Some s' -> Good s'.
Proof.
  intros C He HA Hlf Hj Hst H. pose proof C as [C1 C2 C3 C4 C5 C6 C7 C8 C9 C10 C11 C12].
  apply jobOf_spec in Hj as Hj'. destruct Hj' as [Hin Hk].
  pose proof (exec_nodup s C5) as Hnd.
  unfold processExit in H. destruct (C9 j Hin) as (c & rest & Hcs & Hkc). rewrite Hcs in H.
  set (t := j_target j) in *. rewrite (effective_seen kind c code Hkc) in H.
  pose proof (dropped_perm k _ j Hnd Hin Hk) as Hperm.
  pose proof (jt_perm _ _ Hperm) as Hjt. change (jt (j :: dropped k (e_jobs s))) with (t :: jt (dropped k (e_jobs s))) in Hjt.
  assert (t ∈ jt (e_jobs s)) as Ht by by apply elem_jt.
  assert (map j_exec (e_jobs s) ≡ₚ k :: map j_exec (dropped k (e_jobs s))) as Hex by (pose proof (Permutation_map j_exec Hperm) as Hex; cbn in Hex; by rewrite Hk in Hex).
  pose proof (proj1 (ji_jobs _ _ _ _ _ _ C3 t) Ht) as [Hstd Hndw].
  assert (forall x st, x <> t -> jobP (e_jobs s) x st -> jobP (dropped k (e_jobs s)) x st) as Hother.
  { intros x st Hne (i & Hi & Hix & ->). exists i. split; [|done]. apply dropped_in. split; [done|]. intros Hik.
    assert (i = j) as ->; [|done]. pose proof (jobOf_unique s i Hnd Hi) as Hu. rewrite Hik, Hj in Hu. by injection Hu. }
  assert (forall st, jobP (e_jobs s) t st -> st = Running (c :: rest)) as Hself.
  { intros st (i & Hi & Hit & ->). assert (i = j) as ->; [|by rewrite Hcs].
    pose proof (ji_nd _ _ _ _ _ _ C3) as Hndt. rewrite Hjt in Hndt. apply NoDup_cons in Hndt as [Hndt _].
    rewrite Hperm in Hi. apply elem_of_cons in Hi as [->|Hi]; [done|]. exfalso. apply Hndt. rewrite <- Hit. by apply elem_jt. }
  assert (forall l st, ranTo kind t rest l st ->
    bounded (o_jobs o) ((e_log s ++ [LExit t c code]) ++ l) /\
    cmdsRunning ((e_log s ++ [LExit t c code]) ++ l)
      ≡ₚ match st with Running _ => t :: jt (dropped k (e_jobs s)) | _ => jt (dropped k (e_jobs s)) end) as Hrun.
  { intros l st Hr.
    assert (cmdsRunning (e_log s ++ [LExit t c code]) ≡ₚ jt (dropped k (e_jobs s))) as Hsame.
    { rewrite cmdsRunning_snoc. apply (Permutation_cons_inv (a := t)). rewrite <- Hjt, <- C6. symmetry.
      apply removeOne_perm. by rewrite C6. }
    destruct (ranTo_bounded kind (o_jobs o) t rest l st Hr (e_log s ++ [LExit t c code])) as [B1 B2].
    - by apply bounded_exit.
    - rewrite Hsame. pose proof (ji_nd _ _ _ _ _ _ C3) as Hndt. rewrite Hjt in Hndt. by apply NoDup_cons in Hndt as [Hndt _].
    - rewrite Hsame. pose proof (jobs_count s C5) as Hc. apply Permutation_length in Hperm. cbn in Hperm.
      unfold jt. rewrite map_length. lia.
    - split; [done|]. rewrite B2. destruct st; by rewrite Hsame. }
  assert (forall l, Forall (fun e => aboutCmds t e = true) l -> Forall (fun e => aboutCmds t e = true) (LExit t c code :: l)) as Habout.
  { intros l Hl. constructor; [|done]. cbn. by apply bool_decide_eq_true. }
  assert (forall l, Forall cmdEvent l -> noRoot (LExit t c code :: l)) as Hnr.
  { intros l Hl. apply noRoot_cmds. by constructor. }
  assert (forall l, Forall cmdEvent l -> (e_allok s = false <-> exists t0, LEnd t0 true ∈ (e_log s ++ [LExit t c code]) ++ l)) as Hall.
  { intros l Hl. rewrite <- app_assoc. apply allok_app; [done|]. intros x Hx. eapply no_LEnd; [|exact Hx]. by constructor. }
  assert (forall l, (e_log s ++ [LExit t c code]) ++ l = pre ++ LRoot r mk0 :: evs ++ LExit t c code :: l) as Hlog.
  { intros l. rewrite C1, <- !app_assoc. done. }
  assert (forall l, Forall cmdEvent l -> JI w o r mk0 (t :: jt (dropped k (e_jobs s))) (evs ++ LExit t c code :: l)) as HJ.
  { intros l Hl. apply JI_cmds; [by constructor|]. by apply (JI_jt _ _ _ _ _ _ _ Hjt). }
  (* the target finishes *)
  assert (forall f l, ranTo kind t rest l (Finished f) /\ (seenCode kind c code <= c_max c)%N \/
      l = [] /\ f = true /\ (c_max c < seenCode kind c code)%N ->
    MI pre r mk0 (evs ++ LExit t c code :: l) k t f (addLog l (addLog [LExit t c code] s))) as HMI.
  { intros f l Hl.
    assert (Forall (fun e => aboutCmds t e = true) l) as Hab'.
    { destruct Hl as [[Hl _]|[-> _]]; [by eapply ranTo_about|constructor]. }
    pose proof (about_cmdEvent t l Hab') as Hcl.
    assert (bounded (o_jobs o) ((e_log s ++ [LExit t c code]) ++ l) /\
      cmdsRunning ((e_log s ++ [LExit t c code]) ++ l) ≡ₚ jt (dropped k (e_jobs s))) as [B1 B2].
    { destruct Hl as [[Hl _]|[-> _]]; [by apply (Hrun l _ Hl)|]. destruct rest as [|c' rest'].
      - by apply (Hrun [] (Finished false)); constructor.
      - by apply (Hrun [] (Stopped (c' :: rest'))); constructor. }
    split; cbn; try done.
    - by apply HJ.
    - rewrite <- app_assoc. eapply TI_finish; [exact C4|by apply Habout|done|done|done|].
      intros cs tr st Hr Hp. apply Hself in Hp as ->. destruct Hl as [[Hl Hle]|(-> & -> & Hlt)].
      + by eapply ranTo_go.
      + by eapply ranTo_stop.
    - by rewrite <- C5, Hex.
    - intros i Hi. apply dropped_in in Hi as [Hi _]. auto.
    - by apply Hall.
    - rewrite <- app_assoc. apply tailFresh_app; [by apply Hnr|done].
    - rewrite <- app_assoc. rewrite rootsOf_app; [done|by apply Hnr]. }
  assert (forall f l, ranTo kind t rest l (Finished f) /\ (seenCode kind c code <= c_max c)%N \/
      l = [] /\ f = true /\ (c_max c < seenCode kind c code)%N ->
     let s2 := childFinished o k t f (addLog l (addLog [LExit t c code] s)) in
     Good (match e_end s2, e_wait s with
              | None, Some (WProc k') =>
                if f && negb (o_keep o) then s2
                else if Nat.eqb k k' then waitFrom o (o_jobs o - S k') (S k') s2 else s2
              | _, _ => s2
              end)) as HDone.
  { intros f l Hl. pose proof (HMI f l Hl) as M.
    assert (Forall cmdEvent l) as Hcl.
    { destruct Hl as [[Hl _]|[-> _]]; [by eapply about_cmdEvent, ranTo_about|constructor]. }
    destruct (childFinished_spec _ _ _ _ _ _ _ _ (e_next s) M He) as [(E1 & E2 & E3)|[(E1 & E2 & E2' & E3 & E4 & E5 & E6)|(g2 & E1 & E2 & E3 & E4 & E5)]].
    - cbn. intros Ha. rewrite Ha in HA. destruct HA as [[A1 A2 A3 A4 A5] _]. split_and!; try done.
      rewrite <- app_assoc. eapply waited_app; [exact A5|by apply C10| |].
      + intros x i Hi Hx Hr. rewrite Hperm in Hi. apply elem_of_cons in Hi as [->|Hi].
        * left. exists c, code. rewrite <- Hx. by left.
        * right. exists i. done.
      + intros x Hx. eapply no_LEnd; [|exact Hx]. by constructor.
    - cbn. intros Ha. rewrite Ha in HA. destruct HA as [N1 N2 N3 N4 N5 N6 N7 N8 N9 N10]. split_and!; try done.
      + apply GI_cmds; [by constructor|]. by apply (GI_jt _ _ _ _ _ _ _ _ _ Hjt).
      + intros i Hi. apply dropped_in in Hi as [Hi _]. auto.
    - cbv zeta. destruct E1 as [e Ee]. rewrite Ee. right. rewrite Ee. split_and!; [eauto|done|done].
    - cbv zeta. rewrite E1. rewrite E5, E2'. cbn [andb negb].
      assert (match e_wait s with Some (WProc _) | _ => childFinished o k t true (addLog l (addLog [LExit t c code] s)) end
        = childFinished o k t true (addLog l (addLog [LExit t c code] s))) as -> by by destruct (e_wait s) as [[]|].
      subst f. left. split; [done|]. right. exists pre, r, mk0, ((evs ++ LExit t c code :: l) ++ [LEnd t true]).
      rewrite E2. done.
    - cbv zeta. assert (e_end (childFinished o k t f (addLog l (addLog [LExit t c code] s))) = None) as Een by by rewrite E1.
      rewrite Een. destruct (e_aborted s) eqn:Eab.
      + destruct HA as [A W]. specialize (E4 Eab).
        assert (f = false) as ->.
        { destruct f; [|done]. specialize (E3 eq_refl). pose proof (ab_keep _ A). congruence. }
        cbn [andb].
        assert (e_jobs (childFinished o k t false (addLog l (addLog [LExit t c code] s))) = dropped k (e_jobs s)) as Ej2 by by rewrite E1.
        assert (e_wait (childFinished o k t false (addLog l (addLog [LExit t c code] s))) = e_wait s) as Ew2 by by rewrite E1.
        assert (e_aborted (childFinished o k t false (addLog l (addLog [LExit t c code] s))) = true) as Ea2 by by rewrite E1.
        set (s2 := childFinished o k t false (addLog l (addLog [LExit t c code] s))) in *.
        destruct W as [(k' & jx & W1 & W2 & W3 & W4)|(W1 & W2 & W3)].
        * rewrite W1. destruct (Nat.eqb_spec k k') as [<-|Hne].
          -- destruct (waitFrom_spec _ _ _ _ (o_jobs o - S k) (S k) s2 E2 E4 Een Ea2) as [(V1 & V2 & V3 & V4 & V5)|V].
             ++ pose proof (exec_lt s j C5 Hin). lia.
             ++ rewrite Ej2. intros i [Hi Hik]%dropped_in Hlt. apply W4; [done|lia].
             ++ left. split; [done|]. right. do 4 eexists. split; [exact V3|]. rewrite V2. done.
             ++ by right.
          -- left. split; [done|]. right. do 4 eexists. split; [exact E2|]. rewrite Ea2. split; [done|]. left.
             exists k', jx. rewrite Ew2. split; [done|]. apply jobOf_spec in W2 as [Hx1 Hx2].
             split_and!; [|done|].
             ++ rewrite <- Hx2. apply jobOf_unique; [by eapply exec_nodup, E2|]. rewrite Ej2. apply dropped_in. split; [done|congruence].
             ++ rewrite Ej2. intros i [Hi Hik]%dropped_in Hlt. by apply W4.
        * exfalso. specialize (W3 j Hin). unfold procRunning in W3. by rewrite Hst in W3.
      + pose proof HA as [N1 N2 N3 N4 N5 N6 N7 N8 N9 N10]. rewrite N2.
        left. split; [done|]. right. do 4 eexists. split; [exact E2|]. rewrite E1. cbn. rewrite Eab.
        split; [|intros ?; cbn in *; lia]. specialize (E5 Eab).
        apply Permutation_length in Hperm. cbn in Hperm.
        split; cbn; try done.
        * intros _ ?. by eapply app_cons_not_nil.
        * unfold pend in *. cbn. rewrite N6, Hperm. destruct (decide _); lia.
        * intros i Hi. apply dropped_in in Hi as [Hi _]. auto.
        * rewrite rootsOf_app by apply noRoot_end. rewrite <- app_assoc, rootsOf_app by by apply Hnr. done.
        * destruct f; [auto|done]. }
  destruct (c_max c <? seenCode kind c code)%N eqn:Ecmp.
  - apply N.ltb_lt in Ecmp. destruct (ch_codes ch); [|done]. injection H as <-.
    specialize (HDone true [] (or_intror (conj eq_refl (conj eq_refl Ecmp)))). cbv zeta in HDone.
    rewrite addLog_nil in HDone.
    assert (forall s2 : est, match e_end s2, e_wait s with
              | None, Some (WProc k') =>
                if true && negb (o_keep o) then s2
                else if Nat.eqb k k' then waitFrom o (o_jobs o - S k') (S k') s2 else s2
              | _, _ => s2
              end = s2) as Hs2.
    { intros s2. destruct (e_end s2); [done|]. destruct (e_aborted s).
      - destruct HA as [A _]. rewrite (ab_keep _ A). by destruct (e_wait s) as [[]|].
      - by rewrite (na_wait _ _ _ _ HA). }
    by rewrite Hs2 in HDone.
  - apply N.ltb_ge in Ecmp. destruct (runCmds kind t rest (ch_codes ch) (ch_launch ch)) as [res|] eqn:Er; [|done].
    pose proof (runCmds_spec kind t rest _ _ _ Er) as Hres. destruct res as [f l|rest' l|l].
    + injection H as <-. exact (HDone f l (or_introl (conj Hres Ecmp))).
    + destruct Hres as [Hres Hrest].
      pose proof (ranTo_about kind _ _ _ _ Hres) as Hab'. pose proof (about_cmdEvent t l Hab') as Hcl.
      destruct (Hrun l _ Hres) as [B1 B2].
      assert (forall st s2, s2 = putJob (Job k t rest' st) (addLog l (addLog [LExit t c code] s)) ->
        CI pre r mk0 (evs ++ LExit t c code :: l) s2 /\ e_jobs s2 = replaced (Job k t rest' st) (e_jobs s)
        /\ rootsOf (e_log s2) = rootsOf (e_log s)
        /\ e_jobs s2 ≡ₚ Job k t rest' st :: dropped k (e_jobs s)
        /\ (AB0 s -> AB0 s2)) as Hput.
      { intros st s2 ->.
        assert (replaced (Job k t rest' st) (e_jobs s) ≡ₚ Job k t rest' st :: dropped k (e_jobs s)) as Hrp
          by by apply (replaced_perm (Job k t rest' st) j).
        assert (rootsOf ((e_log s ++ [LExit t c code]) ++ l) = rootsOf (e_log s)) as Hro.
        { rewrite <- app_assoc. rewrite rootsOf_app; [done|by apply Hnr]. }
        pose proof (jt_perm _ _ Hrp) as Hrj. change (jt (Job k t rest' st :: dropped k (e_jobs s))) with (t :: jt (dropped k (e_jobs s))) in Hrj.
        split_and!; [|done|done|done|].
        - split; cbn; change (map _ (e_jobs s)) with (replaced (Job k t rest' st) (e_jobs s)); try done.
          + apply (JI_jt _ _ _ _ (t :: jt (dropped k (e_jobs s)))); [by symmetry|]. by apply HJ.
          + eapply TI_extend; [exact C4|by apply Habout|done| |done| |].
            * intros x st0 Hne Hp. apply Hother in Hp as (i & Hi & Hp); [|done]. exists i. split; [|done].
              apply dropped_in in Hi as [Hi Hik]. by apply replaced_other.
            * intros cs tr st0 Hr Hp. apply Hself in Hp as ->. exists (Running rest'). split; [by eapply ranTo_go|].
              exists (Job k t rest' st). split; [|done]. by eapply replaced_self.
            * intros f (i & _ & _ & ?). done.
          + by rewrite replaced_exec.
          + by rewrite B2, Hrj.
          + intros i [->|[Hi _]]%replaced_in; [done|]. auto.
          + by apply Hall.
          + rewrite <- app_assoc. apply tailFresh_app; [by apply Hnr|done].
          + by rewrite Hro.
        - intros [A1 A2 A3 A4 A5]. split; cbn; try done. rewrite <- app_assoc.
          change (map _ (e_jobs s)) with (replaced (Job k t rest' st) (e_jobs s)).
          eapply waited_app; [exact A5|by apply C10| |].
          + intros x i Hi Hx Hr. rewrite Hperm in Hi. apply elem_of_cons in Hi as [->|Hi].
            * left. exists c, code. rewrite <- Hx. by left.
            * right. exists i. split; [|done]. apply dropped_in in Hi as [Hi Hik]. by apply replaced_other.
          + intros x Hx. eapply no_LEnd; [|exact Hx]. by constructor. }
      cbn [addLog] in H.
      change (e_wait (addLog [LExit t c code] s)) with (e_wait s) in H.
      destruct (match e_wait s with Some (WProc k') => Nat.eqb k k' | _ => false end) eqn:Ewt; injection H as <-.
      * destruct (Hput JUnwatched _ eq_refl) as (P1 & P2 & P3 & P4 & P5). set (s2 := putJob _ _) in *.
        destruct (e_aborted s) eqn:Eab; [|by rewrite (na_wait _ _ _ _ HA) in Ewt].
        destruct HA as [A [(k' & jx & W1 & W2 & W3 & W4)|(W1 & _)]]; [|by rewrite W1 in Ewt].
        rewrite W1 in Ewt. apply Nat.eqb_eq in Ewt as <-.
        destruct (waitFrom_spec _ _ _ _ (o_jobs o - S k) (S k) s2 P1 (P5 A) He Eab) as [(V1 & V2 & V3 & V4 & V5)|V].
        -- pose proof (exec_lt s j C5 Hin). lia.
        -- rewrite P2. intros i [->|[Hi Hik]]%replaced_in Hlt; [done|]. cbn in Hik. apply W4; [done|lia].
        -- left. split; [done|]. right. do 4 eexists. split; [exact V3|]. rewrite V2. done.
        -- by right.
      * destruct (Hput JWatched _ eq_refl) as (P1 & P2 & P3 & P4 & P5). set (s2 := putJob _ _) in *.
        left. split; [done|]. right. do 4 eexists. split; [exact P1|].
        change (e_aborted s2) with (e_aborted s). destruct (e_aborted s) eqn:Eab.
        -- destruct HA as [A W]. split; [by apply P5|].
           destruct W as [(k' & jx & W1 & W2 & W3 & W4)|(W1 & W2 & W3)].
           ++ rewrite W1 in Ewt. apply Nat.eqb_neq in Ewt. left. exists k', jx. split; [done|].
              apply jobOf_spec in W2 as [Hx1 Hx2]. split_and!; [|done|].
              ** rewrite <- Hx2. apply jobOf_unique; [by eapply exec_nodup, P1|]. rewrite P2. apply replaced_other; cbn; congruence.
              ** rewrite P2. intros i [->|[Hi Hik]]%replaced_in Hlt; [|by apply W4].
                 exfalso. cbn in Hlt. assert (procRunning j = false) as Hf by (apply W4; [done|lia]).
                 unfold procRunning in Hf. by rewrite Hst in Hf.
           ++ exfalso. specialize (W3 j Hin). unfold procRunning in W3. by rewrite Hst in W3.
        -- destruct HA as [N1 N2 N3 N4 N5 N6 N7 N8 N9 N10].
           assert (e_jobs s2 ≡ₚ Job k t rest' JWatched :: dropped k (e_jobs s)) as Hp2 by done.
           pose proof (jt_perm _ _ P4) as Hrj. change (jt (Job k t rest' JWatched :: dropped k (e_jobs s))) with (t :: jt (dropped k (e_jobs s))) in Hrj.
           split; [|intros _ _; rewrite P2; unfold replaced; destruct (e_jobs s); [by apply elem_of_nil in Hin|done]].
           split; try done.
           ++ apply (GI_jt _ _ _ _ _ _ (t :: jt (dropped k (e_jobs s)))); [by symmetry|].
              apply GI_cmds; [by constructor|]. by apply (GI_jt _ _ _ _ _ _ _ _ _ Hjt).
           ++ change (e_acq s2) with (e_acq s). change (pend s2) with (pend s). rewrite P2. unfold replaced. by rewrite map_length.
           ++ rewrite P2. intros i [->|[Hi Hik]]%replaced_in; [done|auto].
           ++ by rewrite P3.
    + injection H as <-. destruct Hres as [rest' Hres].
      pose proof (ranTo_about kind _ _ _ _ Hres) as Hab'. pose proof (about_cmdEvent t l Hab') as Hcl.
      destruct (Hrun l _ Hres) as [B1 B2].
      right. cbn. split; [eauto|]. split; [|apply EB_crash; [done|]; right; right; apply Hlf; eapply runCmds_fatal; exact Er].
      eapply (LI_intro pre r mk0 (evs ++ LExit t c code :: l) (jt (e_jobs s))); cbn.
      * apply Hlog.
      * done.
      * by apply (HJ l).
      * eapply TI_extend; [exact C4|by apply Habout|done| |done| |].
        -- intros x st Hne (i & Hi & <- & ->). split; [by apply elem_jt|done].
        -- intros cs tr st Hr Hp. apply Hself in Hp as ->. exists (Stopped rest'). split; [by eapply ranTo_go|done].
        -- intros f [_ Hf]. by eapply Hf.
      * intros x Hx. rewrite Hjt in Hx. by apply (ji_jobs _ _ _ _ _ _ (HJ l Hcl)) in Hx as [_ ?].
      * done.
      * rewrite <- app_assoc. rewrite rootsOf_app; [done|by apply Hnr].
      * rewrite <- app_assoc. apply tailFresh_app; [by apply Hnr|done].
Qed.

(** The state of a process changes without jom noticing. *)
Lemma gone_spec pre r mk0 evs s k j st : CI pre r mk0 evs s -> e_end s = None ->
  (if e_aborted s then AB0 s /\ waitOk s else NA r mk0 evs s /\ live s) ->
  jobOf k s = Some j -> procRunning (Job k (j_target j) (j_cmds j) st) = procRunning j ->
  Good (putJob (Job k (j_target j) (j_cmds j) st) s).
Proof.
  intros C He HA Hj Hr. pose proof C as [C1 C2 C3 C4 C5 C6 C7 C8 C9 C10 C11 C12].
  apply jobOf_spec in Hj as Hj'. destruct Hj' as [Hin Hk].
  set (j' := Job k (j_target j) (j_cmds j) st) in *.
  pose proof (exec_nodup s C5) as Hnd.
  pose proof (dropped_perm k _ j Hnd Hin Hk) as Hperm.
  assert (replaced j' (e_jobs s) ≡ₚ j' :: dropped k (e_jobs s)) as Hrp by by apply (replaced_perm j' j).
  assert (jt (replaced j' (e_jobs s)) ≡ₚ jt (e_jobs s)) as Hjt by (rewrite (jt_perm _ _ Hrp), (jt_perm _ _ Hperm); done).
  assert (forall i, i ∈ e_jobs s -> exists i', i' ∈ replaced j' (e_jobs s) /\ j_exec i' = j_exec i /\ j_target i' = j_target i
    /\ j_cmds i' = j_cmds i /\ procRunning i' = procRunning i) as Hto.
  { intros i Hi. destruct (decide (j_exec i = k)) as [Hik|Hik].
    - pose proof (jobOf_unique s i Hnd Hi) as Hu. rewrite Hik, Hj in Hu. injection Hu as <-. exists j'.
      split; [by eapply replaced_self|]. done.
    - exists i. split; [by apply replaced_other|done]. }
  assert (forall i, i ∈ replaced j' (e_jobs s) -> exists i', i' ∈ e_jobs s /\ j_exec i' = j_exec i /\ j_target i' = j_target i
    /\ j_cmds i' = j_cmds i /\ procRunning i' = procRunning i) as Hfrom.
  { intros i [->|[Hi _]]%replaced_in; [exists j|exists i]; done. }
  assert (CI pre r mk0 evs (putJob j' s)) as C'.
  { split; cbn; change (map _ (e_jobs s)) with (replaced j' (e_jobs s)); try done.
    - apply (JI_jt _ _ _ _ (jt (e_jobs s))); [by symmetry|done].
    - eapply TI_mono; [|exact C4]. intros x st0 (i & Hi & Hx & ->). destruct (Hto i Hi) as (i' & H1 & H2 & H3 & H4 & H5).
      exists i'. by rewrite H3, H4.
    - by rewrite replaced_exec.
    - by rewrite C6, Hjt.
    - intros i Hi. destruct (Hfrom i Hi) as (i' & H1 & H2 & H3 & <- & H5). auto. }
  left. split; [done|]. right. exists pre, r, mk0, evs. split; [done|]. change (e_aborted (putJob j' s)) with (e_aborted s).
  destruct (e_aborted s).
  - destruct HA as [[A1 A2 A3 A4 A5] W]. split.
    + split; try done. intros pre' x post E Hf y Hy. destruct (A5 pre' x post E Hf y Hy) as [?|(i & Hi & Hx & Hi')]; [by left|right].
      destruct (Hto i Hi) as (i' & H1 & H2 & H3 & H4 & H5). exists i'. split; [done|]. by rewrite H3, H5.
    + destruct W as [(k' & jx & W1 & W2 & W3 & W4)|(W1 & W2 & W3)].
      * left. apply jobOf_spec in W2 as [Hx1 Hx2]. destruct (Hto jx Hx1) as (i' & H1 & H2 & H3 & H4 & H5). exists k', i'.
        split_and!; [done| |by rewrite H5|].
        -- rewrite <- Hx2, <- H2. apply jobOf_unique; [by eapply exec_nodup, C'|done].
        -- intros i Hi Hlt. destruct (Hfrom i Hi) as (i2 & K1 & K2 & K3 & K4 & <-). apply W4; [done|lia].
      * right. split_and!; [done|done|]. intros i Hi. destruct (Hfrom i Hi) as (i2 & K1 & K2 & K3 & K4 & <-). auto.
  - destruct HA as [[N1 N2 N3 N4 N5 N6 N7 N8 N9 N10] L].
    assert (length (replaced j' (e_jobs s)) = length (e_jobs s)) as Hlen by (unfold replaced; by rewrite map_length).
    split.
    + split; try done.
      * apply (GI_jt _ _ _ _ _ _ (jt (e_jobs s))); [by symmetry|done].
      * change (e_acq s = length (replaced j' (e_jobs s)) + pend s - 1). by rewrite Hlen.
      * intros i Hi. destruct (Hfrom i Hi) as (i2 & K1 & K2 & K3 & K4 & <-). auto.
    + intros ? ? Hnil. change (replaced j' (e_jobs s) = []) in Hnil. rewrite Hnil in Hlen. destruct (e_jobs s); [|done].
      by apply elem_of_nil in Hin.
Qed.

(** *** One step *)
Definition choiceOf (e : event) : bool :=
  match e with EvStart ch | EvAcquired ch | EvExit _ _ ch => ch_launch ch | _ => true end.

Lemma findNextTarget_nil fuel mk g log : g_leaves g = [] ->
  findNextTarget xp w o (S fuel) mk g log = Ok (None, mk, g, log ++ []).
Proof.
  intros H. change (findNextTarget xp w o (S fuel) mk g log) with
    (match findAvailableTarget xp o w mk g with
    | Ok (None, mk1, g1, ups) => Ok (None, mk1, g1, log ++ map (fun p => LUpToDate (fst p) (snd p)) ups)
    | Ok (Some t, mk1, g1, ups) =>
      let log1 := log ++ map (fun p => LUpToDate (fst p) (snd p)) ups in
      let cmds := match mk_targets mk1 !! t with Some b => b_cmds b | None => [] end in
      if isNil cmds then findNextTarget xp w o fuel mk1 (removeLeaf t g1) (log1 ++ [LNoCmds t mk1])
      else if o_keep o && bool_decide (stateOf g1 t = Unbuildable)
      then findNextTarget xp w o fuel mk1 (removeLeaf t g1) (log1 ++ [LUnbuildable t])
      else Ok (Some t, mk1, g1, log1)
    | Throws => Throws
    | Exits c => Exits c
    | Diverges => Diverges
    | Crashes => Crashes
    end).
  unfold findAvailableTarget. by rewrite H.
Qed.

Lemma step_good s e s' : SInv s -> (choiceOf e = false -> LF) -> step xp prep kind w o s e = Some s' -> Good s'.
Proof.
  intros HI Hlf H. unfold step in H. destruct (e_end s) eqn:He; [done|].
  destruct HI as [F|(pre & r & mk0 & evs & C & HA)].
  - destruct F as (F1 & F2 & F3 & F4 & F5 & F6 & F7 & F8 & F9 & F10 & F11 & F12 & F13 & F14 & F15).
    assert (forall k, jobOf k s = None) as Hnoj by (intros k; unfold jobOf; by rewrite F2).
    destruct e as [ch| |ch|k code ch|k]; rewrite ?F8, ?Hnoj in H; try done.
    destruct (e_queue s) as [|q]; [done|]. unfold startProcesses in H. cbn in H. rewrite F7, F8 in H. cbn in H.
    destruct (isNil (e_avail s)) eqn:Eav; [apply isNil_true in Eav; rewrite F9 in Eav; destruct (o_jobs o); [lia|done]|].
    rewrite F3 in H. rewrite findNextTarget_nil in H by done. cbn in H.
    unfold noneRunning in H. cbn in H. rewrite F9, seq_length, Nat.eqb_refl, F6 in H. injection H as <-.
    right. cbn. split; [eauto|]. split.
    + split; cbn; rewrite ?F1; try done.
      * by intros p ?%elem_of_nil.
      * by intros p ?%elem_of_nil.
      * intros l Hl. apply prefix_nil_inv in Hl as ->. unfold cmdsRunning. cbn. split; [constructor|lia].
      * apply prefix_nil.
      * by intros p ?%elem_of_nil.
    + apply EB_done; cbn; rewrite ?F1, ?F10, ?F15; try done.
      * by intros p ?%elem_of_nil.
      * split; [done|]. by intros [t ?%elem_of_nil].
  - destruct e as [ch| |ch|k code ch|k].
    + destruct (e_queue s) as [|q]; [done|].
      eapply (startProcesses_spec pre r mk0 evs (s <| e_queue := q |>)); [by eapply CI_ext|done| |exact Hlf|exact H]. cbn.
      destruct (e_aborted s).
      * destruct HA as [A W]. split; [by eapply AB0_ext|by eapply waitOk_ext].
      * destruct HA as [[N1 N2 N3 N4 N5 N6 N7 N8 N9 N10] _]. split; done.
    + destruct (e_acquiring s) eqn:Eq; try done. injection H as <-. left. split; [done|]. right.
      exists pre, r, mk0, evs. cbn. split.
      * destruct C as [C1 C2 C3 C4 C5 C6 C7 C8 C9 C10 C11 C12]. split; try done. cbn -[decide].
        rewrite Eq in C8. rewrite C8. rewrite decide_True, decide_False by done. lia.
      * destruct (e_aborted s).
        -- destruct HA as [A W]. split; [by eapply AB0_ext|by eapply waitOk_ext].
        -- destruct HA as [[N1 N2 N3 N4 N5 N6 N7 N8 N9 N10] L]. split; [|by intros _ ?]. split; try done.
           ++ cbn. rewrite N3, Eq. done.
           ++ cbn. intros _. apply N4. by rewrite Eq.
           ++ rewrite (pend_busy s) in N6 by by rewrite Eq. rewrite pend_busy by done. exact N6.
    + destruct (e_acquiring s) eqn:Eq; try done.
      destruct (buildNextTarget _ _ _ _ _) as [s1|] eqn:Eb in H; [|done].
      assert (CI pre r mk0 evs (s <| e_acquiring := AIdle |>)) as C'.
      { destruct C as [C1 C2 C3 C4 C5 C6 C7 C8 C9 C10 C11 C12]. split; try done. cbn -[decide].
        rewrite Eq in C8. rewrite C8. by rewrite !decide_False by done. }
      destruct (e_aborted s) eqn:Eab.
      * unfold buildNextTarget in Eb. cbn in Eb. rewrite Eab in Eb. injection Eb as <-. cbn in H. rewrite He in H.
        destruct HA as [A [(k & j & W1 & W2 & W3 & W4)|(W1 & W2 & W3)]]; rewrite W1 in H; injection H as <-.
        -- left. split; [done|]. right. exists pre, r, mk0, evs. cbn. rewrite Eab. split; [done|].
           split; [by eapply AB0_ext|]. left. by exists k, j.
        -- right. cbn. split; [eauto|]. split; [eapply LI_ext; [by eapply CI_LI|done]|].
           destruct A as [A1 A2 A3 A4 A5]. apply EB_failed; try done. by apply (ci_allok _ _ _ _ _ C).
      * destruct HA as [[N1 N2 N3 N4 N5 N6 N7 N8 N9 N10] L]. rewrite N2 in H.
        assert (s' = s1) as -> by (destruct (e_end s1); congruence).
        destruct (e_next s) as [t|] eqn:En; [|exfalso; destruct N3 as [_ N3]; by destruct N3; [rewrite Eq|]].
        eapply (buildNextTarget_spec pre r mk0 evs t); [|exact Hlf|exact Eb].
        split; try done.
        -- cbn. apply N4. by rewrite Eq.
        -- cbn. intros b Hb. by eapply N5.
        -- cbn. rewrite N6, pend_busy by by rewrite Eq. lia.
    + destruct (jobOf k s) as [j|] eqn:Ej; [|done]. destruct (decide (j_state j = JWatched)) as [Hst|]; [|done].
      destruct (code =? stillActive)%N.
      { injection H as <-. eapply gone_spec; try done. unfold procRunning. by rewrite Hst. }
      eapply (processExit_spec pre r mk0 evs); try done. destruct (e_aborted s); [done|]. by destruct HA.
    + destruct (jobOf k s) as [j|] eqn:Ej; [|done].
      destruct (j_state j) eqn:Est; try done; injection H as <-; eapply gone_spec; try done; unfold procRunning; by rewrite Est.
Qed.

Lemma run_good es : forall s s', SInv s -> e_end s = None -> ((exists e, e ∈ es /\ choiceOf e = false) -> LF) ->
  run xp prep kind w o s es = Some s' -> Good s'.
Proof.
  induction es as [|e es IH]; intros s s' HI He Hlf H; cbn in H.
  - injection H as <-. by left.
  - destruct (step xp prep kind w o s e) as [s1|] eqn:Es; [|done].
    assert (choiceOf e = false -> LF) as Hlf1. { intros Hc. apply Hlf. exists e. split; [by left|done]. }
    destruct (step_good s e s1 HI Hlf1 Es) as [[He1 HI1]|[He1 G]].
    + apply (IH s1); try done. intros (e' & He' & Hc). apply Hlf. exists e'. split; [by right|done].
    + destruct es as [|e2 es]; cbn in H; [injection H as <-; by right|].
      destruct He1 as [x Hx]. unfold step in H. by rewrite Hx in H.
Qed.
End Inv.

Lemma find_in mk n t : mk_find mk n = Some t -> is_Some (mk_targets mk !! t).
Proof.
  unfold mk_find. cbv zeta. intros H. repeat case_match; simplify_eq; eauto.
Qed.

Lemma apply_good kind w o mk names s0 :
  0 < o_jobs o -> (forall t, mk_first mk = Some t -> is_Some (mk_targets mk !! t)) ->
  apply w o mk names = Ok s0 ->
  SInv kind w o (requested mk names) s0 /\ e_end s0 = None.
Proof.
  intros Hj Hf H. unfold apply in H.
  assert (forall t rest, is_Some (mk_targets mk !! t) -> (forall x, Some x ∈ rest -> is_Some (mk_targets mk !! x)) ->
    match buildGraph (w (mk_tick mk)) mk emptyGraph t with
    | Ok g => forall q, q <> 0 -> SInv kind w o (Some t :: rest) ((newRoot w t (initState o mk rest 1)) <| e_queue := q |>)
               /\ e_end (newRoot w t (initState o mk rest 1)) = None
    | _ => is_Some (e_end (newRoot w t (initState o mk rest 1)))
    end) as Hnew.
  { intros t rest Ht Hrest. pose proof (buildGraph_spec (w (mk_tick mk)) mk emptyGraph t eq_refl eq_refl Ht) as Hb.
    unfold newRoot. cbn -[buildGraph initState] in *.
    change (buildGraph (w (mk_tick (e_mk (initState o mk rest 1)))) (e_mk (initState o mk rest 1)) (e_g (initState o mk rest 1)) t)
      with (buildGraph (w (mk_tick mk)) mk emptyGraph t).
    destruct (buildGraph (w (mk_tick mk)) mk emptyGraph t) as [g| |c| |]; try done.
    intros q Hq. destruct Hb as [Hb _]. split; [|done]. right. exists [], t, mk, [].
    destruct (GI_new w o _ _ _ (Mkfile (mk_targets mk) (mk_first mk) (mk_dir mk) (S (mk_tick mk))) _ Hb) as [G J]; [done|].
    assert (Forall (fun e => not (cmdEvent e)) [LRoot t mk]) as Hnc by (constructor; [by intros []|constructor]).
    split.
    - split; cbn; try done.
      + by intros p ?%elem_of_nil.
      + apply TI_nil.
      + by rewrite app_nil_r.
      + apply (noCmd_bounded _ []); [done|]. intros l Hl. apply prefix_nil_inv in Hl as ->. unfold cmdsRunning. cbn. split; [constructor|lia].
      + by intros j ?%elem_of_nil.
      + split; [done|]. by intros [x ?%elem_of_list_singleton].
      + by intros p ?%elem_of_nil.
      + unfold rootsOf. cbn. apply prefix_cons, prefix_nil.
    - cbn. split; [|intros ?; cbn in *; lia]. split; cbn; try done.
      + by split; [intros []|].
      + by intros j ?%elem_of_nil. }
  assert (forall t rest s0, is_Some (mk_targets mk !! t) -> (forall x, Some x ∈ rest -> is_Some (mk_targets mk !! x)) ->
     match e_end (newRoot w t (initState o mk rest 1)) with
      | Some (EExit c) => Exits c
      | Some EError => Throws
      | Some ECrash => Crashes
      | Some EDiverge => Diverges
      | None =>
        if o_dump o then
          match dumpNode (S (size (g_nodes (e_g (newRoot w t (initState o mk rest 1)))))) (e_g (newRoot w t (initState o mk rest 1))) 0 t with
          | Some _ => Ok (newRoot w t (initState o mk rest 1))
          | None => Diverges
          end
        else Ok (newRoot w t (initState o mk rest 1) <| e_queue := 2 |>)
      end = Ok s0 -> SInv kind w o (Some t :: rest) s0 /\ e_end s0 = None) as Hstart.
  { clear H s0. intros t rest s0 Ht Hrest H. specialize (Hnew t rest Ht Hrest).
    assert (forall s, e_queue s = 1 -> s <| e_queue := 1 |> = s) as Heta by (intros [] <-; done).
    destruct (buildGraph _ mk emptyGraph t) as [g| |c| |] eqn:Eb.
    2-5: destruct Hnew as [[] Hx]; rewrite Hx in H; done.
    destruct (Hnew 1 ltac:(done)) as [H1 H1']. destruct (Hnew 2 ltac:(done)) as [H2 _]. rewrite H1' in H.
    assert (e_queue (newRoot w t (initState o mk rest 1)) = 1) as Hq.
    { unfold newRoot. change (buildGraph (w (mk_tick (e_mk (initState o mk rest 1)))) (e_mk (initState o mk rest 1)) (e_g (initState o mk rest 1)) t)
      with (buildGraph (w (mk_tick mk)) mk emptyGraph t). by rewrite Eb. }
    rewrite Heta in H1 by done.
    destruct (o_dump o).
    - destruct (dumpNode _ _ _ _); [|done]. injection H as <-. done.
    - injection H as <-. done. }
  destruct names as [|n ns].
  - unfold requested. destruct (decide (mk_targets mk = ∅)) as [Hm|Hm].
    + injection H as <-. split; [|done]. left. unfold freshS. cbn. split_and!; done.
    + destruct (mk_first mk) as [t|] eqn:Ef; [|done]. apply Hstart; [by apply Hf| |done]. by intros x ?%elem_of_nil.
  - cbn. destruct (mk_find mk n) as [t|] eqn:En; [|done].
    apply Hstart; [by eapply find_in| |done]. intros x Hx. apply elem_of_list_In, in_map_iff in Hx as (y & Hy & _). by eapply find_in.
Qed.
