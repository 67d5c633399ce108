(** Lemmas about temporary files. *)
From stdpp Require Import prelude gmap.
From RecordUpdate Require Import RecordSet.
Import RecordSetNotations.
From Verif Require Import Base Data Env CmdExec CmdSys TempFiles TempSpec.
Local Open Scope N_scope.

(** Effects that are not about files. *)
Definition noFile (f : effect) : Prop := match f with FWrite _ _ | FRemove _ => False | _ => True end.
Definition noRemove (f : effect) : Prop := match f with FRemove _ => False | _ => True end.

(** A step that touches no temporary file; when the executor is through, the last thing it did is to say so. *)
Definition calm (x x' : xst) : Prop := exists l, x_out x' = x_out x ++ l /\ Forall noFile l /\ x_temps x' = x_temps x /\
  (x_active x = true -> x_active x' = false -> exists l0 b, l = l0 ++ [FFinish b]) /\ (x_active x = false -> x_active x' = false).

Lemma calm_refl x : calm x x.
Proof. exists []. rewrite app_nil_r. split_and!; try done. by intros ->. Qed.
Lemma calm_emit f x : noFile f -> calm x (emit f x).
Proof. intros H. exists [f]. split_and!; try done; [by constructor|]. cbn. by intros ->. Qed.
Lemma calm_same x x' : x_out x' = x_out x -> x_temps x' = x_temps x -> x_active x' = x_active x -> calm x x'.
Proof. intros H1 H2 H3. exists []. rewrite app_nil_r, H3. split_and!; try done. by intros ->. Qed.

(** Steps that leave the executor active, followed by a calm one. *)
Definition busy (x x' : xst) : Prop := exists l, x_out x' = x_out x ++ l /\ Forall noFile l /\ x_temps x' = x_temps x /\ x_active x' = x_active x.
Lemma busy_refl x : busy x x.
Proof. exists []. by rewrite app_nil_r. Qed.
Lemma busy_trans x y z : busy x y -> busy y z -> busy x z.
Proof.
  intros (l & H1 & H2 & H3 & H4) (l' & K1 & K2 & K3 & K4). exists (l ++ l'). rewrite K1, H1, K3, K4, app_assoc. split_and!; try done. by apply Forall_app.
Qed.
Lemma busy_calm x y z : busy x y -> calm y z -> calm x z.
Proof.
  intros (l & H1 & H2 & H3 & H4) (l' & K1 & K2 & K3 & K4 & K5). exists (l ++ l'). rewrite K1, H1, K3, app_assoc. rewrite H4 in *.
  split_and!; try done; [by apply Forall_app|]. intros H5 H6. destruct (K4 H5 H6) as (l0 & b & ->). exists (l ++ l0), b. by rewrite app_assoc.
Qed.
Lemma busy_emit f x : noFile f -> busy x (emit f x).
Proof. intros H. exists [f]. split_and!; try done. by constructor. Qed.
Lemma busy_same x x' : x_out x' = x_out x -> x_temps x' = x_temps x -> x_active x' = x_active x -> busy x x'.
Proof. intros H1 H2 H3. exists []. by rewrite app_nil_r. Qed.

Lemma calm_finish b x : calm x (finishExecution b x).
Proof. exists [FFinish b]. split_and!; try done; [by repeat constructor|]. intros _ _. by exists [], b. Qed.
Lemma busy_echo o c x : busy x (echo o c x).
Proof. unfold echo. destruct (_ || _); [by apply busy_emit|apply busy_refl]. Qed.
Lemma busy_dir x : busy x (takeDirectory x).
Proof. unfold takeDirectory. destruct (x_next x); [apply busy_refl|by apply busy_same]. Qed.
Lemma busy_cd o w line x : busy x (fst (exec_cd o w line x)).
Proof.
  unfold exec_cd. cbv zeta. destruct (trimmed (drop 3 line)).
  { cbn [fst]. eapply busy_trans; by apply busy_emit. }
  destruct (if startsWith_ci _ _ then _ else _); [apply busy_refl|].
  destruct (xw_path _ _); cbn [fst]; [by apply busy_same|by apply busy_emit].
Qed.
Lemma busy_start w d sh x : busy x (startProcess w d sh x).
Proof.
  unfold startProcess. cbv zeta. set (b := createEnvBlock _ _). set (dir := toNative _).
  assert (Hx : busy x (x <| x_cwd := dir |>)) by (by apply busy_same).
  assert (G : forall f, noFile f -> busy x (emit f (x <| x_cwd := dir |>))).
  { intros f Hf. eapply busy_trans; [exact Hx|by apply busy_emit]. }
  destruct (match d with Some _ => _ | None => _ end); [by apply G|]. by destruct (xw_runs _ _ _ _); apply G.
Qed.
Lemma busy_active x y : busy x y -> x_active x = true -> calm x y.
Proof. intros (l & H1 & H2 & H3 & H4) H. exists l. rewrite H4, H. by split_and!. Qed.

Lemma calm_run o w cs x : x_active x = true -> calm x (runCommands o w cs x).
Proof.
  revert x. induction cs as [|c cs IH]; intros x Hx; cbn [runCommands]; [apply calm_finish|].
  set (y := echo o c (x <| x_cmds := c :: cs |>)).
  assert (Hy : busy x y). { eapply busy_trans; [|apply busy_echo]. by apply busy_same. }
  assert (Ha : forall z, busy x z -> x_active z = true). { intros z (l & _ & _ & _ & H). by rewrite H. }
  destruct (classify _ _ _) as [|line|a|d sh].
  - eapply busy_calm; [exact Hy|apply IH; by apply Ha].
  - pose proof (busy_cd o w line (takeDirectory y)) as Hc. destruct (exec_cd o w line (takeDirectory y)) as [z ok]. cbn [fst] in Hc.
    assert (Hz : busy x z). { eapply busy_trans; [exact Hy|]. eapply busy_trans; [apply busy_dir|exact Hc]. }
    destruct ok; [|destruct (c_max c <? 1)]; (eapply busy_calm; [exact Hz|]); [apply IH; by apply Ha| |apply IH; by apply Ha].
    eapply busy_calm; [|apply calm_finish]. by apply busy_emit.
  - assert (Hz : busy x (takeDirectory y)). { eapply busy_trans; [exact Hy|apply busy_dir]. }
    destruct a as [[k v]|]; [|eapply busy_calm; [exact Hz|apply IH; by apply Ha]].
    assert (Hs : busy x (emit (FSet k v) (setEnvironment (envInsert k v (x_env (takeDirectory y))) (takeDirectory y)))).
    { eapply busy_trans; [exact Hz|]. eapply busy_trans; [|by apply busy_emit]. by apply busy_same. }
    eapply busy_calm; [exact Hs|apply IH; by apply Ha].
  - apply busy_active; [|done]. eapply busy_trans; [exact Hy|]. eapply busy_trans; [apply busy_dir|apply busy_start].
Qed.

Lemma calm_finished o w code x : x_active x = true -> calm x (processFinished o w code x).
Proof.
  intros Hx. unfold processFinished. destruct (x_cmds x) as [|c cs]; [apply calm_refl|].
  destruct (c_max c <? code); [|by apply calm_run]. eapply busy_calm; [|apply calm_finish]. by apply busy_emit.
Qed.

(** ** Clean-up *)

Definition removals (ts : list (qstr * bool)) : list effect := flat_map (fun t : qstr * bool => if snd t then [] else [FRemove (fst t)]) (rev ts).
Lemma removals_cons t ts : removals (t :: ts) = removals ts ++ (if snd t then [] else [FRemove (fst t)]).
Proof. unfold removals. cbn [rev]. rewrite flat_map_app. cbn. by rewrite app_nil_r. Qed.
Lemma removals_in ts e : e ∈ removals ts <-> exists n, e = FRemove n /\ (n, false) ∈ ts.
Proof.
  induction ts as [|[n k] ts IH].
  { cbn. split; [intros H; by apply elem_of_nil in H|]. intros (n & _ & H). by apply elem_of_nil in H. }
  rewrite removals_cons, elem_of_app, IH. cbn. split.
  - intros [(m & -> & H)|H]; [exists m; split; [done|by right]|]. destruct k; [by apply elem_of_nil in H|].
    apply elem_of_list_singleton in H as ->. exists n. split; [done|left].
  - intros (m & -> & H). apply elem_of_cons in H as [[= -> <-]|H]; [right; left|left; by exists m].
Qed.
Lemma cleanup_is x : x_out (cleanupTempFiles x) = x_out x ++ removals (x_temps x) /\ x_temps (cleanupTempFiles x) = [] /\
  x_active (cleanupTempFiles x) = x_active x /\
  (forall n, x_files (cleanupTempFiles x) !! n = if bool_decide ((n, false) ∈ x_temps x) then None else x_files x !! n).
Proof.
  unfold cleanupTempFiles. set (y := x <| x_temps := [] |>).
  assert (E : forall l, let z := fold_right removeTemp y l in x_out z = x_out x ++ removals l /\ x_temps z = [] /\ x_active z = x_active x /\
    forall n, x_files z !! n = if bool_decide ((n, false) ∈ l) then None else x_files x !! n).
  { induction l as [|[n k] l IH]; cbn [fold_right].
    - cbv zeta. cbn. rewrite app_nil_r. split_and!; done.
    - cbv zeta in *. destruct IH as (H1 & H2 & H3 & H4). rewrite removals_cons. cbn [fst snd]. revert H1 H2 H3 H4.
      generalize (fold_right removeTemp y l). intros z H1 H2 H3 H4. unfold removeTemp. cbn [fst snd]. destruct k.
      + rewrite app_nil_r. split_and!; try done. intros m. rewrite H4. erewrite (bool_decide_ext ((m, false) ∈ (n, true) :: l)); [reflexivity|].
        rewrite elem_of_cons. split; [by intros [|]|by right].
      + cbn. rewrite H1, <- app_assoc. split_and!; try done. intros m. destruct (decide (m = n)) as [->|Hm].
        * rewrite lookup_delete. rewrite bool_decide_true; [done|left].
        * rewrite lookup_delete_ne by done. rewrite H4. erewrite (bool_decide_ext ((m, false) ∈ (n, false) :: l)); [reflexivity|].
          rewrite elem_of_cons. split; [intros [[= ->]|]; done|by right]. }
  apply E.
Qed.

(** ** Creation *)

(** Files are only written, and what is written for a file without KEEP is remembered; whatever is remembered was written. *)
Definition creates (K U : qstr -> Prop) (x x' : xst) : Prop := exists l ts, x_out x' = x_out x ++ l /\ Forall noRemove l /\ x_temps x' = x_temps x ++ ts /\
  x_active x' = x_active x /\ (forall n c, FWrite n c ∈ l -> K c \/ (n, false) ∈ ts) /\
  (forall n, (n, false) ∈ ts -> exists c, U c /\ FWrite n c ∈ l).
Definition createsRes {A} K U (x : xst) (r : xres (A * xst)) : Prop := match r with XOk (_, y) => creates K U x y | XThrow y => creates K U x y | XNone => True end.

Lemma creates_busy K U x y : busy x y -> creates K U x y.
Proof.
  intros (l & H1 & H2 & H3 & H4). exists l, []. rewrite app_nil_r. split_and!; try done.
  - eapply Forall_impl; [exact H2|]. by intros [].
  - intros n c H. rewrite Forall_forall in H2. by apply H2 in H.
  - intros n H. by apply elem_of_nil in H.
Qed.
Lemma creates_trans K U x y z : creates K U x y -> creates K U y z -> creates K U x z.
Proof.
  intros (l & ts & H1 & H2 & H3 & H4 & H5 & H6) (l' & ts' & K1 & K2 & K3 & K4 & K5 & K6). exists (l ++ l'), (ts ++ ts').
  rewrite K1, H1, K3, H3, K4, H4, !app_assoc. split_and!; try done.
  - by apply Forall_app.
  - intros n c H. apply elem_of_app in H. rewrite elem_of_app. destruct H as [H|H]; [destruct (H5 n c H)|destruct (K5 n c H)]; tauto.
  - intros n H. apply elem_of_app in H as [H|H]; [destruct (H6 n H) as (c & Hc & Hw)|destruct (K6 n H) as (c & Hc & Hw)];
      exists c; rewrite elem_of_app; tauto.
Qed.
Lemma creates_file (K U : qstr -> Prop) o w fuel f line x : (if_keep f = true -> K (if_content f)) -> (if_keep f = false -> U (if_content f)) ->
  createsRes K U x (createTempFile o w fuel f line x).
Proof.
  intros HK HU. unfold createTempFile. destruct (match if_name f with [] => _ | _ => _ end) as [[n k]|]; [|done].
  set (y := x <| x_ticks := k |>). assert (Hy : busy x y) by (by apply busy_same).
  destruct (xw_open w n); [|by apply creates_busy]. cbv zeta. cbn [createsRes].
  set (z := if xo_dump o then _ else y). assert (Hz : busy x z).
  { unfold z. destruct (xo_dump o); [|done]. repeat (eapply busy_trans; [|by apply busy_emit]). done. }
  eapply creates_trans; [by apply creates_busy|]. exists [FWrite n (if_content f)], [(n, if_keep f)]. split_and!; try done.
  - by constructor.
  - intros m c H. apply elem_of_list_singleton in H as [= -> ->]. destruct (if_keep f); [left; by apply HK|right; left].
  - intros m H. apply elem_of_list_singleton in H as [= -> Hk]. exists (if_content f). split; [by apply HU|left].
Qed.
Lemma creates_files (K U : qstr -> Prop) o w fuel fs line x : (forall f, f ∈ fs -> if_keep f = true -> K (if_content f)) -> (forall f, f ∈ fs -> if_keep f = false -> U (if_content f)) ->
  createsRes K U x (createForCommand o w fuel fs line x).
Proof.
  revert line x. induction fs as [|f fs IH]; intros line x HK HU; cbn [createForCommand]; [apply creates_busy, busy_refl|].
  pose proof (creates_file K U o w fuel f line x (HK f ltac:(left)) (HU f ltac:(left))) as H. destruct (createTempFile _ _ _ _ _ _) as [[l y]|y|]; [|done|done].
  specialize (IH l y (fun g Hg => HK g ltac:(by right)) (fun g Hg => HU g ltac:(by right))).
  destruct (createForCommand _ _ _ _ _ _) as [[l2 z]|z|]; cbn in *; try done; by eapply creates_trans.
Qed.
Lemma creates_all (K U : qstr -> Prop) o w fuel cs x : (forall c f, c ∈ cs -> f ∈ c_inline c -> if_keep f = true -> K (if_content f)) ->
  (forall c f, c ∈ cs -> f ∈ c_inline c -> if_keep f = false -> U (if_content f)) ->
  createsRes K U x (createTempFiles o w fuel cs x).
Proof.
  revert x. induction cs as [|c cs IH]; intros x HK HU; cbn [createTempFiles]; [apply creates_busy, busy_refl|].
  pose proof (creates_files K U o w fuel (c_inline c) (c_line c) x (fun f => HK c f ltac:(left)) (fun f => HU c f ltac:(left))) as H.
  destruct (createForCommand _ _ _ _ _ _) as [[l y]|y|]; [|done|done].
  specialize (IH y (fun c f Hc => HK c f ltac:(by right)) (fun c f Hc => HU c f ltac:(by right))).
  destruct (createTempFiles _ _ _ _ _) as [[l2 z]|z|]; cbn in *; try done; by eapply creates_trans.
Qed.

(** ** One event *)

Definition textsOf (e : xevent) (keep : bool) (c : qstr) : Prop :=
  match e with XStart _ _ cs => exists cmd f, cmd ∈ cs /\ f ∈ c_inline cmd /\ if_keep f = keep /\ if_content f = c | XExit _ _ => False end.

Record parts (e : xevent) (x x' : xst) (rs ws ps : list effect) : Prop := Parts {
  pt_out : x_out x' = rs ++ ws ++ ps;
  pt_rs : forall f, f ∈ rs -> exists n, f = FRemove n /\ (n, false) ∈ x_temps x;
  pt_ws : Forall noRemove ws;
  pt_ps : Forall noFile ps;
  pt_end : x_active x' = false -> exists l b, ps = l ++ [FFinish b];
  pt_rs_idle : rs <> [] -> x_active x = false;
  pt_ws_idle : ws <> [] -> x_active x = false;
  pt_old : forall n, (n, false) ∈ x_temps x -> FRemove n ∈ rs \/ (n, false) ∈ x_temps x';
  pt_new : forall n c, FWrite n c ∈ ws -> textsOf e true c \/ (n, false) ∈ x_temps x';
  pt_temps : forall n, (n, false) ∈ x_temps x' -> (n, false) ∈ x_temps x \/ exists c, textsOf e false c /\ FWrite n c ∈ ws;
}.

Lemma event_parts o w fuel e x x' : x_out x = [] -> execEvent o w fuel e x = Some x' -> exists rs ws ps, parts e x x' rs ws ps.
Proof.
  intros Hx. destruct e as [i t cs|i code]; cbn [execEvent].
  - destruct (x_active x) eqn:Ea; [done|]. unfold xstart. cbv zeta. set (y := x <| x_target := t |> <| x_active := true |>).
    destruct cs as [|c cs].
    { intros E. injection E as <-. exists [], [], [FFinish false]. constructor; try done.
      - cbn. by rewrite Hx.
      - intros f H. by apply elem_of_nil in H.
      - by repeat constructor.
      - intros _. by exists [], false.
      - by right.
      - intros n c H. by apply elem_of_nil in H.
      - by left. }
    set (K := textsOf (XStart i t (c :: cs)) true). set (U := textsOf (XStart i t (c :: cs)) false).
    pose proof (creates_all K U o w fuel (c :: cs) (cleanupTempFiles y)) as H.
    specialize (H ltac:(intros c0 f0 H1 H2 H3; by exists c0, f0) ltac:(intros c0 f0 H1 H2 H3; by exists c0, f0)).
    destruct (cleanup_is y) as (C1 & C2 & C3 & _).
    assert (G : forall z x' ps, creates K U (cleanupTempFiles y) z -> x_out x' = x_out z ++ ps -> Forall noFile ps -> x_temps x' = x_temps z ->
      (x_active x' = false -> exists l b, ps = l ++ [FFinish b]) -> exists rs ws ps, parts (XStart i t (c :: cs)) x x' rs ws ps).
    { intros z x1 ps (l & ts & H1 & H2 & H3 & H4 & H5 & H6) K1 K2 K3 K4. exists (removals (x_temps x)), l, ps.
      rewrite C2 in H3. cbn in H3. constructor; try done.
      - rewrite K1, H1, C1. cbn [x_out y]. change (x_out y) with (x_out x). rewrite Hx. change (x_temps y) with (x_temps x). by rewrite app_nil_l, app_assoc.
      - intros f Hf. by apply removals_in in Hf.
      - intros n Hn. left. apply removals_in. by exists n.
      - intros n c0 Hn. rewrite K3, H3. by apply H5.
      - intros n Hn. right. rewrite K3, H3 in Hn. by apply H6. }
    destruct (createTempFiles _ _ _ _ _) as [[cs' z]|z|]; [| |done]; intros E; injection E as <-; cbn [createsRes] in H.
    + assert (Hz : x_active z = true). { destruct H as (l & ts & _ & _ & _ & H & _). by rewrite H, C3. }
      assert (Q : forall z2, x_out z2 = x_out z -> x_temps z2 = x_temps z -> x_active z2 = x_active z ->
        exists rs ws ps, parts (XStart i t (c :: cs)) x (runCommands o w cs' z2) rs ws ps).
      { intros z2 Q1 Q2 Q3. rewrite Hz in Q3. destruct (calm_run o w cs' z2 Q3) as (l & K1 & K2 & K3 & K4 & _).
        apply (G z _ l); [exact H|by rewrite K1, Q1|exact K2|by rewrite K3|]. by apply K4. }
      by apply Q.
    + assert (Hz : x_active z = true). { destruct H as (l & ts & _ & _ & _ & H & _). by rewrite H, C3. }
      apply (G z z []); [exact H|by rewrite app_nil_r|constructor|done|]. by rewrite Hz.
  - destruct (x_active x) eqn:Ea; [|done]. intros E. injection E as <-.
    destruct (calm_finished o w code x Ea) as (l & K1 & K2 & K3 & K4 & _). exists [], [], l. constructor; try done.
    + by rewrite K1, Hx.
    + intros f H. by apply elem_of_nil in H.
    + by apply K4.
    + intros n H. right. by rewrite K3.
    + intros n c H. by apply elem_of_nil in H.
    + intros n H. left. by rewrite K3 in H.
Qed.

(** ** All executors *)

Definition by_ (i : nat) (l : list effect) : list (nat * effect) := map (fun f => (i, f)) l.
Lemma by_lookup i l k j f : by_ i l !! k = Some (j, f) -> j = i /\ l !! k = Some f.
Proof. unfold by_. change (map ?g l) with (g <$> l). rewrite list_lookup_fmap. destruct (l !! k); cbn; [|done]. by intros [= -> ->]. Qed.
Lemma by_in i l f : f ∈ l -> (i, f) ∈ by_ i l.
Proof. intros H. unfold by_. change (map ?g l) with (g <$> l). apply elem_of_list_fmap. by exists f. Qed.
Lemma by_elem i l j f : (j, f) ∈ by_ i l -> j = i /\ f ∈ l.
Proof. intros H. apply elem_of_list_lookup in H as [k H]. apply by_lookup in H as [-> H]. split; [done|]. by eapply elem_of_list_lookup_2. Qed.

Record inv (es : list xevent) (s : xsys) : Prop := Inv {
  iv_written : forall k i n c, xs_trace s !! k = Some (i, FWrite n c) -> inlineOf es i true c \/ later (xs_trace s) k (i, FRemove n) \/
    exists x, xs_execs s !! i = Some x /\ (n, false) ∈ x_temps x;
  iv_own : forall i x n, xs_execs s !! i = Some x -> (n, false) ∈ x_temps x -> exists c, inlineOf es i false c /\ (i, FWrite n c) ∈ xs_trace s;
  iv_removed : forall k i n, xs_trace s !! k = Some (i, FRemove n) -> exists c, inlineOf es i false c /\ earlier (xs_trace s) k (i, FWrite n c);
  iv_idle : forall k i n c x, xs_trace s !! k = Some (i, FWrite n c) -> xs_execs s !! i = Some x -> x_active x = false -> exists b, later (xs_trace s) k (i, FFinish b);
  iv_used : forall k k' i n c, xs_trace s !! k = Some (i, FWrite n c) -> (k < k')%nat -> xs_trace s !! k' = Some (i, FRemove n) ->
    exists b m, (k < m < k')%nat /\ xs_trace s !! m = Some (i, FFinish b);
}.

Lemma later_app {A} (l l' : list A) k a : later l k a -> later (l ++ l') k a.
Proof. intros (k' & H & H'). exists k'. split; [done|]. by apply lookup_app_l_Some. Qed.
Lemma later_right {A} (l l' : list A) k a : (k < List.length l)%nat -> a ∈ l' -> later (l ++ l') k a.
Proof. intros Hk H. apply elem_of_list_lookup in H as [j H]. exists (List.length l + j)%nat. split; [lia|]. rewrite lookup_app_r by lia. by replace (_ + j - _)%nat with j by lia. Qed.
Lemma later_both {A} (l l' : list A) k a : later l' k a -> later (l ++ l') (List.length l + k) a.
Proof. intros (j & H & H'). exists (List.length l + j)%nat. split; [lia|]. rewrite lookup_app_r by lia. by replace (_ + j - _)%nat with j by lia. Qed.
Lemma earlier_app {A} (l l' : list A) k a : earlier l k a -> earlier (l ++ l') k a.
Proof. intros (k' & H & H'). exists k'. split; [done|]. by apply lookup_app_l_Some. Qed.
Lemma earlier_left {A} (l l' : list A) k a : a ∈ l -> earlier (l ++ l') (List.length l + k) a.
Proof. intros H. apply elem_of_list_lookup in H as [j H]. exists j. pose proof (lookup_lt_Some _ _ _ H). split; [lia|]. by apply lookup_app_l_Some. Qed.
Lemma app_lookup {A} (l l' : list A) k a : (l ++ l') !! k = Some a -> l !! k = Some a \/ exists j, k = (List.length l + j)%nat /\ l' !! j = Some a.
Proof. intros H. apply lookup_app_Some in H as [H|[H1 H2]]; [by left|right]. exists (k - List.length l)%nat. split; [lia|done]. Qed.
Lemma app_lookup3 {A} (a b c : list A) k v : (a ++ b ++ c) !! k = Some v ->
  (a !! k = Some v) \/ (exists j, k = (List.length a + j)%nat /\ b !! j = Some v) \/ (exists j, k = (List.length a + List.length b + j)%nat /\ c !! j = Some v).
Proof.
  intros H. apply app_lookup in H as [H|(j & -> & H)]; [by left|]. right. apply app_lookup in H as [H|(m & -> & H)]; [left; by exists j|right; exists m].
  split; [lia|done].
Qed.

Lemma inlineOf_mono es e i b c : inlineOf es i b c -> inlineOf (es ++ [e]) i b c.
Proof. intros (t & cs & cmd & f & H & H'). exists t, cs, cmd, f. split; [|done]. apply elem_of_app. by left. Qed.
Lemma inlineOf_event es e b c : textsOf e b c -> inlineOf (es ++ [e]) (execOf e) b c.
Proof.
  destruct e as [i t cs|]; [|done]. intros (cmd & f & H & H'). exists t, cs, cmd, f. split; [|done]. apply elem_of_app. right. left.
Qed.

Lemma share_same b x' x : x_temps (share b x' x) = x_temps x /\ x_active (share b x' x) = x_active x.
Proof. unfold share. by destruct b. Qed.

Lemma event_inv o w fuel files e es s s' : inv es s -> sysEvent o w fuel files e s = Some s' -> inv (es ++ [e]) s'.
Proof.
  intros I H. unfold sysEvent in H. destruct (xs_execs s !! execOf e) as [x|] eqn:El; [|done].
  destruct (execEvent _ _ _ _ _) as [x'|] eqn:Ee; [|done]. injection H as <-.
  apply event_parts in Ee as (rs & ws & ps & P); [|done]. destruct P as [Po Prs Pws Pps Pend Pri Pwi Pold Pnew Ptemps]. cbn in Prs, Pri, Pwi, Pold, Ptemps.
  set (i0 := execOf e) in *. set (tr := xs_trace s) in *.
  assert (Hex : forall i y, <[i0 := x']> (map (share (existsb isSet (x_out x')) x') (xs_execs s)) !! i = Some y ->
    (i = i0 /\ y = x') \/ (i <> i0 /\ exists y0, xs_execs s !! i = Some y0 /\ x_temps y = x_temps y0 /\ x_active y = x_active y0)).
  { intros i y Hy. destruct (decide (i = i0)) as [->|Hi].
    - rewrite list_lookup_insert in Hy; [left; by injection Hy as <-|]. rewrite map_length. by eapply lookup_lt_Some.
    - rewrite list_lookup_insert_ne in Hy by done. right. split; [done|]. change (map ?g (xs_execs s)) with (g <$> xs_execs s) in Hy.
      rewrite list_lookup_fmap in Hy. destruct (xs_execs s !! i) as [y0|]; [|done]. injection Hy as <-. exists y0. split; [done|]. apply share_same. }
  assert (Hin : forall i y0, i <> i0 -> xs_execs s !! i = Some y0 ->
    exists y, <[i0 := x']> (map (share (existsb isSet (x_out x')) x') (xs_execs s)) !! i = Some y /\ x_temps y = x_temps y0).
  { intros i y0 Hi Hy. rewrite list_lookup_insert_ne by done. change (map ?g (xs_execs s)) with (g <$> xs_execs s). rewrite list_lookup_fmap, Hy. cbn.
    eexists. split; [reflexivity|]. apply share_same. }
  assert (Hnew : <[i0 := x']> (map (share (existsb isSet (x_out x')) x') (xs_execs s)) !! i0 = Some x').
  { apply list_lookup_insert. rewrite map_length. by eapply lookup_lt_Some. }
  rewrite Po in *. clear Po.
  set (execs' := <[i0 := x']> _) in *. set (new := map (fun f => (i0, f)) (rs ++ ws ++ ps)).
  assert (Enew : new = by_ i0 rs ++ by_ i0 ws ++ by_ i0 ps) by (unfold new, by_; by rewrite !map_app).
  assert (Lrs : List.length (by_ i0 rs) = List.length rs) by apply map_length.
  assert (Lws : List.length (by_ i0 ws) = List.length ws) by apply map_length.
  (* where a written file of the new part is *)
  assert (NW : forall j i n c, new !! j = Some (i, FWrite n c) -> i = i0 /\ FWrite n c ∈ ws /\ exists j', j = (List.length rs + j')%nat /\ (j' < List.length ws)%nat).
  { intros j i n c Hj. rewrite Enew in Hj. apply app_lookup3 in Hj as [Hj|[(m & -> & Hj)|(m & -> & Hj)]]; apply by_lookup in Hj as [-> Hj].
    - apply elem_of_list_lookup_2, Prs in Hj as (? & ? & _). done.
    - split; [done|]. rewrite Lrs. split; [by eapply elem_of_list_lookup_2|]. exists m. split; [done|]. by eapply lookup_lt_Some.
    - apply elem_of_list_lookup_2 in Hj. rewrite Forall_forall in Pps. by apply Pps in Hj. }
  (* where a removed one is *)
  assert (NR : forall j i n, new !! j = Some (i, FRemove n) -> i = i0 /\ FRemove n ∈ rs /\ (j < List.length rs)%nat).
  { intros j i n Hj. rewrite Enew in Hj. apply app_lookup3 in Hj as [Hj|[(m & -> & Hj)|(m & -> & Hj)]]; apply by_lookup in Hj as [-> Hj].
    - split_and!; [done|by eapply elem_of_list_lookup_2|by eapply lookup_lt_Some].
    - apply elem_of_list_lookup_2 in Hj. rewrite Forall_forall in Pws. by apply Pws in Hj.
    - apply elem_of_list_lookup_2 in Hj. rewrite Forall_forall in Pps. by apply Pps in Hj. }
  assert (InNew : forall f, f ∈ rs \/ f ∈ ws \/ f ∈ ps -> (i0, f) ∈ new).
  { intros f Hf. rewrite Enew, !elem_of_app. destruct Hf as [Hf|[Hf|Hf]]; apply (by_in i0) in Hf; tauto. }
  constructor; cbn [xs_trace xs_execs].
  - intros k i n c Hk. apply app_lookup in Hk as [Hk|(j & -> & Hk)].
    + destruct (iv_written _ _ I k i n c Hk) as [H|[H|(y & Hy & Ht)]].
      * left. by apply inlineOf_mono.
      * right. left. by apply later_app.
      * destruct (decide (i = i0)) as [->|Hi].
        -- rewrite El in Hy. injection Hy as <-. destruct (Pold n Ht) as [Hr|Hr].
           ++ right. left. apply later_right; [by eapply lookup_lt_Some|]. apply InNew. by left.
           ++ right. right. by exists x'.
        -- right. right. destruct (Hin i y Hi Hy) as (y' & Hy' & Et). exists y'. by rewrite Et.
    + destruct (NW _ _ _ _ Hk) as (-> & Hw & _). destruct (Pnew n c Hw) as [H|H]; [left; by apply inlineOf_event|right; right; by exists x'].
  - intros i y n Hy Hn. destruct (Hex _ _ Hy) as [[-> ->]|(Hi & y0 & Hy0 & Et & _)].
    + destruct (Ptemps n Hn) as [Ho|(c & Hc & Hw)].
      * destruct (iv_own _ _ I _ _ _ El Ho) as (c & Hc & Hw). exists c. split; [by apply inlineOf_mono|]. apply elem_of_app. by left.
      * exists c. split; [by apply inlineOf_event|]. apply elem_of_app. right. apply InNew. tauto.
    + rewrite Et in Hn. destruct (iv_own _ _ I _ _ _ Hy0 Hn) as (c & Hc & Hw). exists c. split; [by apply inlineOf_mono|]. apply elem_of_app. by left.
  - intros k i n Hk. apply app_lookup in Hk as [Hk|(j & -> & Hk)].
    + destruct (iv_removed _ _ I _ _ _ Hk) as (c & Hc & Hw). exists c. split; [by apply inlineOf_mono|by apply earlier_app].
    + destruct (NR _ _ _ Hk) as (-> & Hr & _). destruct (Prs _ Hr) as (m & [= <-] & Ho).
      destruct (iv_own _ _ I _ _ _ El Ho) as (c & Hc & Hw). exists c. split; [by apply inlineOf_mono|by apply earlier_left].
  - intros k i n c y Hk Hy Ha. apply app_lookup in Hk as [Hk|(j & -> & Hk)].
    + destruct (Hex _ _ Hy) as [[-> ->]|(Hi & y0 & Hy0 & _ & Ea)].
      * destruct (Pend Ha) as (l & b & ->). exists b. apply later_right; [by eapply lookup_lt_Some|]. apply InNew. right. right. apply elem_of_app. right. left.
      * rewrite Ea in Ha. destruct (iv_idle _ _ I _ _ _ _ _ Hk Hy0 Ha) as (b & Hb). exists b. by apply later_app.
    + destruct (NW _ _ _ _ Hk) as (-> & Hw & j' & -> & Hj'). rewrite Hnew in Hy. injection Hy as <-. destruct (Pend Ha) as (l & b & ->). exists b.
      apply later_both. rewrite Enew. exists (List.length rs + List.length ws + List.length l)%nat. split; [lia|].
      rewrite lookup_app_r by lia. rewrite lookup_app_r by lia. rewrite Lrs, Lws. replace (_ - _ - _)%nat with (List.length l) by lia.
      unfold by_. rewrite map_app. rewrite lookup_app_r by (by rewrite map_length). by rewrite map_length, Nat.sub_diag.
  - intros k k' i n c Hk Hkk Hk'. apply app_lookup in Hk as [Hk|(j & -> & Hk)].
    + apply app_lookup in Hk' as [Hk'|(j' & -> & Hk')].
      * destruct (iv_used _ _ I _ _ _ _ _ Hk Hkk Hk') as (b & m & Hm & Hf). exists b, m. split; [done|]. by apply lookup_app_l_Some.
      * destruct (NR _ _ _ Hk') as (-> & Hr & _). assert (Ha : x_active x = false). { apply Pri. by intros ->; apply elem_of_nil in Hr. }
        destruct (iv_idle _ _ I _ _ _ _ _ Hk El Ha) as (b & m & Hm & Hf). exists b, m. pose proof (lookup_lt_Some _ _ _ Hf). fold tr in H.
        split; [lia|]. by apply lookup_app_l_Some.
    + exfalso. apply app_lookup in Hk' as [Hk'|(j' & -> & Hk')].
      * apply lookup_lt_Some in Hk'. fold tr in Hk'. lia.
      * destruct (NR _ _ _ Hk') as (-> & _ & Hr). destruct (NW _ _ _ _ Hk) as (_ & _ & m & -> & _). lia.
Qed.

Lemma start_inv n e p : inv [] (sysStart n e p).
Proof.
  constructor; cbn; try done. intros i x m Hx Ht. apply lookup_replicate in Hx as [-> _]. by apply elem_of_nil in Ht.
Qed.

Lemma run_inv o n e p es s : runOf o (sysStart n e p) es s -> inv es s.
Proof.
  remember (sysStart n e p) as s0 eqn:E0. induction 1 as [|s es s1 w fuel files ev s2 H IH He]; subst; [apply start_inv|].
  eapply event_inv; [by apply IH|exact He].
Qed.

(** ** The end *)

Lemma cleanupFrom_is i files l : forall r files' tr, cleanupFrom i files l = (r, files', tr) ->
  (forall j x n, l !! j = Some x -> (n, false) ∈ x_temps x -> (i + j, FRemove n)%nat ∈ tr) /\
  (forall j f, (j, f) ∈ tr -> exists x n, f = FRemove n /\ (i <= j)%nat /\ l !! (j - i)%nat = Some x /\ (n, false) ∈ x_temps x) /\
  (forall n, (exists j x, l !! j = Some x /\ (n, false) ∈ x_temps x) -> files' !! n = None) /\
  (forall n, (forall j x, l !! j = Some x -> (n, false) ∉ x_temps x) -> files' !! n = files !! n) /\
  (forall n, files' !! n = None \/ files' !! n = files !! n).
Proof.
  revert i files. induction l as [|x l IH]; intros i files r files' tr H; cbn [cleanupFrom] in H.
  - injection H as <- <- <-. split_and!; try done.
    + intros j f Hf. by apply elem_of_nil in Hf.
    + intros n (j & x & H & _). done.
    + by right.
  - set (y := x <| x_out := [] |> <| x_files := files |>) in *. destruct (cleanup_is y) as (C1 & _ & _ & C4).
    destruct (cleanupFrom (S i) (x_files (cleanupTempFiles y)) l) as [[r1 files1] tr1] eqn:E. injection H as <- <- <-.
    destruct (IH _ _ _ _ _ E) as (I1 & I2 & I3 & I4 & I5). change (x_out y) with (@nil effect) in C1. rewrite app_nil_l in C1. change (x_temps y) with (x_temps x) in *.
    rewrite C1. change (map (fun f => (i, f)) (removals (x_temps x))) with (by_ i (removals (x_temps x))). split_and!.
    + intros j z n Hj Hn. apply elem_of_app. destruct j as [|j]; cbn in Hj.
      * injection Hj as ->. left. rewrite Nat.add_0_r. apply by_in, removals_in. by exists n.
      * right. replace (i + S j)%nat with (S i + j)%nat by lia. by eapply I1.
    + intros j f Hf. apply elem_of_app in Hf as [Hf|Hf].
      * apply by_elem in Hf as [-> Hf]. apply removals_in in Hf as (n & -> & Hn). exists x, n. rewrite Nat.sub_diag. by split_and!.
      * destruct (I2 _ _ Hf) as (z & n & -> & Hle & Hz & Hn). exists z, n. split_and!; [done|lia| |done]. by replace (j - i)%nat with (S (j - S i)) by lia.
    + intros n (j & z & Hj & Hn). destruct j as [|j]; cbn in Hj.
      * injection Hj as ->. destruct (I5 n) as [H|H]; [done|]. rewrite H, C4. rewrite bool_decide_true by done. done.
      * apply I3. by exists j, z.
    + intros n H. rewrite I4; [|intros j z Hj; by apply (H (S j))]. rewrite C4. rewrite bool_decide_false; [done|]. by apply (H 0%nat).
    + intros n. destruct (I5 n) as [H|H]; [by left|]. rewrite H, C4. case_bool_decide; [by left|by right].
Qed.
