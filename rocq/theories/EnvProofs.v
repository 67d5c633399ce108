(** Lemmas about environments. *)
From Coq Require Import Ascii String.
From stdpp Require Import prelude gmap sorting.
From RecordUpdate Require Import RecordSet.
Import RecordSetNotations.
From Verif Require Import Base Data SplitCmdSpec SplitCmdProofs OptsProofs OptsLineProofs PreprocRunProofs Env CmdExec CmdSys EnvSpec.
Local Open Scope N_scope.

(** ** The order of keys *)

Lemma lexLt_irrefl a : lexLt a a = false.
Proof. induction a as [|x a IH]; [done|]. cbn. by rewrite N.ltb_irrefl. Qed.
Lemma lexLt_trans a b c : lexLt a b = true -> lexLt b c = true -> lexLt a c = true.
Proof.
  revert b c. induction a as [|x a IH]; intros [|y b] [|z c]; cbn; try done.
  destruct (N.ltb_spec x y), (N.ltb_spec y x), (N.ltb_spec y z), (N.ltb_spec z y), (N.ltb_spec x z), (N.ltb_spec z x);
    try done; try lia. apply IH.
Qed.
Lemma lexLt_total a b : lexLt a b = false -> lexLt b a = false -> a = b.
Proof.
  revert b. induction a as [|x a IH]; intros [|y b]; cbn; try done.
  destruct (N.ltb_spec x y), (N.ltb_spec y x); try done; try lia. intros H1 H2. f_equal; [lia|auto].
Qed.

Lemma keyLt_same a b : keyLt a b || keyLt b a = negb (bool_decide (sameVar a b)).
Proof.
  unfold keyLt, sameVar. case_bool_decide as H.
  - rewrite H, lexLt_irrefl. done.
  - destruct (lexLt (foldCase a) (foldCase b)) eqn:E1; [done|]. destruct (lexLt (foldCase b) (foldCase a)) eqn:E2; [done|].
    exfalso. by apply H, lexLt_total.
Qed.
Lemma keyLt_not a b : keyLt a b = true -> ~ sameVar a b.
Proof. intros H E. unfold keyLt in H. rewrite E, lexLt_irrefl in H. done. Qed.

(** Entries in order. *)
Definition sortedEnv (m : env) : Prop := StronglySorted (fun a b => keyLt (fst a) (fst b) = true) m.

Lemma insert_in k v m kv : kv ∈ envInsert k v m -> (fst kv = k /\ snd kv = v) \/ kv ∈ m \/ (snd kv = v /\ exists v', (fst kv, v') ∈ m).
Proof.
  induction m as [|[k' v'] m IH]; cbn.
  - rewrite elem_of_list_singleton. intros ->. by left.
  - destruct (keyLt k k').
    + rewrite elem_of_cons. intros [->|H]; [by left|auto].
    + destruct (keyLt k' k).
      * rewrite !elem_of_cons. intros [->|H]; [auto|]. destruct (IH H) as [?|[?|(? & w & ?)]]; [auto|auto|].
        right. right. split; [done|]. exists w. by right.
      * rewrite !elem_of_cons. intros [->|H]; [|auto]. right. right. split; [done|]. exists v'. by left.
Qed.
Lemma insert_keys k v m kv : kv ∈ envInsert k v m -> fst kv = k \/ exists v', (fst kv, v') ∈ m.
Proof.
  intros H. destruct (insert_in _ _ _ _ H) as [[? ?]|[?|[? ?]]]; [auto| |auto].
  right. exists (snd kv). by destruct kv.
Qed.

Lemma insert_sorted k v m : sortedEnv m -> sortedEnv (envInsert k v m).
Proof.
  unfold sortedEnv. induction 1 as [|[k' v'] m Hs IH Hf]; cbn [envInsert].
  - by repeat constructor.
  - destruct (keyLt k k') eqn:E1; [|destruct (keyLt k' k) eqn:E2].
    + constructor; [by constructor|]. constructor; [done|].
      eapply Forall_impl; [exact Hf|]. intros x Hx. cbn in *. unfold keyLt in *. by eapply lexLt_trans.
    + constructor; [done|]. apply Forall_forall. intros x Hx. apply insert_keys in Hx as [->|[w Hx]]; [done|].
      rewrite Forall_forall in Hf. exact (Hf _ Hx).
    + constructor; [done|]. eapply Forall_impl; [exact Hf|]. done.
Qed.

Lemma find_insert k v m k' : sortedEnv m ->
  envFind k' (envInsert k v m) = if decide (sameVar k k') then Some v else envFind k' m.
Proof.
  induction 1 as [|[k1 v1] m Hs IH Hf]; cbn [envInsert].
  - cbn [envFind]. rewrite keyLt_same. destruct (decide (sameVar k k')) as [H|H].
    + rewrite bool_decide_eq_true_2; [done|]. by symmetry.
    + rewrite bool_decide_eq_false_2; [done|]. intros E. apply H. by symmetry.
  - destruct (keyLt k k1) eqn:E1; [|destruct (keyLt k1 k) eqn:E2].
    + cbn [envFind]. rewrite keyLt_same. destruct (decide (sameVar k k')) as [H|H].
      * rewrite bool_decide_eq_true_2; [done|]. by symmetry.
      * rewrite bool_decide_eq_false_2; [done|]. intros E. apply H. by symmetry.
    + cbn [envFind]. rewrite keyLt_same. destruct (bool_decide (sameVar k' k1)) eqn:E3; cbn [negb].
      * apply bool_decide_eq_true in E3. destruct (decide (sameVar k k')) as [H|H]; [|done].
        exfalso. apply (keyLt_not _ _ E2). unfold sameVar in *. congruence.
      * apply IH.
    + assert (sameVar k k1).
      { apply dec_stable. intros Hn. pose proof (keyLt_same k k1) as E. rewrite E1, E2 in E.
        rewrite bool_decide_eq_false_2 in E by done. done. }
      cbn [envFind]. rewrite keyLt_same. destruct (decide (sameVar k k')) as [H'|H'].
      * rewrite bool_decide_eq_true_2; [done|]. unfold sameVar in *. congruence.
      * rewrite bool_decide_eq_false_2; [done|]. unfold sameVar in *. congruence.
Qed.

Lemma find_valueIn m k : envFind k m = valueIn m k.
Proof.
  induction m as [|[k' v'] m IH]; [done|]. cbn. rewrite keyLt_same. destruct (decide (sameVar k' k)) as [H|H].
  - rewrite bool_decide_eq_true_2; [done|]. by symmetry.
  - rewrite bool_decide_eq_false_2; [done|]. intros E. apply H. by symmetry.
Qed.

Lemma sorted_nodup m : sortedEnv m -> NoDup (map (fun kv => foldCase (fst kv)) m).
Proof.
  induction 1 as [|x m Hs IH Hf]; cbn; constructor; [|done].
  intros Hin. apply elem_of_list_fmap in Hin as (y & E & Hy). rewrite Forall_forall in Hf.
  apply (keyLt_not _ _ (Hf _ Hy)). done.
Qed.

(** ** The block *)

Lemma insert_clean k v m : cleanVar (k, v) -> Forall cleanVar m -> Forall cleanVar (envInsert k v m).
Proof.
  intros Hk Hm. apply Forall_forall. intros [a b] Hin. apply insert_in in Hin as [[E1 E2]|[Hin|[E [w Hin]]]]; cbn [fst snd] in *; subst.
  - done.
  - rewrite Forall_forall in Hm. by apply Hm.
  - rewrite Forall_forall in Hm. specialize (Hm _ Hin). destruct Hk as (_ & _ & _ & Hk), Hm as (? & ? & ? & _).
    cbn [fst snd] in *. subst. unfold cleanVar. by split_and!.
Qed.

Lemma entries_read m r : Forall cleanVar m -> reads (concat (map envEntry m) ++ 0 :: r) m.
Proof.
  induction 1 as [|[k v] m Hk Hm IH]; cbn [map concat app]; [constructor|].
  unfold envEntry at 1. cbn [fst snd]. destruct (k ++ v) eqn:E.
  { destruct k; [by destruct (proj1 Hk)|done]. }
  replace (_ ++ 0 :: r) with (k ++ ch "=" :: v ++ 0 :: (concat (map envEntry m) ++ 0 :: r)); [by constructor|].
  by rewrite <- !app_assoc.
Qed.

(** What createEnvBlock adds. *)
Definition added (p : penv) (e : env) (k : qstr) : option qstr :=
  match envFind k e with
  | Some v => Some v
  | None =>
    if decide (sameVar (s2q "Path") k) then match p_path p with [] => None | v => Some v end
    else if decide (sameVar (s2q "SystemRoot") k) then match p_root p with [] => None | v => Some v end
    else None
  end.

Lemma find_same m k k' : sameVar k k' -> envFind k m = envFind k' m.
Proof. rewrite !find_valueIn. intros H. induction m as [|[a b] m IH]; [done|]. cbn.
  destruct (decide (sameVar a k)) as [Ha|Ha], (decide (sameVar a k')) as [Hb|Hb]; unfold sameVar in *; congruence. Qed.

Lemma copy_sorted p e : sortedEnv e -> sortedEnv (envCopy p e).
Proof.
  intros H. unfold envCopy. set (c := if envContains (s2q "Path") e then _ else _).
  assert (Hc : sortedEnv c). { unfold c. destruct (envContains _ _); [done|]. destruct (p_path p); [done|]. by apply insert_sorted. }
  destruct (envContains _ c); [done|]. destruct (p_root p); [done|]. by apply insert_sorted.
Qed.

Lemma copy_find p e k : sortedEnv e -> envFind k (envCopy p e) = added p e k.
Proof.
  intros H. unfold envCopy, added. set (c := if envContains (s2q "Path") e then _ else _).
  assert (Hc : sortedEnv c /\ envFind k c = match envFind k e with Some v => Some v | None =>
    if decide (sameVar (s2q "Path") k) then match p_path p with [] => None | v => Some v end else None end).
  { unfold c, envContains. destruct (envFind (s2q "Path") e) as [v|] eqn:E.
    - split; [done|]. destruct (envFind k e) eqn:E2; [done|]. destruct (decide _) as [Hs|]; [|done].
      rewrite (find_same e _ _ Hs) in E. congruence.
    - destruct (p_path p) as [|x path]; [split; [done|]|].
      + destruct (envFind k e); [done|]. by destruct (decide _).
      + split; [by apply insert_sorted|]. rewrite find_insert by done.
        destruct (decide _) as [Hs|]; [|by destruct (envFind k e)]. rewrite (find_same e _ _ Hs) in E. by rewrite E. }
  destruct Hc as [Hc Hk]. unfold envContains.
  destruct (envFind (s2q "SystemRoot") c) as [v|] eqn:E.
  - rewrite Hk. destruct (envFind k e) eqn:E2; [done|]. destruct (decide (sameVar (s2q "Path") k)); [done|].
    destruct (decide _) as [Hs|]; [|done]. rewrite (find_same c _ _ Hs) in E. congruence.
  - destruct (p_root p) as [|x root].
    + rewrite Hk. destruct (envFind k e); [done|]. destruct (decide _); [done|]. by destruct (decide _).
    + rewrite find_insert by done. destruct (decide (sameVar (s2q "SystemRoot") k)) as [Hs|Hs].
      * rewrite (find_same c _ _ Hs) in E. rewrite Hk in E. destruct (envFind k e); [done|].
        destruct (decide (sameVar (s2q "Path") k)) as [Hp|]; [|done]. exfalso. unfold sameVar in *. rewrite <- Hs in Hp. discriminate Hp.
      * rewrite Hk. destruct (envFind k e); [done|]. by destruct (decide _).
Qed.

Lemma copy_clean p e : Forall cleanVar e -> 0 ∉ p_path p -> 0 ∉ p_root p -> Forall cleanVar (envCopy p e).
Proof.
  intros He Hp Hr. unfold envCopy. set (c := if envContains (s2q "Path") e then _ else _).
  assert (Hc : Forall cleanVar c).
  { unfold c. destruct (envContains _ _); [done|]. destruct (p_path p); [done|]. apply insert_clean; [|done].
    unfold cleanVar; cbn [fst snd]. split_and!; [done|by apply (bool_decide_unpack _)|by apply (bool_decide_unpack _)|done]. }
  destruct (envContains _ c); [done|]. destruct (p_root p); [done|]. apply insert_clean; [|done].
  unfold cleanVar; cbn [fst snd]. split_and!; [done|by apply (bool_decide_unpack _)|by apply (bool_decide_unpack _)|done].
Qed.

Lemma block_read p e : e <> [] -> sortedEnv e -> Forall cleanVar e -> 0 ∉ p_path p -> 0 ∉ p_root p ->
  exists l, reads (createEnvBlock p e) l /\ NoDup (map (fun kv => foldCase (fst kv)) l) /\ forall k, valueIn l k = added p e k.
Proof.
  intros Hne Hs Hc Hp Hr. exists (envCopy p e). split_and!.
  - destruct e; [done|]. by apply entries_read, copy_clean.
  - by apply sorted_nodup, copy_sorted.
  - intros k. by rewrite <- find_valueIn, copy_find.
Qed.

(** Reading is unambiguous. *)
Lemma split_char (c : qchar) (a b a' b' : qstr) : c ∉ a -> c ∉ a' -> a ++ c :: b = a' ++ c :: b' -> a = a' /\ b = b'.
Proof.
  revert a'. induction a as [|x a IH]; intros [|y a'] H1 H2 E; cbn in E.
  - by injection E.
  - injection E as <- _. exfalso. apply H2. by left.
  - injection E as -> _. exfalso. apply H1. by left.
  - injection E as <- E. destruct (IH a') as [-> ->]; [..|done|done]; intros H; [apply H1|apply H2]; by right.
Qed.

Lemma reads_det b l l' : reads b l -> reads b l' -> l = l'.
Proof.
  intros H. revert l'. induction H as [r|n v r l (Hn & Hn0 & Hn1 & Hv) Hr IH]; intros l' H'.
  - inversion H' as [|n v r' l2 (Hn & Hn0 & _) _ E]; subst; [done|]. destruct n as [|x n]; [done|]. injection E as -> _.
    exfalso. apply Hn0. by left.
  - inversion H' as [r' E|n' v' r' l2 (Hn' & Hn0' & Hn1' & Hv') Hr' E]; subst.
    + destruct n as [|x n]; [done|]. injection E as <- _. exfalso. apply Hn0. by left.
    + cbn [fst snd] in *. destruct n as [|x n]; [done|]. destruct n' as [|y n']; [done|]. cbn in Hn1, Hn1'.
      cbn [app] in E. injection E as <- E. apply split_char in E as [-> E]; [|done|done].
      apply split_char in E as [-> ->]; [|done|done]. f_equal. by apply IH.
Qed.

(** ** Executors *)

(** The environment after a sequence of effects. *)
Fixpoint setsOf (l : list effect) (e : env) : env :=
  match l with [] => e | FSet k v :: l' => setsOf l' (envInsert k v e) | _ :: l' => setsOf l' e end.
Lemma setsOf_app l l' e : setsOf (l ++ l') e = setsOf l' (setsOf l e).
Proof. revert e. induction l as [|f l IH]; intros e; [done|]. destruct f; cbn; apply IH. Qed.

(** Every process that was started got the environment of its moment. *)
Definition startsGood (p : penv) (l : list effect) (e : env) : Prop :=
  forall l1 line cwd b l2, l = l1 ++ FStart line cwd b :: l2 -> b = createEnvBlock p (setsOf l1 e).
(** jom's own environment gives the same block as the one it had at first. *)
Definition alike (p p' : penv) (e : env) : Prop := p_root p' = p_root p /\ (p_path p' = p_path p \/ envContains (s2q "Path") e = true).
Definition envStep (x x' : xst) : Prop :=
  exists l, x_out x' = x_out x ++ l /\ x_env x' = setsOf l (x_env x) /\
    forall p, sortedEnv (x_env x) -> alike p (x_penv x) (x_env x) -> alike p (x_penv x') (x_env x') /\ startsGood p l (x_env x).

Lemma alike_block p p' e : alike p p' e -> createEnvBlock p' e = createEnvBlock p e.
Proof.
  intros [Hr Hp]. unfold createEnvBlock. destruct e as [|kv e]; [done|]. f_equal. do 2 f_equal. unfold envCopy. rewrite Hr.
  destruct Hp as [E|E]; rewrite E; done.
Qed.
Lemma contains_insert k v k' e : sortedEnv e -> envContains k' e = true -> envContains k' (envInsert k v e) = true.
Proof. intros Hs H. unfold envContains in *. rewrite find_insert by done. destruct (decide _); [done|]. done. Qed.
Lemma alike_insert p p' k v e : sortedEnv e -> alike p p' e -> alike p (pathAfter p' (envInsert k v e)) (envInsert k v e).
Proof.
  intros Hs [Hr Hp]. unfold pathAfter. set (m := envInsert k v e). assert (Hm : m = [] -> False).
  { unfold m. destruct e as [|[a b] e']; [done|]. cbn. destruct (keyLt _ _); [done|]. by destruct (keyLt _ _). }
  destruct m as [|kv m'] eqn:Em; [by destruct Hm|]. rewrite <- Em. destruct (envContains (s2q "Path") m) eqn:Ec.
  - split; [done|by right].
  - split; [done|]. destruct Hp as [Hp|Hp]; [by left|]. apply (contains_insert k v) in Hp; [|done]. fold m in Hp. congruence.
Qed.
Lemma startsGood_nil p e : startsGood p [] e.
Proof. intros l1 line cwd b l2 E. by destruct l1. Qed.
Lemma startsGood_app p l l' e : startsGood p l e -> startsGood p l' (setsOf l e) -> startsGood p (l ++ l') e.
Proof.
  intros H H' l1 line cwd b l2 E. apply app_eq_app in E as (k & [[-> E]|[-> E]]).
  - destruct k as [|f k]; cbn in E.
    + subst. rewrite app_nil_r in H'. by rewrite (H' [] line cwd b l2).
    + injection E as <- ->. eapply H. done.
  - rewrite (H' k line cwd b l2 E). by rewrite setsOf_app.
Qed.
Lemma setsOf_sorted l e : sortedEnv e -> sortedEnv (setsOf l e).
Proof. revert e. induction l as [|f l IH]; intros e H; [done|]. destruct f; cbn; apply IH; try done. by apply insert_sorted. Qed.
Lemma envStep_refl x : envStep x x.
Proof. exists []. rewrite app_nil_r. split_and!; [done|done|]. intros p _ H. split; [done|apply startsGood_nil]. Qed.
Lemma envStep_trans x y z : envStep x y -> envStep y z -> envStep x z.
Proof.
  intros (l & Ho & He & Hg) (l' & Ho' & He' & Hg'). exists (l ++ l').
  rewrite Ho', Ho, app_assoc, setsOf_app, <- He. split_and!; [done|done|]. intros p Hs Ha. destruct (Hg p Hs Ha) as [A1 A2].
  destruct (Hg' p) as [B1 B2]; [rewrite He; by apply setsOf_sorted|done|]. split; [done|]. apply startsGood_app; [done|]. by rewrite <- He.
Qed.
(** A step that neither sets a variable nor starts a process. *)
Lemma envStep_plain x x' l : x_out x' = x_out x ++ l -> x_env x' = x_env x -> x_penv x' = x_penv x ->
  Forall (fun f => match f with FSet _ _ | FStart _ _ _ => False | _ => True end) l -> envStep x x'.
Proof.
  intros Ho He Hp Hl. exists l. split; [done|]. split.
  - rewrite He. clear -Hl. induction Hl as [|f l Hf _ IH]; [done|]. destruct f; try done.
  - intros p _ Ha. rewrite Hp, He. split; [done|]. intros l1 line cwd b l2 ->. apply Forall_app in Hl as [_ Hl]. by inversion Hl.
Qed.
Lemma envStep_same x x' : x_out x' = x_out x -> x_env x' = x_env x -> x_penv x' = x_penv x -> envStep x x'.
Proof. intros Ho He Hp. apply (envStep_plain _ _ []); [by rewrite app_nil_r|done|done|constructor]. Qed.
Lemma envStep_emit f x : match f with FSet _ _ | FStart _ _ _ => False | _ => True end -> envStep x (emit f x).
Proof. intros H. apply (envStep_plain _ _ [f]); [done|done|done|by constructor]. Qed.

Lemma envStep_finish b x : envStep x (finishExecution b x).
Proof.
  unfold finishExecution. eapply envStep_trans; [|by apply envStep_emit]. by apply envStep_same.
Qed.
Lemma envStep_echo o c x : envStep x (echo o c x).
Proof. unfold echo. destruct (_ || _); [by apply envStep_emit|apply envStep_refl]. Qed.
Lemma envStep_dir x : envStep x (takeDirectory x).
Proof. unfold takeDirectory. destruct (x_next x); [apply envStep_refl|by apply envStep_same]. Qed.
Lemma envStep_cd o w line x : envStep x (fst (exec_cd o w line x)).
Proof.
  unfold exec_cd. cbv zeta. destruct (trimmed (drop 3 line)).
  { cbn [fst]. eapply envStep_trans; by apply envStep_emit. }
  destruct (if startsWith_ci _ _ then _ else _); [apply envStep_refl|].
  destruct (xw_path _ _); cbn [fst]; [by apply envStep_same|by apply envStep_emit].
Qed.
Lemma envStep_set k v x : envStep x (emit (FSet k v) (setEnvironment (envInsert k v (x_env x)) x)).
Proof.
  exists [FSet k v]. split_and!; [done|done|]. intros p Hs Ha. split; [by apply alike_insert|]. intros l1 line cwd b l2 E. destruct l1 as [|f [|? ?]]; done.
Qed.
Lemma envStep_start w d sh x : envStep x (startProcess w d sh x).
Proof.
  unfold startProcess. cbv zeta. set (b := createEnvBlock _ _). set (dir := toNative _).
  assert (Hx : envStep x (x <| x_cwd := dir |>)) by (by apply envStep_same).
  assert (G : forall line, envStep x (emit (FStart line dir b) (x <| x_cwd := dir |>))).
  { intros line. exists [FStart line dir b]. split_and!; [done|done|]. intros p Hs Ha. split; [done|].
    intros l1 line' cwd' b' l2 E. destruct l1 as [|f [|? ?]]; try done. cbn in E. injection E as <- <- <- _. by apply alike_block. }
  destruct (match d with Some _ => _ | None => _ end); [apply G|]. destruct (xw_runs _ _ _ _); [apply G|].
  eapply envStep_trans; [exact Hx|by apply envStep_emit].
Qed.

Lemma envStep_run o w cs x : envStep x (runCommands o w cs x).
Proof.
  revert x. induction cs as [|c cs IH]; intros x; cbn [runCommands]; [apply envStep_finish|].
  set (y := echo o c (x <| x_cmds := c :: cs |>)).
  assert (Hy : envStep x y).
  { eapply envStep_trans; [|apply envStep_echo]. by apply envStep_same. }
  destruct (classify _ _ _) as [|line|a|d sh].
  - eapply envStep_trans; [exact Hy|apply IH].
  - pose proof (envStep_cd o w line (takeDirectory y)) as Hc. destruct (exec_cd o w line (takeDirectory y)) as [z ok]. cbn [fst] in Hc.
    assert (Hz : envStep x z). { eapply envStep_trans; [exact Hy|]. eapply envStep_trans; [apply envStep_dir|exact Hc]. }
    destruct ok; [|destruct (c_max c <? 1)]; (eapply envStep_trans; [exact Hz|]); [apply IH| |apply IH].
    eapply envStep_trans; [|apply envStep_finish]. by apply envStep_emit.
  - assert (Hz : envStep x (takeDirectory y)). { eapply envStep_trans; [exact Hy|apply envStep_dir]. }
    eapply envStep_trans; [exact Hz|]. destruct a as [[k v]|]; [|apply IH].
    eapply envStep_trans; [|apply IH]. apply envStep_set.
  - eapply envStep_trans; [exact Hy|]. eapply envStep_trans; [apply envStep_dir|apply envStep_start].
Qed.

Lemma envStep_finished o w code x : envStep x (processFinished o w code x).
Proof.
  unfold processFinished. destruct (x_cmds x) as [|c cs]; [apply envStep_refl|].
  destruct (c_max c <? code); [|apply envStep_run]. eapply envStep_trans; [|apply envStep_finish]. by apply envStep_emit.
Qed.

Lemma envStep_cleanup x : envStep x (cleanupTempFiles x).
Proof.
  unfold cleanupTempFiles. set (y := x <| x_temps := [] |>). assert (Hy : envStep x y) by (by apply envStep_same).
  induction (x_temps x) as [|t l IH]; cbn [fold_right]; [done|]. eapply envStep_trans; [exact IH|].
  unfold removeTemp. destruct (snd t); [apply envStep_refl|].
  eapply envStep_trans; [|by apply envStep_emit]. by apply envStep_same.
Qed.

Definition resStep {A} (x : xst) (r : xres (A * xst)) : Prop :=
  match r with XOk (_, y) => envStep x y | XThrow y => envStep x y | XNone => True end.
Lemma envStep_file o w fuel f line x : resStep x (createTempFile o w fuel f line x).
Proof.
  unfold createTempFile. destruct (match if_name f with [] => _ | _ => _ end) as [[n k]|]; [|done].
  set (y := x <| x_ticks := k |>). assert (Hy : envStep x y) by (by apply envStep_same).
  destruct (xw_open w n); [|done]. cbv zeta. cbn [resStep].
  set (z := if xo_dump o then _ else y). assert (Hz : envStep x z).
  { unfold z. destruct (xo_dump o); [|done]. repeat (eapply envStep_trans; [|by apply envStep_emit]). done. }
  eapply envStep_trans; [exact Hz|]. set (a := z <| x_files ::= _ |>).
  assert (Ha : envStep z a) by (by apply envStep_same). eapply envStep_trans; [exact Ha|].
  eapply envStep_trans; [|]. { apply (envStep_emit (FWrite n (if_content f))). done. }
  by apply envStep_same.
Qed.
Lemma envStep_files o w fuel fs line x : resStep x (createForCommand o w fuel fs line x).
Proof.
  revert line x. induction fs as [|f fs IH]; intros line x; cbn [createForCommand]; [apply envStep_refl|].
  pose proof (envStep_file o w fuel f line x) as H. destruct (createTempFile _ _ _ _ _ _) as [[l y]|y|]; [|done|done].
  specialize (IH l y). destruct (createForCommand _ _ _ _ _ _) as [[l2 z]|z|]; cbn in *; try done; by eapply envStep_trans.
Qed.
Lemma envStep_create o w fuel cs x : resStep x (createTempFiles o w fuel cs x).
Proof.
  revert x. induction cs as [|c cs IH]; intros x; cbn [createTempFiles]; [apply envStep_refl|].
  pose proof (envStep_files o w fuel (c_inline c) (c_line c) x) as H.
  destruct (createForCommand _ _ _ _ _ _) as [[l y]|y|]; [|done|done].
  specialize (IH y). destruct (createTempFiles _ _ _ _ _) as [[l2 z]|z|]; cbn in *; try done; by eapply envStep_trans.
Qed.

Lemma envStep_event o w fuel e x x' : execEvent o w fuel e x = Some x' -> envStep x x'.
Proof.
  destruct e as [i t cs|i code]; cbn [execEvent].
  - destruct (x_active x); [done|]. unfold xstart. cbv zeta. set (y := x <| x_target := t |> <| x_active := true |>).
    assert (Hy : envStep x y) by (by apply envStep_same).
    destruct cs as [|c cs]; [intros E; injection E as <-; eapply envStep_trans; [exact Hy|apply envStep_finish]|].
    pose proof (envStep_create o w fuel (c :: cs) (cleanupTempFiles y)) as H.
    destruct (createTempFiles _ _ _ _ _) as [[cs' z]|z|]; [| |done]; intros E; injection E as <-; cbn [resStep] in H.
    + eapply envStep_trans; [exact Hy|]. eapply envStep_trans; [apply envStep_cleanup|]. eapply envStep_trans; [exact H|].
      eapply envStep_trans; [|apply envStep_run]. by apply envStep_same.
    + eapply envStep_trans; [exact Hy|]. eapply envStep_trans; [apply envStep_cleanup|exact H].
  - destruct (x_active x); [|done]. intros E. injection E as <-. apply envStep_finished.
Qed.

(** ** All executors *)

Definition effects (s : xsys) : list effect := map snd (xs_trace s).

Lemma setsOf_none l e : existsb isSet l = false -> setsOf l e = e.
Proof. revert e. induction l as [|f l IH]; intros e H; [done|]. destruct f; cbn in *; try done; by apply IH. Qed.

Definition sysInv (p : penv) (e : env) (s : xsys) : Prop :=
  Forall (fun x => x_env x = setsOf (effects s) e /\ alike p (x_penv x) (x_env x)) (xs_execs s) /\ startsGood p (effects s) e.

Lemma sysEvent_inv o w fuel files ev p e s s' : sortedEnv e -> sysInv p e s -> sysEvent o w fuel files ev s = Some s' -> sysInv p e s'.
Proof.
  intros Hse [Hx Hg] H. unfold sysEvent in H. destruct (xs_execs s !! execOf ev) as [x|] eqn:El; [|done].
  destruct (execEvent _ _ _ _ _) as [x'|] eqn:Ee; [|done]. injection H as <-.
  apply envStep_event in Ee as (l & Ho & He & Hgl). cbn in Ho, He.
  assert (Hxe : x_env x = setsOf (effects s) e /\ alike p (x_penv x) (x_env x)). { rewrite Forall_forall in Hx. apply Hx. by eapply elem_of_list_lookup_2. }
  destruct Hxe as [Hxe Hxa]. cbn in Hgl. destruct (Hgl p) as [Ha' Hgl']; [rewrite Hxe; by apply setsOf_sorted|done|]. clear Hgl. rename Hgl' into Hgl.
  assert (Hef : effects (Xsys (<[execOf ev := x']> (map (share (existsb isSet (x_out x')) x') (xs_execs s)))
    (xs_trace s ++ map (fun f => (execOf ev, f)) (x_out x'))) = effects s ++ l).
  { unfold effects. cbn [xs_trace]. rewrite map_app. f_equal. rewrite Ho. clear. induction l as [|f l IH]; [done|]. cbn. by f_equal. }
  rewrite Hxe in He, Hgl. split.
  - rewrite Hef, setsOf_app. cbn [xs_execs]. apply Forall_insert; [|done].
    apply Forall_fmap. eapply Forall_impl; [exact Hx|]. intros y [Hy _]. cbn. unfold share. rewrite Ho.
    destruct (existsb isSet l) eqn:Es; cbn.
    + done.
    + rewrite (setsOf_none l) in He by done. rewrite (setsOf_none l) by done. split; [done|]. rewrite Hy, <- He. done.
  - rewrite Hef. by apply startsGood_app.
Qed.

Lemma sysRun_inv o s s' p e : sortedEnv e -> sysRun o s s' -> sysInv p e s -> sysInv p e s'.
Proof. intros Hse. induction 1; [done|]. intros H'. by eapply IHsysRun, sysEvent_inv. Qed.

Lemma sysStart_inv n e p : sysInv p e (sysStart n e p).
Proof.
  split; [|apply startsGood_nil]. cbn. apply Forall_forall. intros x Hx. apply elem_of_replicate in Hx as [-> _]. cbn. split; [done|].
  unfold pathAfter. destruct e as [|kv e]; [split; [done|by left]|]. destruct (envContains _ _) eqn:Ec; [split; [done|by right]|split; [done|by left]].
Qed.

(** ** Values *)

Lemma setsOf_find l e k : sortedEnv e -> envFind k (setsOf l e) = lastSet l k (envFind k e).
Proof.
  revert e. induction l as [|f l IH]; intros e H; [done|]. destruct f; cbn; try (by apply IH).
  rewrite IH by (by apply insert_sorted). f_equal. by rewrite find_insert.
Qed.
Lemma setsOf_clean l e : cleanSets l -> Forall cleanVar e -> Forall cleanVar (setsOf l e).
Proof.
  revert e. induction l as [|f l IH]; intros e Hl He; [done|].
  assert (Hl' : cleanSets l). { intros n v H. apply Hl. by right. }
  destruct f; cbn; apply IH; try done. apply insert_clean; [|done]. apply Hl. by left.
Qed.
Lemma setsOf_nonempty l e : e <> [] -> setsOf l e <> [].
Proof.
  revert e. induction l as [|f l IH]; intros e H; [done|]. destruct f; cbn; apply IH; try done.
  destruct e as [|[a b] e]; [done|]. cbn. destruct (keyLt _ _); [done|]. by destruct (keyLt _ _).
Qed.

(** ** Lines that set a variable *)

Lemma replaceGo_none b a s : (forall x y, s <> x ++ b ++ y) -> replaceGo b a 0 s = s.
Proof.
  induction s as [|c s IH]; intros H; cbn [replaceGo]; [done|].
  destruct (startsWith b (c :: s)) eqn:E.
  { apply startsWith_true in E as [t E]. exfalso. by apply (H [] t). }
  f_equal. apply IH. intros x y Es. apply (H (c :: x) y). cbn. by f_equal.
Qed.

Lemma fold_app a b : foldCase (a ++ b) = foldCase a ++ foldCase b.
Proof. apply map_app. Qed.
Lemma setLine_starts line name value p : setLine line name value -> startsWith (foldCase p) (s2q "set" ++ foldCase (drop 3 line)) = false ->
  startsWithCommand line p = false.
Proof.
  intros (w & s & b1 & b2 & -> & Hw & _) H. unfold startsWithCommand, startsWith_ci.
  assert (El : List.length w = 3%nat). { apply (f_equal (@List.length _)) in Hw. unfold foldCase in Hw. by rewrite map_length in Hw. }
  destruct (drop (List.length p) _); [done|]. rewrite drop_app_alt in H by done. rewrite fold_app, Hw, H. by rewrite andb_false_r.
Qed.

Lemma classify_set comspec line name value : setLine line name value -> classify false comspec line = ASet (Some (name, value)).
Proof.
  intros H. pose proof H as (w & s & b1 & b2 & El & Hw & Hs & Hb1 & Hb2 & Ht & Hn & Hc & Hp). unfold classify.
  change (replaceAll (s2q "%%") (s2q "%") line) with (replaceGo (s2q "%%") (s2q "%") 0 line). rewrite replaceGo_none by done.
  assert (Lw : List.length w = 3%nat). { apply (f_equal (@List.length _)) in Hw. unfold foldCase in Hw. by rewrite map_length in Hw. }
  assert (E1 : isShellComment line = false).
  { unfold isShellComment. rewrite (setLine_starts line name value (s2q "rem") H) by (vm_compute; done).
    rewrite orb_false_r. rewrite El. destruct w as [|a w]; [done|]. cbn [app startsWith]. rewrite andb_true_r.
    apply N.eqb_neq. intros <-. discriminate Hw. }
  rewrite E1. cbn [orb].
  assert (E2 : isSimpleCommandLine line = true).
  { unfold isSimpleCommandLine. apply negb_true_iff. apply not_true_iff_false. intros Ex. apply existsb_exists in Ex as (c & Hin & Ex).
    apply elem_of_list_In in Hin. apply (Hc c Hin).
    rewrite !orb_true_iff, !N.eqb_eq in Ex. destruct Ex as [[[->| ->]| ->]| ->]; apply elem_of_list_In; vm_compute; tauto. }
  rewrite E2, (setLine_starts line name value (s2q "cd") H) by (vm_compute; done).
  assert (E3 : startsWithCommand line (s2q "set") = true).
  { unfold startsWithCommand, startsWith_ci. rewrite El. rewrite drop_app_alt by (by rewrite Lw). rewrite Hs. cbn [andb].
    rewrite fold_app, Hw. apply startsWith_app. }
  rewrite E3. unfold assignment. rewrite El. change 4%nat with (3 + 1)%nat. rewrite <- Lw, <- drop_drop, drop_app. cbn [drop].
  rewrite drop_0. rewrite trimmed_blanks; [|done|done|done|]. 2:{ by destruct name. }
  rewrite indexOfChar_at by done. rewrite take_app. f_equal. f_equal. f_equal.
  replace (S (List.length name)) with (List.length name + 1)%nat by lia. by rewrite <- drop_drop, drop_app.
Qed.

Lemma run_set o w c cs x name value : xo_dryRun o = false -> setLine (c_line c) name value ->
  exists x', runCommands o w (c :: cs) x = runCommands o w cs x' /\ x_env x' = envInsert name value (x_env x) /\
    exists l, x_out x' = x_out x ++ l ++ [FSet name value] /\ Forall (fun f => exists b t, f = FPrint b t) l.
Proof.
  intros Hd H. cbn [runCommands]. rewrite Hd, (classify_set _ _ _ _ H). cbv zeta. eexists. split; [reflexivity|].
  set (y := echo o c _). assert (Hy : x_env y = x_env x /\ exists l, x_out y = x_out x ++ l /\ Forall (fun f => exists b t, f = FPrint b t) l).
  { unfold y, echo. destruct (_ || _); cbn.
    - split; [done|]. eexists. split; [reflexivity|]. constructor; [eauto|constructor].
    - split; [done|]. exists []. by rewrite app_nil_r. }
  assert (Hz : x_env (takeDirectory y) = x_env y /\ x_out (takeDirectory y) = x_out y). { unfold takeDirectory. by destruct (x_next y). }
  destruct Hz as [Hz1 Hz2], Hy as (Hy & l & Ho & Hl). cbn. rewrite Hz1, Hz2, Hy, Ho. split; [done|].
  exists l. by rewrite app_assoc.
Qed.
