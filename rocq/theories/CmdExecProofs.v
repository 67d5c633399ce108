(** Lemmas about one executor: dry runs and inline files. *)
From Coq Require Import Ascii String.
From stdpp Require Import prelude gmap.
From RecordUpdate Require Import RecordSet.
Import RecordSetNotations.
From Verif Require Import Base Data Env CmdExec CmdSys CmdExecSpec.
Local Open Scope N_scope.

(** ** Dry run *)

Lemma classify_dry comspec line : classify true comspec line = ASkip.
Proof. done. Qed.

Lemma run_dry o w cs x : xo_dryRun o = true ->
  x_out (runCommands o w cs x) = x_out x ++ map (fun c => printed (c_line c)) cs ++ [FFinish false] /\
  x_files (runCommands o w cs x) = x_files x /\ x_env (runCommands o w cs x) = x_env x /\
  x_temps (runCommands o w cs x) = x_temps x /\ x_active (runCommands o w cs x) = false.
Proof.
  intros Hd. revert x. induction cs as [|c cs IH]; intros x; cbn [runCommands]; [done|].
  rewrite Hd, classify_dry. cbv zeta. set (y := echo _ _ _). specialize (IH y).
  assert (Hy : x_out y = x_out x ++ [printed (c_line c)] /\ x_files y = x_files x /\ x_env y = x_env x /\ x_temps y = x_temps x).
  { unfold y, echo. by rewrite Hd. }
  destruct Hy as (-> & -> & -> & ->) in IH. destruct IH as (-> & -> & -> & -> & ->). split_and!; try done. by rewrite <- app_assoc.
Qed.

(** What happens before the commands: only prints and effects on files. *)
Definition quiet (f : effect) : Prop := match f with FPrint _ _ | FWrite _ _ | FRemove _ => True | _ => False end.

Lemma removeTemp_facts t s : x_out (removeTemp t s) = x_out s ++ (if snd t then [] else [FRemove (fst t)]) /\
  x_env (removeTemp t s) = x_env s /\ x_temps (removeTemp t s) = x_temps s /\
  x_files (removeTemp t s) = if snd t then x_files s else delete (fst t) (x_files s).
Proof. unfold removeTemp. destruct (snd t); [|done]. by rewrite app_nil_r. Qed.
Lemma cleanup_out x : exists l, x_out (cleanupTempFiles x) = x_out x ++ l /\ Forall quiet l /\
  (x_temps x = [] -> l = []) /\ x_env (cleanupTempFiles x) = x_env x /\ x_temps (cleanupTempFiles x) = [].
Proof.
  unfold cleanupTempFiles. set (y := x <| x_temps := [] |>).
  assert (E : forall l, exists l', x_out (fold_right removeTemp y l) = x_out x ++ l' /\ Forall quiet l' /\ (l = [] -> l' = []) /\
    x_env (fold_right removeTemp y l) = x_env x /\ x_temps (fold_right removeTemp y l) = []).
  { induction l as [|t l (l' & H1 & H2 & H3 & H4 & H5)]; cbn [fold_right].
    - exists []. rewrite app_nil_r. split_and!; by try constructor.
    - destruct (removeTemp_facts t (fold_right removeTemp y l)) as (-> & -> & -> & _). rewrite H1, H4, H5, <- app_assoc.
      eexists. split; [reflexivity|]. split_and!; try done. apply Forall_app. split; [done|]. destruct (snd t); by repeat constructor. }
  apply E.
Qed.

Definition resQuiet {A} (x : xst) (r : xres (A * xst)) (none : Prop) : Prop :=
  match r with
  | XOk (_, y) | XThrow y => exists l, x_out y = x_out x ++ l /\ Forall quiet l /\ (none -> l = []) /\ x_env y = x_env x
  | XNone => True
  end.
Lemma file_out o w fuel f line x : resQuiet x (createTempFile o w fuel f line x) False.
Proof.
  unfold createTempFile. destruct (match if_name f with [] => _ | _ => _ end) as [[n k]|]; [|done].
  destruct (xw_open w n); cbn.
  - destruct (xo_dump o); cbn; rewrite <- ?app_assoc; eexists; (split; [reflexivity|]); (split; [by repeat constructor|done]).
  - exists []. rewrite app_nil_r. split_and!; by try constructor.
Qed.
Lemma files_out o w fuel fs line x : resQuiet x (createForCommand o w fuel fs line x) (fs = []).
Proof.
  revert line x. induction fs as [|f fs IH]; intros line x; cbn [createForCommand].
  { exists []. rewrite app_nil_r. split_and!; by try constructor. }
  pose proof (file_out o w fuel f line x) as H. destruct (createTempFile _ _ _ _ _ _) as [[l y]|y|]; [| |done].
  - destruct H as (l1 & H1 & H2 & _ & H4). specialize (IH l y).
    destruct (createForCommand _ _ _ _ _ _) as [[l2 z]|z|]; cbn in *; try done;
      destruct IH as (l3 & I1 & I2 & _ & I4); exists (l1 ++ l3); rewrite I1, H1, I4, H4, app_assoc;
      (split_and!; [done|by apply Forall_app|done|done]).
  - destruct H as (l1 & H1 & H2 & _ & H4). exists l1. done.
Qed.
Lemma create_out o w fuel cs x : resQuiet x (createTempFiles o w fuel cs x) (Forall (fun c => c_inline c = []) cs).
Proof.
  revert x. induction cs as [|c cs IH]; intros x; cbn [createTempFiles].
  { exists []. rewrite app_nil_r. split_and!; by try constructor. }
  pose proof (files_out o w fuel (c_inline c) (c_line c) x) as H.
  destruct (createForCommand _ _ _ _ _ _) as [[l y]|y|]; [| |done].
  - destruct H as (l1 & H1 & H2 & H3 & H4). specialize (IH y).
    destruct (createTempFiles _ _ _ _ _) as [[l2 z]|z|]; cbn in *; try done;
      destruct IH as (l3 & I1 & I2 & I3 & I4); exists (l1 ++ l3); rewrite I1, H1, I4, H4, app_assoc;
      (split_and!; [done|by apply Forall_app| |done]); intros HF; apply Forall_cons in HF as [Hc HF]; by rewrite H3, I3.
  - destruct H as (l1 & H1 & H2 & H3 & H4). exists l1. split_and!; try done. intros HF. apply Forall_cons in HF as [Hc _]. by apply H3.
Qed.

(** A command without inline files keeps its line. *)
Lemma create_plain o w fuel cs x cs' x' : createTempFiles o w fuel cs x = XOk (cs', x') ->
  Forall (fun c => c_inline c = []) cs -> map c_line cs' = map c_line cs /\ x_files x' = x_files x.
Proof.
  revert x cs' x'. induction cs as [|c cs IH]; intros x cs' x' H HF; cbn [createTempFiles] in H; [by injection H as <- <-|].
  apply Forall_cons in HF as [Hc HF]. rewrite Hc in H. cbn [createForCommand] in H.
  destruct (createTempFiles o w fuel cs x) as [[l2 z]|z|] eqn:E; try done. injection H as <- <-.
  destruct (IH _ _ _ E HF) as [I1 I2]. cbn. by rewrite I1.
Qed.

(** ** Inline files: names and contents *)

Lemma tempName_spec o w fuel x n k : tempName o w fuel x = Some (n, k) ->
  x_files x !! n = None /\ exists j, n = xo_temp o ++ fileNameFromFilePath (x_target x) ++ s2q "." ++ xo_pid o ++ s2q "." ++ xw_tick w j ++ s2q ".jom".
Proof.
  revert x. induction fuel as [|fuel IH]; intros x H; cbn [tempName] in H; [done|].
  match type of H with match ?a !! ?b with _ => _ end = _ => destruct (a !! b) eqn:E end; rewrite ?E in H.
  - apply IH in H. exact H.
  - injection H as <- _. split; [exact E|]. by exists (x_ticks x).
Qed.

Definition putAll (line : qstr) (ns : list qstr) : qstr := foldl putName line ns.
Definition writeAll (nf : list (qstr * inlineFile)) (m : gmap qstr qstr) : gmap qstr qstr :=
  foldl (fun m p => <[fst p := if_content (snd p)]> m) m nf.

Lemma created_files o w t fs ns known : created o w t fs ns known -> List.length ns = List.length fs.
Proof. induction 1; cbn; congruence. Qed.

Lemma file_created o w fuel f line x line' x' : createTempFile o w fuel f line x = XOk (line', x') ->
  exists n, line' = putName line n /\ x_files x' = <[n := if_content f]> (x_files x) /\ x_temps x' = x_temps x ++ [(n, if_keep f)] /\
    x_target x' = x_target x /\ xw_open w n = true /\
    ((if_name f = n /\ n <> []) \/ (if_name f = [] /\ x_files x !! n = None /\
      exists j, n = xo_temp o ++ fileNameFromFilePath (x_target x) ++ s2q "." ++ xo_pid o ++ s2q "." ++ xw_tick w j ++ s2q ".jom")).
Proof.
  unfold createTempFile. intros H.
  destruct (match if_name f with [] => _ | _ => _ end) as [[n k]|] eqn:E; [|done].
  destruct (xw_open w n) eqn:Eo; [|done]. cbv zeta in H. injection H as <- <-. exists n. split; [done|].
  assert (A : forall y, (if xo_dump o then
      emit (FPrint false (s2q "---end of inline file---" ++ [10])) (emit (FPrint false (if_content f))
            (emit (FPrint false (s2q "---" ++ [10])) (emit (FPrint false n) (emit (FPrint false (s2q "---")) y)))) else y)
      = y <| x_out := x_out (if xo_dump o then
      emit (FPrint false (s2q "---end of inline file---" ++ [10])) (emit (FPrint false (if_content f))
            (emit (FPrint false (s2q "---" ++ [10])) (emit (FPrint false n) (emit (FPrint false (s2q "---")) y)))) else y) |>).
  { intros []. by destruct (xo_dump o). }
  rewrite A. cbn. split_and!; try done.
  destruct (if_name f) as [|c m] eqn:En.
  - right. split; [done|]. by apply tempName_spec in E.
  - left. injection E as <- _. done.
Qed.

Lemma files_created o w fuel fs line x line' x' : createForCommand o w fuel fs line x = XOk (line', x') ->
  exists ns, created o w (x_target x) fs ns (dom (x_files x)) /\ line' = putAll line ns /\
    x_files x' = writeAll (zip ns fs) (x_files x) /\ x_temps x' = x_temps x ++ zip ns (map if_keep fs) /\ x_target x' = x_target x.
Proof.
  revert line x. induction fs as [|f fs IH]; intros line x H; cbn [createForCommand] in H.
  { injection H as <- <-. exists []. cbn. rewrite app_nil_r. split_and!; try done. constructor. }
  destruct (createTempFile o w fuel f line x) as [[l y]|y|] eqn:E; [|done|done].
  apply file_created in E as (n & -> & Hf & Ht & Htg & Ho & Hn). apply IH in H as (ns & Hc & -> & Hf' & Ht' & Htg').
  rewrite Htg, Hf in *. rewrite dom_insert_L in Hc. exists (n :: ns). split_and!; try done.
  - destruct Hn as [[Hn1 Hn2]|(Hn1 & Hn2 & j & Hn3)].
    + by constructor.
    + eapply cr_temp; try done. by apply not_elem_of_dom.
  - cbn. by rewrite Ht', Ht, <- app_assoc.
Qed.

Lemma writeAll_dom nf m : dom (writeAll nf m) = list_to_set (map fst nf) ∪ dom m.
Proof.
  revert m. induction nf as [|[n f] nf IH]; intros m; cbn; [by rewrite union_empty_l_L|].
  change (foldl _ _ nf) with (writeAll nf (<[n := if_content f]> m)). rewrite IH, dom_insert_L. set_solver.
Qed.
Lemma writeAll_app a b m : writeAll (a ++ b) m = writeAll b (writeAll a m).
Proof. apply foldl_app. Qed.

Lemma zip_fst {A B} (a : list A) (b : list B) : List.length a = List.length b -> map fst (zip a b) = a.
Proof. revert b. induction a as [|x a IH]; intros [|y b] H; try done. cbn in *. f_equal. apply IH. congruence. Qed.

Lemma create_created o w fuel cs x cs' x' : createTempFiles o w fuel cs x = XOk (cs', x') ->
  exists nss, createdAll o w (x_target x) cs nss (dom (x_files x)) /\
    map c_line cs' = zip_with putAll (map c_line cs) nss /\
    x_files x' = writeAll (zip (concat nss) (concat (map c_inline cs))) (x_files x) /\
    x_temps x' = x_temps x ++ zip (concat nss) (map if_keep (concat (map c_inline cs))) /\ x_target x' = x_target x.
Proof.
  revert x cs' x'. induction cs as [|c cs IH]; intros x cs' x' H; cbn [createTempFiles] in H.
  { injection H as <- <-. exists []. cbn. rewrite app_nil_r. split_and!; try done. constructor. }
  destruct (createForCommand o w fuel (c_inline c) (c_line c) x) as [[l y]|y|] eqn:E; [|done|done].
  destruct (createTempFiles o w fuel cs y) as [[l2 z]|z|] eqn:E2; try done. injection H as <- <-.
  apply files_created in E as (ns & Hc & -> & Hf & Ht & Htg). apply IH in E2 as (nss & Hc' & Hl & Hf' & Ht' & Htg').
  pose proof (created_files _ _ _ _ _ _ Hc) as Hlen. rewrite Htg, Hf in *. rewrite writeAll_dom, zip_fst in Hc' by done.
  exists (ns :: nss). split_and!; try done.
  - by constructor.
  - cbn. by f_equal.
  - cbn [concat map]. rewrite Hf'. rewrite zip_with_app by done. by rewrite writeAll_app.
  - cbn [concat map]. rewrite Ht', Ht, map_app, zip_with_app, <- app_assoc; [done|]. by rewrite map_length.
Qed.

Lemma writeAll_other nf m n : n ∉ map fst nf -> writeAll nf m !! n = m !! n.
Proof.
  revert m. induction nf as [|[k f] nf IH]; intros m H; [done|]. cbn. change (foldl _ _ nf) with (writeAll nf (<[k := if_content f]> m)).
  cbn in H. rewrite not_elem_of_cons in H. destruct H as [H1 H2]. rewrite IH by done. by rewrite lookup_insert_ne.
Qed.
Lemma writeAll_at nf m n f : NoDup (map fst nf) -> (n, f) ∈ nf -> writeAll nf m !! n = Some (if_content f).
Proof.
  revert m. induction nf as [|[k g] nf IH]; intros m Hd Hin; [by apply elem_of_nil in Hin|]. cbn in *.
  change (foldl _ _ nf) with (writeAll nf (<[k := if_content g]> m)). apply NoDup_cons in Hd as [Hk Hd].
  apply elem_of_cons in Hin as [E|Hin].
  - injection E as -> ->. rewrite writeAll_other by done. by rewrite lookup_insert.
  - by apply IH.
Qed.

(** ** Clean-up *)

Lemma cleanup_files x n : x_files (cleanupTempFiles x) !! n = if bool_decide ((n, false) ∈ x_temps x) then None else x_files x !! n.
Proof.
  unfold cleanupTempFiles. set (y := x <| x_temps := [] |>). change (x_files x) with (x_files y).
  induction (x_temps x) as [|[k b] l IH]; cbn [fold_right].
  - rewrite bool_decide_eq_false_2; [done|]. apply not_elem_of_nil.
  - destruct (removeTemp_facts (k, b) (fold_right removeTemp y l)) as (_ & _ & _ & ->). cbn [fst snd]. destruct b.
    + rewrite IH. rewrite (bool_decide_ext _ ((n, false) ∈ (k, true) :: l)); [done|]. rewrite elem_of_cons. split; [auto|]. intros [E|H]; [done|done].
    + destruct (decide (k = n)) as [->|Hn].
      * rewrite lookup_delete, bool_decide_eq_true_2; [done|]. by left.
      * rewrite lookup_delete_ne by done. rewrite IH. rewrite (bool_decide_ext _ ((n, false) ∈ (k, false) :: l)); [done|]. rewrite elem_of_cons. split; [auto|]. intros [E|H]; [congruence|done].
Qed.
Lemma cleanup_removes x n : (n, false) ∈ x_temps x -> exists l1 l2, x_out (cleanupTempFiles x) = x_out x ++ l1 ++ FRemove n :: l2.
Proof.
  unfold cleanupTempFiles. set (y := x <| x_temps := [] |>). change (x_out x) with (x_out y).
  assert (G : forall l, exists l1, x_out (fold_right removeTemp y l) = x_out y ++ l1).
  { induction l as [|t l [l1 IH]]; [exists []; by rewrite app_nil_r|]. cbn [fold_right].
    destruct (removeTemp_facts t (fold_right removeTemp y l)) as (-> & _). rewrite IH, <- app_assoc. by eexists. }
  induction (x_temps x) as [|t l IH]; intros H; [by apply elem_of_nil in H|]. cbn [fold_right].
  destruct (removeTemp_facts t (fold_right removeTemp y l)) as (-> & _).
  apply elem_of_cons in H as [<-|H].
  - destruct (G l) as [l1 ->]. exists l1, []. cbn [fst snd]. by rewrite app_assoc.
  - destruct (IH H) as (l1 & l2 & ->). eexists l1, _. rewrite <- !app_assoc. done.
Qed.

(** ** Names on the command line *)

Lemma indexOf_gap t0 r : ch "<" ∉ t0 -> indexOf (s2q "<<") (t0 ++ s2q "<<" ++ r) = Some (List.length t0).
Proof.
  induction t0 as [|c t0 IH]; intros H; [done|]. rewrite not_elem_of_cons in H. destruct H as [H1 H2].
  cbn [app indexOf]. change (s2q "<<") with [60; 60] at 1. cbn [startsWith].
  rewrite (proj2 (N.eqb_neq 60 c)) by (intros <-; apply H1; done). cbn [andb]. rewrite IH by done. done.
Qed.
Lemma containsChar_iff c s : containsChar c s = true <-> c ∈ s.
Proof.
  unfold containsChar. rewrite existsb_exists. split.
  - intros (x & H & E). apply N.eqb_eq in E as <-. by apply elem_of_list_In.
  - intros H. exists c. split; [by apply elem_of_list_In|apply N.eqb_refl].
Qed.
Lemma quoted_written n : quoted (toNative n) = written n.
Proof.
  unfold written. cbv zeta. change (map (fun c => if c =? 47 then 92 else c) n) with (toNative n).
  generalize (toNative n). intros m. unfold quoted. destruct (decide _) as [H|H].
  - rewrite <- !containsChar_iff, <- orb_true_iff in H. by rewrite H.
  - rewrite <- !containsChar_iff, <- orb_true_iff in H. apply not_true_iff_false in H. by rewrite H.
Qed.
Lemma putName_gap t0 n r : t0 <> [] -> ch "<" ∉ t0 -> putName (t0 ++ s2q "<<" ++ r) n = t0 ++ written n ++ r.
Proof.
  intros Hn Ht. unfold putName. rewrite indexOf_gap by done. destruct t0 as [|c t0]; [done|]. cbn [List.length].
  rewrite quoted_written. unfold qreplaceAt. change (S (List.length t0)) with (List.length (c :: t0)).
  rewrite take_app. f_equal. f_equal. rewrite <- drop_drop, drop_app. done.
Qed.
Lemma written_clean n : ch "<" ∉ n -> ch "<" ∉ written n.
Proof.
  intros H. unfold written. cbv zeta. set (m := map (fun c => if c =? 47 then 92 else c) n). assert (Hm : ch "<" ∉ m).
  { unfold m. intros Hin. apply elem_of_list_fmap in Hin as (c & E & Hin). destruct (c =? 47); [done|]. by subst. }
  destruct (decide _); [|done]. rewrite !not_elem_of_app, !elem_of_list_singleton. split_and!; done.
Qed.
Lemma putAll_gaps t0 ns ts : t0 <> [] -> ch "<" ∉ t0 -> Forall (fun n => ch "<" ∉ n) ns -> Forall (fun t => ch "<" ∉ t) ts ->
  List.length ns = List.length ts -> putAll (gaps t0 ts) ns = filled t0 (zip (map written ns) ts).
Proof.
  intros Hn H0 Hns. revert t0 ts Hn H0. induction Hns as [|n ns Hn1 Hns IH]; intros t0 [|t ts] Hn H0 Hts Hl; try done.
  apply Forall_cons in Hts as [Ht Hts]. unfold putAll. cbn [foldl].
  replace (putName (gaps t0 (t :: ts)) n) with (gaps (t0 ++ written n ++ t) ts).
  - change (foldl putName ?a ns) with (putAll a ns). rewrite IH; [|by destruct t0| |done|by injection Hl].
    + unfold filled. cbn [map zip zip_with concat fst snd]. by rewrite <- !app_assoc.
    + rewrite !not_elem_of_app. split_and!; [done|by apply written_clean|done].
  - unfold gaps. cbn [map concat]. rewrite <- !app_assoc. by rewrite putName_gap.
Qed.
