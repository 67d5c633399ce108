(** C57: what /D shows. As in ExecProps.v everything outside jom is arbitrary, and so is the schedule. *)
From Coq Require Import Ascii String.
From stdpp Require Import prelude gmap.
From Verif Require Import Base Data Infer UpToDate UpToDateSpec Graph Exec ExecSpec SchedInv ExecProofs ExecFacts ExecEx Display DisplaySpec DisplayProofs.
Local Open Scope N_scope.

(** As long as jom has not been stopped by an error, exactly one line has been shown for each decision about a target,
    in the order of the decisions, and one for the target that is waiting for a job token. The line of
    an up-to-date target has the time of its file. Without /A exactly the other targets have an asterisk. *)
Theorem C57_shown xp prep kind w o mk names es s :
  startable o mk -> apply w o mk names = Ok s -> forall s', run xp prep kind w o s es = Some s' -> regular (e_end s') ->
  Forall2 (lineFor (o_all o) w) (decisions (e_log s') ++ waiting (e_next s')) (runShown xp prep kind w o s es).
Proof.
  intros [Hj Hf] Ha s' Hr He. destruct (apply_good kind w o mk names s Hj Hf Ha) as [HI He0].
  destruct (run_dues xp prep kind w o _ es Hj s s' HI He0 Hr He) as (ds & E & F).
  rewrite (apply_dues w o mk names s Ha) in E. fold (dues s'). by rewrite E.
Qed.
Print Assumptions C57_shown.

(** In the pass for one requested target, no target is decided about, and hence shown, twice, and only
    targets that are needed are. *)
Theorem C57_once xp prep kind w o mk names es s :
  startable o mk -> buildRun xp prep kind w o mk names es s -> forall p, p ∈ passes (e_log s) ->
  NoDup (map fst (decisions (p_log p))) /\ forall t, t ∈ map fst (decisions (p_log p)) -> neededFor (p_mk p) (p_root p) t.
Proof.
  intros Hs Hr p Hp. destruct (li_good _ _ _ _ _ (build_LI _ _ _ _ _ _ _ _ _ Hs Hr) p Hp) as [HP _].
  assert (forall pre e post t m, p_log p = pre ++ e :: post -> decision e = Some (t, m) ->
    (not (started pre t) /\ not (dealtWith pre t)) /\ neededFor (p_mk p) (p_root p) t) as H.
  { intros pre e post t m E Hd. destruct e; cbn in Hd; try done; injection Hd as -> _.
    - by destruct (pp_upd _ _ _ _ _ HP _ _ _ _ E) as (_ & ? & ? & ?).
    - by destruct (pp_nocmd _ _ _ _ _ HP _ _ _ _ E) as (_ & ? & ? & ?).
    - by destruct (pp_unb _ _ _ _ _ HP _ _ _ E) as (_ & _ & ? & ? & ?).
    - split; [by apply (pp_once _ _ _ _ _ HP _ _ _ _ E)|by apply (pp_need _ _ _ _ _ HP _ _ _ _ E)]. }
  split.
  - apply decisions_nodup. intros pre e post t m E Hd. by apply (H pre e post t m).
  - intros t Ht. apply elem_of_list_In, in_map_iff in Ht as ([x m] & E & Hin). cbn in E. subst x. apply elem_of_list_In in Hin.
    apply elem_of_list_omap in Hin as (e & He & Hd). apply elem_of_list_split in He as (pre & post & E). by apply (H pre e post t m).
Qed.
Print Assumptions C57_once.

(** Nothing is printed without /D; with it there is a line for everything shown, each beginning with the mark and ending with the name. *)
Theorem C57_line fmt on ls :
  (on = false -> buildInfo on fmt ls = []) /\
  (on = true -> Forall2 (fun l t => exists u, t = (if sh_upToDate l then ch " " else ch "*") :: u
                           /\ sh_target l ++ [10] `suffix_of` u) ls (buildInfo on fmt ls)).
Proof.
  split; [by intros ->|intros ->]. cbn [buildInfo]. induction ls as [|l ls IH]; cbn [map]; constructor; [|exact IH].
  exists (fmt (sh_time l) ++ [32] ++ sh_target l ++ [10]). split; [by destruct l as [[] ? ?]|].
  exists (fmt (sh_time l) ++ [32]). by rewrite <- app_assoc.
Qed.
Print Assumptions C57_line.

(** lib is up to date, obj exists but is older than its source, app does not exist. *)
Definition shownMk : mkfile := exMk
  [exBlock "app" ["lib"; "obj"]%string [exCmd "link" 0];
   exBlock "lib" ["libsrc"]%string [exCmd "ar" 0];
   exBlock "obj" ["src"]%string [exCmd "cc" 0]].
Definition shownW : world := exWorld [("libsrc", 3); ("lib", 4); ("src", 6); ("obj", 5)]%string.
Definition shownEvents : list event := [EvStart go; EvExit 0 0 go; EvStart go; EvStart go; EvExit 0 0 go; EvStart go].
Definition shownStart (o : bopts) : est := match apply shownW o shownMk [] with Ok s => s | _ => initState o shownMk [] 0 end.
Lemma shown_startable o : (0 < o_jobs o)%nat -> startable o shownMk.
Proof. intros H. split; [exact H|]. intros t [= <-]. vm_compute. eauto. Qed.

Example C57_case :
  let o := exOpts false 1 in
  startable o shownMk
  /\ (exists s, apply shownW o shownMk [] = Ok s /\ exists s', run exXp exPrep exKind shownW o s shownEvents = Some s' /\ regular (e_end s'))
  /\ runShown exXp exPrep exKind shownW o (shownStart o) shownEvents
     = [Shown true (T "lib") 4; Shown false (T "obj") 0; Shown false (T "app") 5]
  /\ buildInfo true (fun n => if n =? 4 then s2q "4th" else s2q "1601") [Shown true (T "lib") 4; Shown false (T "obj") 0]
     = [s2q " 4th lib" ++ [10]; s2q "*1601 obj" ++ [10]].
Proof.
  cbv zeta. split; [apply shown_startable; vm_compute; lia|]. split_and!.
  - assert (match apply shownW (exOpts false 1) shownMk [] with
            | Ok s => match run exXp exPrep exKind shownW (exOpts false 1) s shownEvents with
                      | Some s' => match e_end s' with None | Some (EExit _) => true | _ => false end | None => false end
            | _ => false end = true) as H by (vm_compute; reflexivity).
    destruct (apply shownW (exOpts false 1) shownMk []) as [s| | | |]; try done. exists s. split; [done|].
    destruct (run exXp exPrep exKind shownW (exOpts false 1) s shownEvents) as [s'|]; [|done]. exists s'. split; [done|].
    by destruct (e_end s') as [[]|].
  - vm_compute. reflexivity.
  - vm_compute. reflexivity.
Qed.

Example C57_once_case :
  let s := exFinal shownW (exOpts false 1) shownMk [] shownEvents in
  buildRun exXp exPrep exKind shownW (exOpts false 1) shownMk [] shownEvents s
  /\ map (fun p => map fst (decisions (p_log p))) (passes (e_log s)) = [[T "lib"; T "obj"; T "app"]].
Proof. cbv zeta. split; [apply exRun_build; vm_compute; reflexivity|vm_compute; reflexivity]. Qed.

(** The time stamp that is shown is not always that of the file: the one of an out-of-date file has just
    been cleared (dependencygraph.cpp:176-177), so that the line of obj, whose file has the time 5, shows the
    first of January 1601. *)
Theorem C57_time_refuted : exists xp prep kind w o mk names s es s' l,
  startable o mk /\ apply w o mk names = Ok s /\ run xp prep kind w o s es = Some s' /\ e_end s' = Some (EExit 0)
  /\ l ∈ runShown xp prep kind w o s es /\ (forall n, sn_stat (w n) (sh_target l) = Some 5) /\ sh_time l = 0.
Proof.
  exists exXp, exPrep, exKind, shownW, (exOpts false 1), shownMk, [].
  assert (match apply shownW (exOpts false 1) shownMk [] with
          | Ok s => match run exXp exPrep exKind shownW (exOpts false 1) s shownEvents, runShown exXp exPrep exKind shownW (exOpts false 1) s shownEvents with
                    | Some s', [_; l; _] => match e_end s' with Some (EExit 0) => Some l | _ => None end
                    | _, _ => None end
          | _ => None end = Some (Shown false (T "obj") 0)) as H by (vm_compute; reflexivity).
  destruct (apply shownW (exOpts false 1) shownMk []) as [s| | | |]; try discriminate H. exists s, shownEvents.
  destruct (run exXp exPrep exKind shownW (exOpts false 1) s shownEvents) as [s'|]; [|discriminate H].
  destruct (runShown exXp exPrep exKind shownW (exOpts false 1) s shownEvents) as [|l0 [|l [|l2 [|]]]]; try discriminate H.
  exists s', l. destruct (e_end s') as [[[|]| | |]|]; try discriminate H. injection H as ->. split; [|split_and!].
  - apply shown_startable. vm_compute. lia.
  - reflexivity.
  - reflexivity.
  - reflexivity.
  - set_solver.
  - intros n. vm_compute. reflexivity.
  - reflexivity.
Qed.
Print Assumptions C57_time_refuted.
