(** What /D prints: dependencygraph.cpp:344-356 displayNodeBuildInfo and its two calls in
    findAvailableTarget (dependencygraph.cpp:300-342), along a whole build. *)
From stdpp Require Import prelude gmap.
From RecordUpdate Require Import RecordUpdate.
From Verif Require Import Base Data Infer UpToDate Graph Exec.
Local Open Scope N_scope.

(** One call of displayNodeBuildInfo: isUpToDate, the target, its m_timeStamp at that moment
    (dependencygraph.cpp:344-356). *)
Record shown := Shown { sh_upToDate : bool; sh_target : tid; sh_time : N }.

(** m_timeStamp of a target (makefile.h:79-122); invalid if there is no such target. *)
Definition timeOf (mk : mkfile) (t : tid) : N :=
  match mk_targets mk !! t with Some b => b_time b | None => 0 end.

(** dependencygraph.cpp:346-354: the line that is printed; [fmt] is FileTime::toString
    (filetime.cpp:66-79), which calls Windows functions. Simplification: toLocal8Bit is left out, a target
    is named by its key. puts adds the end of the line. *)
Definition infoLine (fmt : N -> qstr) (l : shown) : qstr :=
  (if sh_upToDate l then [32] else [42]) ++ fmt (sh_time l) ++ [32] ++ sh_target l ++ [10].

(** dependencygraph.cpp:346: nothing is printed without /D. *)
Definition buildInfo (on : bool) (fmt : N -> qstr) (ls : list shown) : list qstr :=
  if on then map (infoLine fmt) ls else [].

(** dependencygraph.cpp:305-320, the calls at 314: the leaves of one round are shown after all of them
    have been examined. *)
Fixpoint pruneShown (fuel : nat) (w : world) (mk : mkfile) (g : graph) : list shown :=
  if g_dirty g then
    match fuel with
    | O => []
    | S fuel' =>
      let g1 := Graph (g_nodes g) (g_leaves g) false in
      let '(ups, mk1) := collectUpToDate w mk g1 (g_leaves g1) in
      map (fun p => Shown true (fst p) (timeOf mk1 (fst p))) ups
      ++ pruneShown fuel' w mk1 (fold_left (fun g t => removeLeaf t g) (map fst ups) g1)
    end
  else [].

(** dependencygraph.cpp:300-342 findAvailableTarget: what is shown. With /A the target that is returned is
    examined before it is shown (336). *)
Definition availableShown (xp : qstr -> option qstr) (o : bopts) (w : world) (mk : mkfile) (g : graph) : list shown :=
  if isNil (g_leaves g) then []
  else
    let fuel := S (S (size (g_nodes g))) in
    let pruned := if o_all o then Some (mk, g, []) else pruneLoop fuel w mk g [] in
    (if o_all o then [] else pruneShown fuel w mk g) ++
    match pruned with
    | None => []
    | Some (mk1, g1, _) =>
      match applyInferenceRules xp o (w (mk_tick mk1)) mk1 (rev (g_leaves g1)) with
      | None => []
      | Some mk2' =>
        let mk2 := Mkfile (mk_targets mk2') (mk_first mk2') (mk_dir mk2') (S (mk_tick mk1)) in
        match firstIdle g1 with
        | None => []
        | Some t =>
          let '(u, mk3) := if o_all o then isTargetUpToDate w mk2 t else (false, mk2) in
          [Shown u t (timeOf mk3 t)]
        end
      end
    end.

Section Build.
(** As in Exec.v. *)
Context (xp : qstr -> option qstr) (prep : mkfile -> tid -> nat -> option (list command))
        (kind : command -> ckind) (w : world) (o : bopts).

(** targetexecutor.cpp:203-222 findNextTarget: what is shown. *)
Fixpoint nextShown (fuel : nat) (mk : mkfile) (g : graph) : list shown :=
  match fuel with
  | O => []
  | S fuel' =>
    availableShown xp o w mk g ++
    match findAvailableTarget xp o w mk g with
    | Ok (Some t, mk1, g1, _) =>
      let cmds := match mk_targets mk1 !! t with Some b => b_cmds b | None => [] end in
      if isNil cmds || (o_keep o && bool_decide (stateOf g1 t = Unbuildable))
      then nextShown fuel' mk1 (removeLeaf t g1) else []
    | _ => []
    end
  end.

(** targetexecutor.cpp:119-128 startProcesses: a target is looked for if none is waiting. *)
Definition startShown (s : est) : list shown :=
  if e_aborted s || negb (bool_decide (e_acquiring s = AIdle)) || isNil (e_avail s) then []
  else match e_next s with
       | Some _ => []
       | None => nextShown (S (S (size (g_nodes (e_g s))))) (e_mk s) (e_g s)
       end.

(** Only the search in startProcesses shows anything (targetexecutor.cpp:119-267). *)
Definition stepShown (s : est) (e : event) : list shown :=
  match e with EvStart _ => startShown s | _ => [] end.

(** What is shown during an execution (targetexecutor.cpp:119-267). *)
Fixpoint runShown (s : est) (es : list event) : list shown :=
  match es with
  | [] => []
  | e :: es' => match step xp prep kind w o s e with
                | Some s' => stepShown s e ++ runShown s' es'
                | None => []
                end
  end.
End Build.
