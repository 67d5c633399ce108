(** Up-to-date check: dependencygraph.cpp:103-180 DependencyGraph::isTargetUpToDate. *)
From stdpp Require Import prelude gmap.
From Verif Require Import Base Data Infer.
Local Open Scope N_scope.

(** m_timeStamp of a block, makefile.h:79-122. *)
Definition setTime (t : N) (b : block) : block :=
  Block (b_name b) (b_deps b) (b_cmds b) (b_rules b) t (b_exists b) (b_acs b).
(** m_bFileExists of a block, makefile.h:79-122. *)
Definition setExists (t : N) (b : block) : block :=
  Block (b_name b) (b_deps b) (b_cmds b) (b_rules b) t true (b_acs b).
(** m_inferenceRules of a block, makefile.h:79-122. *)
Definition setRules (rs : list rule) (b : block) : block :=
  Block (b_name b) (b_deps b) (b_cmds b) rs (b_time b) (b_exists b) (b_acs b).

(** isEmpty() of lists, e.g. dependencygraph.cpp:103-180. *)
Definition isNil {A} (l : list A) : bool := match l with [] => true | _ => false end.

(** FastFileInfo(name).lastModified() as a time, invalid (0) if the file does not exist
    (fastfileinfo.cpp:81-97). *)
Definition statTime (sn : snap) (name : qstr) : N :=
  match sn_stat sn name with Some t => t | None => 0 end.

(** dependencygraph.cpp:115-145: the latest time stamp of the dependents; the loop is left early with
    the current time.  [acc] is latestDependentTime. *)
Fixpoint latestDependentTime (sn : snap) (mk : mkfile) (deps : list qstr) (acc : N) : N :=
  match deps with
  | [] => acc
  | d :: deps' =>
    let dep := match mk_find mk d with Some k => mk_targets mk !! k | None => None end in
    match dep with
    | Some b =>
      if negb (b_exists b) && negb (isNil (b_cmds b)) then sn_now sn
      else
        let ts := if b_time b =? 0 then statTime sn d else b_time b in
        if ts =? 0 then sn_now sn
        else latestDependentTime sn mk deps' (if acc <? ts then ts else acc)
    | None =>
      let ts := statTime sn d in
      if ts =? 0 then sn_now sn
      else latestDependentTime sn mk deps' (if acc <? ts then ts else acc)
    end
  end.

(** dependencygraph.cpp:105-151: without the part about inference rules. *)
Definition upToDateCore (sn : snap) (mk : mkfile) (t : tid) : bool * mkfile :=
  match mk_targets mk !! t with
  | None => (false, mk)
  | Some b0 =>
    let b := match sn_stat sn (b_name b0) with Some tm => setExists tm b0 | None => b0 end in
    let mk1 := setBlock mk t b in
    if isNil (b_deps b) then (b_exists b, mk1)
    else
      let latest := latestDependentTime sn mk1 (b_deps b) 0 in
      let b' := if b_exists b then b else setTime latest b in
      (b_exists b' && (latest <=? b_time b'), setBlock mk1 t b')
  end.

(** dependencygraph.cpp:176-177: the time stamp of an out-of-date file is forgotten. *)
Definition forgetTime (r : bool * mkfile) (t : tid) : bool * mkfile :=
  let '(u, mk) := r in
  match mk_targets mk !! t with
  | Some b => if negb u && b_exists b then (u, setBlock mk t (setTime 0 b)) else (u, mk)
  | None => (u, mk)
  end.

(** dependencygraph.cpp:163-169: existing files that not yet applied rules would add. *)
Fixpoint addInferred (sn : snap) (name : qstr) (rs : list rule) (deps : list qstr) : list qstr :=
  match rs with
  | [] => deps
  | r :: rs' =>
    let d := inferredDependent r name in
    addInferred sn name rs'
      (if negb (containsStr d deps) && match sn_stat sn d with Some _ => true | None => false end
       then deps ++ [d] else deps)
  end.

(** dependencygraph.cpp:103-180.  Simplification: the whole call sees one snapshot of the world; the
    recursive call at line 172 is made with no rules, so it is [forgetTime (upToDateCore ..)]. *)
Definition isTargetUpToDateSnap (sn : snap) (mk : mkfile) (t : tid) : bool * mkfile :=
  let '(u, mk1) := upToDateCore sn mk t in
  match mk_targets mk1 !! t with
  | None => (u, mk1)
  | Some b =>
    let '(u2, mk2) :=
      if u && negb (isNil (b_rules b)) then
        let deps' := addInferred sn (b_name b) (b_rules b) (b_deps b) in
        if (length (b_deps b) <? length deps')%nat then
          let mkx := setBlock mk1 t (setDeps deps' (setRules [] b)) in
          let '(u', mkx') := forgetTime (upToDateCore sn mkx t) t in
          match mk_targets mkx' !! t with
          | Some bx => (u', setBlock mkx' t (setDeps (b_deps b) (setRules (b_rules b) bx)))
          | None => (u', mkx')
          end
        else (u, mk1)
      else (u, mk1) in
    forgetTime (u2, mk2) t
  end.

(** One call consumes one observation of the world (dependencygraph.cpp:103-180). *)
Definition isTargetUpToDate (w : world) (mk : mkfile) (t : tid) : bool * mkfile :=
  let '(u, mk') := isTargetUpToDateSnap (w (mk_tick mk)) mk t in
  (u, Mkfile (mk_targets mk') (mk_first mk') (mk_dir mk') (S (mk_tick mk))).
