(** The end of parsing: active targets, sync points, cycle check, preselection of inference rules.
    parser.cpp:110-157, 643-754. *)
From stdpp Require Import prelude gmap.
From Verif Require Import Base Data Infer UpToDate Graph.
Local Open Scope N_scope.

(** The dependents of a target, parser.cpp:673, 690, 738. *)
Definition depsOf (mk : mkfile) (t : tid) : list qstr :=
  match mk_targets mk !! t with Some b => b_deps b | None => [] end.

(** ** parser.cpp:643-683 Parser::checkForCycles *)

(** The result: the targets with m_bNoCyclesRootedHere set; the target named in the exception; or, in the
    model only, the end of the fuel (parser.cpp:643-683). *)
Inductive cycres := NoCycle (done : list tid) | CycleAt (t : tid) | CycleFuel.

(** The loop at 673-676; [rec] is the recursive call.  The null test at 649 is the [None] case (parser.cpp:673-676). *)
Fixpoint checkDeps (rec : list tid -> tid -> cycres) (mk : mkfile) (deps : list qstr) (done : list tid)
  : cycres :=
  match deps with
  | [] => NoCycle done
  | d :: deps' =>
    match mk_find mk d with
    | None => checkDeps rec mk deps' done
    | Some c =>
      match rec done c with
      | NoCycle done' => checkDeps rec mk deps' done'
      | r => r
      end
    end
  end.
(** [path] holds the targets with m_bVisitedByCycleCheck set: set at 672, cleared at 677 (parser.cpp:643-683). *)
Fixpoint checkForCycles (fuel : nat) (mk : mkfile) (path done : list tid) (t : tid) : cycres :=
  match fuel with
  | O => CycleFuel
  | S fuel' =>
    if decide (t ∈ done) then NoCycle done
    else if decide (t ∈ path) then CycleAt t
    else
      match checkDeps (checkForCycles fuel' mk (t :: path)) mk (rev (depsOf mk t)) done with
      | NoCycle done' => NoCycle (t :: done')
      | r => r
      end
  end.

(** parser.cpp:685-696 Parser::resetCycleChecker; the result is the set of targets that still have
    m_bNoCyclesRootedHere set; [None]: out of fuel. *)
Fixpoint resetDeps (rec : list tid -> tid -> option (list tid)) (mk : mkfile) (deps : list qstr)
    (done : list tid) : option (list tid) :=
  match deps with
  | [] => Some done
  | d :: deps' =>
    match mk_find mk d with
    | None => resetDeps rec mk deps' done
    | Some c => match rec done c with Some done' => resetDeps rec mk deps' done' | None => None end
    end
  end.
Fixpoint resetCycleChecker (fuel : nat) (mk : mkfile) (done : list tid) (t : tid) : option (list tid) :=
  match fuel with
  | O => None
  | S fuel' =>
    if decide (t ∈ done) then
      match resetDeps (resetCycleChecker fuel' mk) mk (rev (depsOf mk t)) done with
      | Some done' => Some (List.filter (fun x => bool_decide (x <> t)) done')
      | None => None
      end
    else Some done
  end.

(** ** Preselection of inference rules *)

(** parser.cpp:712-716: the directory part of a target name as compared with a rule's search path. *)
Definition dirOfTarget (n : qstr) : qstr :=
  let dir := removeDirSeparatorAtEnd (qleft (length n - length (fileNameFromFilePath n)) n) in
  if isEmpty dir then [46] else dir.

(** parser.cpp:698-725 Parser::findRulesByTargetName with the suffix cache of 140-144.  [exts] is the
    order in which the hash table yields its keys (the to-extensions of the rules); within one key the
    rules are in the order of their definition. *)
Definition findRules (exts : list qstr) (rules : list rule) (name : qstr) : list rule :=
  flat_map (fun ext =>
    if endsWith_ci ext name then
      List.filter (fun r => qeqb (r_toExt r) ext && negb (r_prio r <? 0)%Z && qeqb (dirOfTarget name) (r_toPath r)) rules
    else []) exts.

(** parser.cpp:289-295 createTarget with makefile.h:149-153 and makefile.cpp:114-127. *)
Definition newBlock (name : qstr) (rs : list rule) : block := Block name [] [] rs 0 false ACSUnknown.
Definition createTarget (mk : mkfile) (name : qstr) (rs : list rule) : mkfile :=
  Mkfile (<[keyOf name := newBlock name rs]> (mk_targets mk))
         (match mk_first mk with None => Some (keyOf name) | f => f end) (mk_dir mk) (mk_tick mk).

(** parser.cpp:727-754 preselectInferenceRules; the state is the makefile and the targets with
    m_bInferenceRulesPreselected set; [None]: out of fuel.  A target created by line 747 over an existing
    entry of the table starts with the flag cleared. *)
Definition preState := (mkfile * list tid)%type.
Fixpoint preselectDeps (rec : preState -> tid -> option preState) (exts : list qstr) (rules : list rule)
    (deps : list qstr) (st : preState) : option preState :=
  match deps with
  | [] => Some st
  | d :: deps' =>
    match mk_find (fst st) d with
    | Some c => match rec st c with
                | Some st' => preselectDeps rec exts rules deps' st'
                | None => None
                end
    | None =>
      let n := removeDoubleQuotes d in
      let rs := findRules exts rules n in
      preselectDeps rec exts rules deps'
        (if isNil rs then st
         else (createTarget (fst st) n rs, List.filter (fun x => bool_decide (x <> keyOf n)) (snd st)))
    end
  end.
(** parser.cpp:732-736. *)
Definition selectOwn (exts : list qstr) (rules : list rule) (mk : mkfile) (t : tid) : mkfile :=
  match mk_targets mk !! t with
  | None => mk
  | Some b =>
    if isNil (b_cmds b) then
      let rs := findRules exts rules (b_name b) in
      if isNil rs then mk else setBlock mk t (setRules rs b)
    else mk
  end.
Fixpoint preselect (fuel : nat) (exts : list qstr) (rules : list rule) (st : preState) (t : tid)
  : option preState :=
  match fuel with
  | O => None
  | S fuel' =>
    if decide (t ∈ snd st) then Some st
    else
      let mk1 := selectOwn exts rules (fst st) t in
      match preselectDeps (preselect fuel' exts rules) exts rules (depsOf mk1 t) (mk1, snd st) with
      | Some (mk2, pre) => Some (mk2, t :: pre)
      | None => None
      end
  end.

(** ** The end of Parser::apply *)

(** parser.cpp:146-151: check and preselect one active target after the other.  A name that is no target
    would be dereferenced by preselectInferenceRules (729). *)
Fixpoint checkRoots (exts : list qstr) (rules : list rule) (mk : mkfile) (done pre : list tid)
    (names : list qstr) : outcome (mkfile * list tid) :=
  match names with
  | [] => Ok (mk, done)
  | n :: names' =>
    match mk_find mk n with
    | None => Crashes
    | Some t =>
      match checkForCycles (S (size (mk_targets mk))) mk [] done t with
      | NoCycle done' =>
        match preselect (S (S (size (mk_targets mk)))) exts rules (mk, pre) t with
        | Some (mk', pre') => checkRoots exts rules mk' done' pre' names'
        | None => Diverges
        end
      | CycleAt _ => Throws
      | CycleFuel => Diverges
      end
    end
  end.
(** parser.cpp:152-156. *)
Fixpoint resetRoots (mk : mkfile) (done : list tid) (names : list qstr) : option (list tid) :=
  match names with
  | [] => Some done
  | n :: names' =>
    match mk_find mk n with
    | None => resetRoots mk done names'
    | Some t =>
      match resetCycleChecker (S (size (mk_targets mk))) mk done t with
      | Some done' => resetRoots mk done' names'
      | None => None
      end
    end
  end.

(** QStringList::removeDuplicates: the first occurrences stay (parser.cpp:137). *)
Fixpoint removeDupsGo (seen l : list qstr) : list qstr :=
  match l with
  | [] => []
  | x :: l' => if containsStr x seen then removeDupsGo seen l' else x :: removeDupsGo (x :: seen) l'
  end.
(** parser.cpp:137. *)
Definition removeDups (l : list qstr) : list qstr := removeDupsGo [] l.

(** parser.cpp:129-138: dependencies from .SYNC; [sync] lists the hash table in the order of the
    iteration, which stops at the first key that is not a target. *)
Fixpoint applySync (sync : list (qstr * list qstr)) (mk : mkfile) : mkfile :=
  match sync with
  | [] => mk
  | (k, ds) :: sync' =>
    match mk_find mk k with
    | None => mk
    | Some t =>
      match mk_targets mk !! t with
      | None => mk
      | Some b => applySync sync' (setBlock mk t (setDeps (removeDups (b_deps b ++ ds)) b))
      end
    end
  end.

(** parser.cpp:110-157, what follows the loop over the lines. [sfx] are the suffixes, [rules] the
    inference rules, [exts] the order of the suffix cache. The result: the makefile, the active targets
    and the targets whose cycle flag is left set. *)
Definition finishParse (exts sfx : list qstr) (rules : list rule) (sync : list (qstr * list qstr))
    (mk : mkfile) (active : list qstr) : outcome (mkfile * list qstr) :=
  if decide (mk_targets mk = ∅) then Ok (mk, active)
  else if existsb (fun n => match mk_find mk n with None => true | Some _ => false end) active then Throws
  else
    match (match active with
           | [] => match mk_first mk with
                   | Some t => match mk_targets mk !! t with Some b => Some [b_name b] | None => None end
                   | None => None
                   end
           | _ => Some active
           end) with
    | None => Crashes
    | Some names =>
      match checkRoots exts (calculatePriorities sfx rules) (applySync sync mk) [] [] names with
      | Ok (mk', done) => match resetRoots mk' done names with
                          | Some _ => Ok (mk', names)
                          | None => Diverges
                          end
      | Throws => Throws
      | Exits c => Exits c
      | Diverges => Diverges
      | Crashes => Crashes
      end
    end.
