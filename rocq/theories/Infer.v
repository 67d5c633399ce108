(** Inference rules: makefile.cpp:391-406, 498-669. *)
From stdpp Require Import prelude gmap.
From Verif Require Import Base Data Cmd.
Local Open Scope N_scope.

(** makefile.cpp:396-406 InferenceRule::inferredDependent; QDir::separator() is a
    backslash (92) on Windows. *)
Definition inferredDependent (r : rule) (targetName : qstr) : qstr :=
  let d := qchop (length (r_toExt r)) (qfiFileName targetName) ++ r_fromExt r in
  if qeqb (r_fromPath r) [46] then d else r_fromPath r ++ 92 :: d.

(** makefile.cpp:556-569 Makefile::calculateInferenceRulePriorities: index of the from-extension in
    the suffix list, ignoring case; unchanged (-1) if it is not there. *)
Fixpoint suffixIndex (ext : qstr) (sfx : list qstr) (i : Z) : option Z :=
  match sfx with
  | [] => None
  | x :: sfx' => if qeqb_ci ext x then Some i else suffixIndex ext sfx' (i + 1)%Z
  end.
Definition withPriority (sfx : list qstr) (r : rule) : rule :=
  match suffixIndex (r_fromExt r) sfx 0%Z with
  | Some i => Rule (r_id r) (r_batch r) (r_fromPath r) (r_fromExt r) (r_toPath r) (r_toExt r) i (r_cmds r)
  | None => r
  end.
Definition calculatePriorities (sfx : list qstr) (rs : list rule) : list rule :=
  map (withPriority sfx) rs.

(** makefile.cpp:505-515: the file looked for by filterRulesByDependent. *)
Definition filterName (r : rule) (targetName : qstr) : qstr :=
  r_fromPath r ++ 92 :: qchop (length (r_toExt r)) (qfiFileName targetName) ++ r_fromExt r.

(** makefile.cpp:498-522 Makefile::filterRulesByDependent. The table lookup there uses the name as it
    is, not lower-cased. *)
Definition filterRules (sn : snap) (mk : mkfile) (rs : list rule) (targetName : qstr) : list rule :=
  List.filter (fun r =>
    let n := filterName r targetName in
    (match mk_targets mk !! (n : tid) with Some b => b_exists b | None => false end) || sn_exists sn n) rs.

(** std::stable_sort with infRulesPriorityGreaterThan (makefile.cpp:545-548, 595): descending
    priority numbers, equal ones in the original order. *)
Fixpoint insertRule (r : rule) (l : list rule) : list rule :=
  match l with
  | [] => [r]
  | x :: l' => if (r_prio x <? r_prio r)%Z then r :: l else x :: insertRule r l'
  end.
Definition sortRules (rs : list rule) : list rule := fold_left (fun l r => insertRule r l) rs [].

(** makefile.cpp:594-604: the rule that is applied, if any. *)
Definition chooseRule (sn : snap) (mk : mkfile) (b : block) : option rule :=
  last (sortRules (filterRules sn mk (b_rules b) (b_name b))).

(** A target is changed in place; blocks are pointers, makefile.h:149-160. *)
Definition setBlock (mk : mkfile) (t : tid) (b : block) : mkfile :=
  Mkfile (<[t := b]> (mk_targets mk)) (mk_first mk) (mk_dir mk) (mk_tick mk).

(** makefile.cpp:608-639: m_inferenceRules.clear(). *)
Definition clearRules (b : block) : block :=
  Block (b_name b) (b_deps b) (b_cmds b) [] (b_time b) (b_exists b) (b_acs b).
(** m_dependents, makefile.h:79-122. *)
Definition setDeps (ds : list qstr) (b : block) : block :=
  Block (b_name b) ds (b_cmds b) (b_rules b) (b_time b) (b_exists b) (b_acs b).
(** m_commands, makefile.h:65-73. *)
Definition setCmds (cs : list command) (b : block) : block :=
  Block (b_name b) (b_deps b) cs (b_rules b) (b_time b) (b_exists b) (b_acs b).

(** makefile.cpp:608-639: appended if not contained. *)
Definition addDep (d : qstr) (ds : list qstr) : list qstr :=
  if containsStr d ds then ds else ds ++ [d].

Section Apply.
(** [xp] is MacroTable::expandMacros of the makefile's macro table; [None]: it throws. *)
Context (xp : qstr -> option qstr).

(** makefile.cpp:626-638 / 658-668: the commands of the rule made ready for a target. *)
Definition instInline (subst : qstr) (f : inlineFile) : option inlineFile :=
  match xp (if_content f) with
  | Some c => Some (InlineFile (if_keep f) (if_unicode f) (if_name f)
                      (replaceAll [magicEscape; 60] subst c))
  | None => None
  end.
Fixpoint mapOpt {A B} (f : A -> option B) (l : list A) : option (list B) :=
  match l with
  | [] => Some []
  | x :: l' => match f x with
               | Some y => match mapOpt f l' with Some ys => Some (y :: ys) | None => None end
               | None => None
               end
  end.
Definition instCommand (subst : qstr) (c : command) : option command :=
  match mapOpt (instInline subst) (c_inline c) with
  | None => None
  | Some fs =>
    match xp (c_line c) with
    | None => None
    | Some line =>
      let c' := evaluateModifiers (Command line fs (c_max c) (c_silent c) (c_single c)) in
      Some (Command (replaceAll [magicEscape; 60] subst (c_line c')) (c_inline c') (c_max c')
                    (c_silent c') (c_single c'))
    end
  end.
Definition instCommands (subst : qstr) (cs : list command) : option (list command) :=
  mapOpt (instCommand subst) cs.

(** makefile.cpp:608-639 Makefile::applyInferenceRule, the part behind the batch-mode return. *)
Definition applySingle (mk : mkfile) (t : tid) (b : block) (r : rule) : option mkfile :=
  let d := inferredDependent r (b_name b) in
  match instCommands d (r_cmds r) with
  | None => None
  | Some cs => Some (setBlock mk t (setCmds cs (setDeps (addDep d (b_deps b)) (clearRules b))))
  end.

(** Pending batch-mode work: m_batchModeRules and m_batchModeTargets (makefile.h:226-227), in
    order of insertion. *)
Definition batchq := list (rule * tid).

(** makefile.cpp:588-606 Makefile::applyInferenceRules(target) with 608-614. *)
Definition applyToTarget (batchEnabled : bool) (sn : snap) (mk : mkfile) (q : batchq) (t : tid)
  : option (mkfile * batchq) :=
  match mk_targets mk !! t with
  | None => Some (mk, q)
  | Some b =>
    match chooseRule sn mk b with
    | None => Some (mk, q)
    | Some r =>
      if batchEnabled && r_batch r
      then Some (setBlock mk t (clearRules b), q ++ [(r, t)])
      else match applySingle mk t b r with
           | Some mk' => Some (mk', q)
           | None => None
           end
    end
  end.

(** makefile.cpp:524-543: the rules of one target after the other. *)
Fixpoint applyToTargets (batchEnabled : bool) (sn : snap) (mk : mkfile) (q : batchq) (ts : list tid)
  : option (mkfile * batchq) :=
  match ts with
  | [] => Some (mk, q)
  | t :: ts' => match applyToTarget batchEnabled sn mk q t with
                | Some (mk', q') => applyToTargets batchEnabled sn mk' q' ts'
                | None => None
                end
  end.

(** makefile.cpp:641-669 Makefile::applyInferenceRule(batch, rule). *)
Fixpoint batchCollect (mk : mkfile) (exe : tid) (r : rule) (ts : list tid) (acc : qstr)
  : mkfile * qstr :=
  match ts with
  | [] => (mk, acc)
  | t :: ts' =>
    let mk1 := match mk_targets mk !! t with
               | Some b => setBlock mk t (clearRules b) | None => mk end in
    let d := inferredDependent r (match mk_targets mk !! t with Some b => b_name b | None => [] end) in
    let mk2 := match mk_targets mk1 !! exe with
               | Some e => setBlock mk1 exe (setDeps (addDep d (b_deps e)) e) | None => mk1 end in
    batchCollect mk2 exe r ts' (acc ++ d ++ [32])
  end.
Definition applyBatch (mk : mkfile) (r : rule) (batch : list tid) : option mkfile :=
  match batch with
  | [] => Some mk
  | exe :: _ =>
    let '(mk1, ds) := batchCollect mk exe r batch [] in
    match instCommands ds (r_cmds r) with
    | None => None
    | Some cs => match mk_targets mk1 !! exe with
                 | Some e => Some (setBlock mk1 exe (setCmds cs e))
                 | None => Some mk1
                 end
    end
  end.

(** makefile.cpp:532 filesPerBatch = qMax(1, qRound(float(n) / float(jobs))). Simplification: exact
    rational arithmetic instead of 32-bit floats (they agree for n, jobs below 2^24). *)
Definition filesPerBatch (n jobs : nat) : nat := Nat.max 1 ((2 * n + jobs) / (2 * jobs)).

(** makefile.cpp:533-538, the splitting loop (the do-while never runs on an empty list). *)
Fixpoint chunksFuel {A} (fuel k : nat) (l : list A) : list (list A) :=
  match fuel, l with
  | S fuel', _ :: _ => firstn k l :: chunksFuel fuel' k (skipn k l)
  | _, _ => []
  end.
Definition chunks {A} (k : nat) (l : list A) : list (list A) := chunksFuel (length l) k l.

(** makefile.cpp:524-543, 641-669: one batch after the other. *)
Fixpoint applyBatches (mk : mkfile) (r : rule) (bs : list (list tid)) : option mkfile :=
  match bs with
  | [] => Some mk
  | b :: bs' => match applyBatch mk r b with Some mk' => applyBatches mk' r bs' | None => None end
  end.

(** The distinct rules in the queue (QSet m_batchModeRules).  Simplification: iterated in order of
    first insertion; the targets of different rules are disjoint, so the order is irrelevant for the
    result (makefile.cpp:588-606). *)
Fixpoint queueRules (q : batchq) (seen : list nat) : list rule :=
  match q with
  | [] => []
  | (r, _) :: q' => if existsb (Nat.eqb (r_id r)) seen then queueRules q' seen
                    else r :: queueRules q' (r_id r :: seen)
  end.

(** QMultiHash::values(rule): most recently inserted first (makefile.cpp:524-543). *)
Definition queueTargets (q : batchq) (r : rule) : list tid :=
  rev (map snd (List.filter (fun p => Nat.eqb (r_id (fst p)) (r_id r)) q)).

(** makefile.cpp:524-543: one rule after the other. *)
Fixpoint applyQueue (jobs : nat) (mk : mkfile) (q : batchq) (rs : list rule) : option mkfile :=
  match rs with
  | [] => Some mk
  | r :: rs' =>
    let all := queueTargets q r in
    match applyBatches mk r (chunks (filesPerBatch (length all) jobs) all) with
    | Some mk' => applyQueue jobs mk' q rs'
    | None => None
    end
  end.

(** makefile.cpp:524-543 Makefile::applyInferenceRules(targets). *)
Definition applyInferenceRules (o : bopts) (sn : snap) (mk : mkfile) (ts : list tid) : option mkfile :=
  match applyToTargets (o_batch o) sn mk [] ts with
  | None => None
  | Some (mk', q) => applyQueue (o_jobs o) mk' q (queueRules q [])
  end.
End Apply.
