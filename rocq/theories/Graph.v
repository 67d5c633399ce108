(** The dependency graph: dependencygraph.h / dependencygraph.cpp. *)
From stdpp Require Import prelude gmap.
From Verif Require Import Base Data Infer UpToDate.
Local Open Scope N_scope.

(** How a piece of the program may end besides returning normally: it throws an Exception, calls
    exit(code), recurses or loops without end, or does something undefined (e.g. dependencygraph.cpp:182-218). *)
Inductive outcome (A : Type) :=
| Ok (a : A)
| Throws
| Exits (code : N)
| Diverges
| Crashes.
Arguments Ok {A} a.
Arguments Throws {A}.
Arguments Exits {A} code.
Arguments Diverges {A}.
Arguments Crashes {A}.

(** dependencygraph.h:54-62 Node. Nodes are identified with their targets: m_nodeContainer maps every
    target to at most one node. *)
Inductive nstate := UnknownState | ExecutingState | Unbuildable.
Record node := Node { nd_state : nstate; nd_children : list tid; nd_parents : list tid }.

Global Instance nstate_eq_dec : EqDecision nstate.
Proof. solve_decision. Defined.

(** dependencygraph.h:75-79 the members of DependencyGraph (m_root is only used by dump). *)
Record graph := Graph {
  g_nodes : gmap tid node;
  g_leaves : list tid;
  g_dirty : bool;
}.

(** dependencygraph.cpp:255-261 clear (m_bDirtyLeaves is left alone). *)
Definition clearGraph (g : graph) : graph := Graph ∅ [] (g_dirty g).
Definition emptyGraph : graph := Graph ∅ [] true.

(** A node is changed, e.g. dependencygraph.cpp:263-269. *)
Definition updNode (t : tid) (f : node -> node) (g : graph) : graph :=
  Graph (alter f t (g_nodes g)) (g_leaves g) (g_dirty g).

(** dependencygraph.cpp:263-269: appended if not contained. *)
Definition addOnce (x : tid) (l : list tid) : list tid :=
  if decide (x ∈ l) then l else l ++ [x].

(** dependencygraph.cpp:263-269 addEdge. *)
Definition addEdge (p c : tid) (g : graph) : graph :=
  updNode c (fun n => Node (nd_state n) (nd_children n) (addOnce p (nd_parents n)))
    (updNode p (fun n => Node (nd_state n) (addOnce c (nd_children n)) (nd_parents n)) g).

(** dependencygraph.cpp:48-59 createNode. (There the edge is added before the node is put into the
    container; the order does not matter.) *)
Definition createNode (t : tid) (parent : option tid) (g : graph) : graph :=
  let g1 := Graph (<[t := Node UnknownState [] []]> (g_nodes g)) (g_leaves g) (g_dirty g) in
  match parent with
  | Some p => addEdge p t g1
  | None => g1
  end.

(** dependencygraph.cpp:189-194: look the dependent up by its name and then below the directory of
    the makefile. *)
Definition resolveDep (mk : mkfile) (d : qstr) : option tid :=
  match mk_find mk d with
  | Some k => Some k
  | None => mk_find mk (mk_dir mk ++ 92 :: d)
  end.

(** dependencygraph.h:54-62 Node::children. *)
Definition childrenOf (g : graph) (t : tid) : list tid :=
  match g_nodes g !! t with Some n => nd_children n | None => [] end.
(** dependencygraph.h:54-62 Node::parents. *)
Definition parentsOf (g : graph) (t : tid) : list tid :=
  match g_nodes g !! t with Some n => nd_parents n | None => [] end.

(** dependencygraph.cpp:182-218 internalBuild; [rec] is the recursive call, the fuel bounds the
    recursion depth. Simplification: the construction of one graph sees one snapshot of the file
    system. *)
Fixpoint buildDeps (rec : graph -> list tid -> tid -> outcome (graph * list tid))
    (sn : snap) (mk : mkfile) (t : tid) (deps : list qstr) (g : graph) (seen : list tid)
  : outcome (graph * list tid) :=
  match deps with
  | [] => Ok (if isNil (childrenOf g t) then Graph (g_nodes g) (g_leaves g ++ [t]) (g_dirty g) else g,
              seen)
  | d :: deps' =>
    match resolveDep mk d with
    | None =>
      match sn_stat sn d with
      | Some _ => buildDeps rec sn mk t deps' g seen
      | None => Exits 2
      end
    | Some c =>
      let g' := match g_nodes g !! c with
                | Some _ => addEdge t c g
                | None => createNode c (Some t) g
                end in
      match rec g' seen c with
      | Ok (g'', seen'') => buildDeps rec sn mk t deps' g'' seen''
      | e => e
      end
    end
  end.
Fixpoint internalBuild (fuel : nat) (sn : snap) (mk : mkfile) (g : graph) (seen : list tid) (t : tid)
  : outcome (graph * list tid) :=
  match fuel with
  | O => Diverges
  | S fuel' =>
    if decide (t ∈ seen) then Ok (g, seen)
    else
      let deps := match mk_targets mk !! t with Some b => b_deps b | None => [] end in
      buildDeps (internalBuild fuel' sn mk) sn mk t deps g (t :: seen)
  end.

(** dependencygraph.cpp:68-83 build. *)
Definition buildGraph (sn : snap) (mk : mkfile) (g : graph) (t : tid) : outcome graph :=
  let g1 := createNode t None (Graph (g_nodes g) (g_leaves g) true) in
  match internalBuild (S (S (size (mk_targets mk)))) sn mk g1 [] t with
  | Ok (g', _) => Ok g'
  | Throws => Throws
  | Exits c => Exits c
  | Diverges => Diverges
  | Crashes => Crashes
  end.

(** QList::removeOne (dependencygraph.cpp:283-298). *)
Fixpoint removeOne (x : tid) (l : list tid) : list tid :=
  match l with
  | [] => []
  | y :: l' => if decide (x = y) then l' else y :: removeOne x l'
  end.

(** dependencygraph.cpp:290-296: the loop over the parents in removeLeaf. *)
Definition detachFrom (t p : tid) (g : graph) : graph :=
  match g_nodes g !! p with
  | None => g     (* a dangling pointer; excluded by the well-formedness invariant *)
  | Some n =>
    let ch := removeOne t (nd_children n) in
    let g1 := Graph (<[p := Node (nd_state n) ch (nd_parents n)]> (g_nodes g)) (g_leaves g) (g_dirty g) in
    if isNil ch then Graph (g_nodes g1) (g_leaves g1 ++ [p]) true else g1
  end.
(** dependencygraph.cpp:276-298 removeLeaf (both overloads) with deleteNode (61-66). *)
Definition removeLeaf (t : tid) (g : graph) : graph :=
  match g_nodes g !! t with
  | None => g
  | Some n =>
    let g1 := Graph (g_nodes g) (List.filter (fun x => bool_decide (x ≠ t)) (g_leaves g)) (g_dirty g) in
    let g2 := fold_left (fun g p => detachFrom t p g) (nd_parents n) g1 in
    Graph (delete t (g_nodes g2)) (g_leaves g2) (g_dirty g2)
  end.

(** dependencygraph.h:54-62 Node::state. *)
Definition stateOf (g : graph) (t : tid) : nstate :=
  match g_nodes g !! t with Some n => nd_state n | None => UnknownState end.

(** dependencygraph.cpp:309-312: collect the leaves that are up to date, in order, each with the makefile
    as it was when it was examined (model only). *)
Fixpoint collectUpToDate (w : world) (mk : mkfile) (g : graph) (ls : list tid)
  : list (tid * mkfile) * mkfile :=
  match ls with
  | [] => ([], mk)
  | t :: ls' =>
    if decide (stateOf g t = ExecutingState) then collectUpToDate w mk g ls'
    else
      let '(u, mk1) := isTargetUpToDate w mk t in
      let '(r, mk2) := collectUpToDate w mk1 g ls' in
      ((if u then (t, mk) :: r else r), mk2)
  end.

(** dependencygraph.cpp:305-320: remove up-to-date leaves until nothing changes; [None]: out of
    fuel.  [acc] collects the removed targets (reported by displayNodeBuildInfo at 314). *)
Fixpoint pruneLoop (fuel : nat) (w : world) (mk : mkfile) (g : graph)
    (acc : list (tid * mkfile)) : option (mkfile * graph * list (tid * mkfile)) :=
  if g_dirty g then
    match fuel with
    | O => None
    | S fuel' =>
      let g1 := Graph (g_nodes g) (g_leaves g) false in
      let '(ups, mk1) := collectUpToDate w mk g1 (g_leaves g1) in
      pruneLoop fuel' w mk1 (fold_left (fun g t => removeLeaf t g) (map fst ups) g1) (acc ++ ups)
    end
  else Some (mk, g, acc).

(** dependencygraph.h:54-62 Node::state, e.g. dependencygraph.cpp:95-101. *)
Definition setState (s : nstate) (t : tid) (g : graph) : graph :=
  updNode t (fun n => Node s (nd_children n) (nd_parents n)) g.

(** dependencygraph.cpp:333-339: the first leaf that is not being executed. *)
Definition firstIdle (g : graph) : option tid :=
  List.find (fun t => bool_decide (stateOf g t ≠ ExecutingState)) (g_leaves g).

(** dependencygraph.cpp:300-342 findAvailableTarget. The hash tables at 324-331 hold all leaves of the
    only makefile; QMultiHash::values gives them in reverse order.  The last component of the result
    lists the targets removed as up to date. *)
Definition findAvailableTarget (xp : qstr -> option qstr) (o : bopts) (w : world) (mk : mkfile) (g : graph)
  : outcome (option tid * mkfile * graph * list (tid * mkfile)) :=
  if isNil (g_leaves g) then Ok (None, mk, g, [])
  else
    let pruned := if o_all o then Some (mk, g, [])
                  else pruneLoop (S (S (size (g_nodes g)))) w mk g [] in
    match pruned with
    | None => Diverges
    | Some (mk1, g1, ups) =>
      match applyInferenceRules xp o (w (mk_tick mk1)) mk1 (rev (g_leaves g1)) with
      | None => Throws
      | Some mk2' =>
        let mk2 := Mkfile (mk_targets mk2') (mk_first mk2') (mk_dir mk2') (S (mk_tick mk1)) in
        match firstIdle g1 with
        | None => Ok (None, mk2, g1, ups)
        | Some t =>
          let g2 := if decide (stateOf g1 t = Unbuildable) then g1 else setState ExecutingState t g1 in
          let mk3 := if o_all o then snd (isTargetUpToDate w mk2 t) else mk2 in
          Ok (Some t, mk3, g2, ups)
        end
      end
    end.

(** dependencygraph.cpp:95-101 markParentsRecursivlyUnbuildable; [None]: the recursion does not end
    within the fuel. *)
Fixpoint markParents (fuel : nat) (t : tid) (g : graph) : option graph :=
  match fuel with
  | O => None
  | S fuel' =>
    fold_left (fun og p => match og with
                           | Some g' => markParents fuel' p (setState Unbuildable p g')
                           | None => None
                           end) (parentsOf g t) (Some g)
  end.

(** dependencygraph.cpp:220-235 dump / internalDump: the printed lines as (depth, target); [None]: the
    recursion does not end within the fuel. *)
Fixpoint dumpNode (fuel : nat) (g : graph) (depth : nat) (t : tid) : option (list (nat * tid)) :=
  match fuel with
  | O => None
  | S fuel' =>
    match fold_left (fun acc c => match acc, dumpNode fuel' g (S depth) c with
                                  | Some l, Some l' => Some (l ++ l')
                                  | _, _ => None
                                  end) (childrenOf g t) (Some []) with
    | Some l => Some ((depth, t) :: l)
    | None => None
    end
  end.
