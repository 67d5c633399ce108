(** /DUMPGRAPH and /DUMPGRAPHDOT: dependencygraph.cpp:220-253, targetexecutor.cpp:106-114. *)
From Coq Require Import Ascii String.
From stdpp Require Import prelude gmap.
From Verif Require Import Base Data Infer UpToDate Graph.
Local Open Scope N_scope.

(** makefile.h:90-93 DescriptionBlock::targetName. *)
Definition nameIn (mk : mkfile) (t : tid) : qstr := match mk_targets mk !! t with Some b => b_name b | None => [] end.

(** dependencygraph.cpp:226-234 internalDump: the text of a line; puts ends it. Simplification: texts are not encoded
    (qPrintable). *)
Definition dumpLine (mk : mkfile) (p : nat * tid) : qstr := replicate (fst p) 32 ++ nameIn mk (snd p) ++ [10].
(** dependencygraph.cpp:220-224 dump. *)
Definition dump (mk : mkfile) (g : graph) (root : tid) : option qstr :=
  match dumpNode (S (size (g_nodes g))) g 0 root with Some l => Some (concat (map (dumpLine mk) l)) | None => None end.

(** dependencygraph.cpp:244-253 internalDotDump: the edges in the order they are printed; [None]: the recursion does not end
    within the fuel. *)
Fixpoint dotNode (fuel : nat) (g : graph) (parent : option tid) (t : tid) : option (list (tid * tid)) :=
  match fuel with
  | O => None
  | S fuel' =>
    match fold_left (fun acc c => match acc, dotNode fuel' g (Some t) c with
                                  | Some l, Some l' => Some (l ++ l')
                                  | _, _ => None
                                  end) (childrenOf g t) (Some []) with
    | Some l => Some (match parent with Some p => (p, t) :: l | None => l end)
    | None => None
    end
  end.
(** dependencygraph.cpp:246-249: the text of an edge. *)
Definition dotLine (mk : mkfile) (e : tid * tid) : qstr :=
  s2q "  " ++ [34] ++ nameIn mk (fst e) ++ [34] ++ s2q " -> " ++ [34] ++ nameIn mk (snd e) ++ [34] ++ s2q ";" ++ [10].
(** dependencygraph.cpp:236-242 dotDump. *)
Definition dotDump (mk : mkfile) (g : graph) (root : tid) : option qstr :=
  match dotNode (S (size (g_nodes g))) g None root with
  | Some l => Some (s2q "digraph G {" ++ [10] ++ concat (map (dotLine mk) l) ++ s2q "}" ++ [10])
  | None => None
  end.
(** targetexecutor.cpp:107-111: what apply prints. *)
Definition dumped (dot : bool) (mk : mkfile) (g : graph) (root : tid) : option qstr :=
  if dot then dotDump mk g root else dump mk g root.
