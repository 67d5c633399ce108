(** What /DUMPGRAPH has to print: the dependencies, from the requested target downwards. *)
From Coq Require Import Relations Ascii String.
From stdpp Require Import prelude gmap.
From Verif Require Import Base Data Graph ExecSpec.
Local Open Scope N_scope.

(** The first occurrences of the elements of a list. *)
Fixpoint firsts (l : list tid) : list tid :=
  match l with [] => [] | x :: l => x :: filter (fun y => y <> x) (firsts l) end.
(** The targets that [t] depends on, in the order in which they are listed. *)
Definition kids (mk : mkfile) (t : tid) : list tid :=
  match mk_targets mk !! t with Some b => firsts (omap (resolveDep mk) (b_deps b)) | None => [] end.

(** A target at depth [d], followed by all that is below it. *)
Inductive walk (mk : mkfile) : nat -> tid -> list (nat * tid) -> Prop :=
| wk_node d t ls : walks mk (S d) (kids mk t) ls -> walk mk d t ((d, t) :: ls)
with walks (mk : mkfile) : nat -> list tid -> list (nat * tid) -> Prop :=
| wk_nil d : walks mk d [] []
| wk_cons d c cs l ls : walk mk d c l -> walks mk d cs ls -> walks mk d (c :: cs) (l ++ ls).

(** The edges below the targets [cs] of [t], each followed by those of its end. *)
Inductive edgesBelow (mk : mkfile) : tid -> list tid -> list (tid * tid) -> Prop :=
| eb_nil t : edgesBelow mk t [] []
| eb_cons t c cs l ls : edgesBelow mk c (kids mk c) l -> edgesBelow mk t cs ls -> edgesBelow mk t (c :: cs) ((t, c) :: l ++ ls).

(** There is a chain of [n] dependencies from [t] to [x]. *)
Inductive chain (mk : mkfile) : tid -> nat -> tid -> Prop :=
| ch_here t : chain mk t 0 t
| ch_step t c n x : dependsOn mk t c -> chain mk c n x -> chain mk t (S n) x.

(** The texts. *)
Definition indented (p : nat * qstr) : qstr := replicate (fst p) 32 ++ snd p ++ [10].
Definition arrow (e : qstr * qstr) : qstr := s2q "  """ ++ fst e ++ s2q """ -> """ ++ snd e ++ s2q """;" ++ [10].
Definition digraph (es : list (qstr * qstr)) : qstr := s2q "digraph G {" ++ [10] ++ concat (map arrow es) ++ s2q "}" ++ [10].
