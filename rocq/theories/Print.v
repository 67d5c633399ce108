(** What /P prints: main.cpp:187-194, macrotable.cpp:369-375, makefile.cpp:458-496.
    Simplification: texts are not encoded (qPrintable). *)
From Coq Require Import Ascii String.
From stdpp Require Import prelude gmap.
From Verif Require Import Base Data Macro.
Local Open Scope N_scope.

(** macrotable.cpp:369-375 MacroTable::dump. The macros come in the order of the iteration over a QHash, which can be any:
    the function gets them in that order. *)
Definition macroText (p : qstr * mdata) : qstr := fst p ++ s2q " = " ++ md_value (snd p) ++ [10].
Definition macrosText (l : list (qstr * mdata)) : qstr := concat (map macroText l).

(** makefile.cpp:471-473, 489-491: a line of a list. *)
Definition entryText (s : qstr) : qstr := [9] ++ s ++ [10].

(** makefile.cpp:478-487: the first line of a rule. *)
Definition pathText (p : qstr) : qstr := if qeqb p [46] then [] else [123] ++ p ++ [125].
Definition ruleHead (r : rule) : qstr :=
  pathText (r_fromPath r) ++ r_fromExt r ++ pathText (r_toPath r) ++ r_toExt r ++ (if r_batch r then s2q "::" else s2q ":").
(** makefile.cpp:476-496 Makefile::dumpInferenceRules. *)
Definition ruleText (r : rule) : qstr := ruleHead r ++ [10] ++ concat (map (fun c => entryText (c_line c)) (r_cmds r)) ++ [10].
Definition rulesText (l : list rule) : qstr := concat (map ruleText l).

(** makefile.cpp:458-474 Makefile::dumpTargets, for one target; there is no end of line behind the two titles. *)
Definition blockText (b : block) : qstr :=
  b_name b ++ s2q ":" ++ [10; 9] ++ s2q "dependents:" ++ concat (map entryText (b_deps b)) ++
  [9] ++ s2q "commands:" ++ concat (map (fun c => entryText (c_line c)) (b_cmds b)) ++ [10].
(** The targets, in the order of the iteration over a QHash (makefile.cpp:458-474). *)
Definition blocksText (l : list block) : qstr := concat (map blockText l).

(** main.cpp:187-194. *)
Definition listing (ms : list (qstr * mdata)) (rs : list rule) (bs : list block) : qstr :=
  s2q "MACROS:" ++ [10; 10] ++ macrosText ms ++
  [10] ++ s2q "INFERENCE RULES:" ++ [10; 10] ++ rulesText rs ++
  [10] ++ s2q "TARGETS:" ++ [10; 10] ++ blocksText bs.
