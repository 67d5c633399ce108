(** Splitting a command line into arguments (helperfunctions.cpp:32-63 splitCommandLine). *)
From Coq Require Import List NArith Bool Ascii String.
From Verif Require Import Base.
Import ListNotations.
Local Open Scope N_scope.

(** The locals of splitCommandLine, helperfunctions.cpp:33-37: [str], [arguments],
    [escapedQuote], [insideQuotes]. *)
Record splitSt := SplitSt {
  sp_str : qstr;
  sp_args : list qstr;
  sp_esc : bool;
  sp_in : bool
}.

(** helperfunctions.cpp:38-58, one turn of the loop: the character [c] is [commandLine.at(i)]. *)
Definition splitStep (st : splitSt) (c : qchar) : splitSt :=
  if isSpace c && negb (sp_in st) then
    let str := trimmed (sp_str st) in
    if isEmpty str then SplitSt str (sp_args st) false (sp_in st)
    else SplitSt [] (sp_args st ++ [str]) false (sp_in st)
  else if c =? 34 then
    if sp_esc st then SplitSt (sp_str st ++ [34]) (sp_args st) false (negb (sp_in st))
    else SplitSt (sp_str st) (sp_args st) true (negb (sp_in st))
  else SplitSt (sp_str st ++ [c]) (sp_args st) false (sp_in st).

(** helperfunctions.cpp:32-63 splitCommandLine: an artificial blank is appended, then the loop. *)
Definition splitCommandLine (commandLine : qstr) : list qstr :=
  sp_args (fold_left splitStep (commandLine ++ [32]) (SplitSt [] [] false false)).
