(** The preprocessor: preprocessor.cpp. *)
From Coq Require Import Ascii String.
From stdpp Require Import prelude gmap.
From RecordUpdate Require Import RecordUpdate.
From Verif Require Import Base Macro PPExpr PPLex LineReader.
Local Open Scope N_scope.

(** The files and the shell. [fs_exists], [fs_abs], [fs_dir]: QFileInfo's exists, absoluteFilePath, absolutePath;
    [fs_open]: what MakefileLineReader::open finds, with whether the file starts with a byte order mark;
    [fs_system]: the exit code of a command. Simplification: the files do not change while the makefile is read (preprocessor.cpp:58-94, 324-363). *)
Record fsenv := Fsenv {
  fs_exists : qstr -> bool; fs_abs : qstr -> qstr; fs_dir : qstr -> qstr;
  fs_open : qstr -> option (bool * list N); fs_system : qstr -> Z }.

(** preprocessor.h:72-91 TextFile: the name and what is left of the reader, the directory. *)
Record tfile := Tfile { tf_name : qstr; tf_dir : qstr; tf_reader : reader }.

(** preprocessor.h:93-100, the members. [pp_conds], [pp_files]: the stacks, top first. [pp_lex]: what m_expressionParser
    keeps. [pp_msgs], [pp_cmds]: the output of !MESSAGE and the commands run by expressions, the last one first.
    Line numbers are not modelled. *)
Record pp := PP {
  pp_macros : mtable; pp_conds : list bool; pp_files : list tfile; pp_back : list qstr; pp_lex : lexst;
  pp_msgs : list qstr; pp_cmds : list qstr }.
#[global] Instance etaPP : Settable _ :=
  settable! PP <pp_macros; pp_conds; pp_files; pp_back; pp_lex; pp_msgs; pp_cmds>.

(** The exceptions thrown. [EMacro]: by the macro table (preprocessor.cpp:495-498). *)
Inductive pperr :=
| ENoFile | ECycle | ECantOpen | ENotFound | EMissingEndif | EUnexpectedElse | EUnexpectedEndif
| EUnknown (d : qstr) | EUser (v : qstr) | EExpression | EMacro.
(** Results. [Ub]: undefined behaviour in an expression or the line buffer. [Out]: does not stand for anything in the
    program (preprocessor.cpp:96-123). *)
Inductive ppr (A : Type) := Got (a : A) | Err (e : pperr) | Ub | Out.
Arguments Got {A} _. Arguments Err {A} _. Arguments Ub {A}. Arguments Out {A}.
(** preprocessor.cpp:96-123. *)
Definition bindP {A B} (r : ppr A) (f : A -> ppr B) : ppr B :=
  match r with Got a => f a | Err e => Err e | Ub => Ub | Out => Out end.
Notation "'let*' x ':=' a 'in' b" := (bindP a (fun x => b)) (at level 200, x pattern, a at level 100, b at level 200).

(** macrotable.cpp:221-225 expandMacros as called by the preprocessor. *)
Definition expandP (t : mtable) (s : qstr) : ppr qstr :=
  match expandMacros (mt_macros t) false s with XOk r => Got r | XCycle _ | XErr => Err EMacro | XFuel => Out end.

(** preprocessor.cpp:500-515 removeInlineComments. The search goes on behind the character after the sign whose
    caret was removed. [fuel]: the length of the line. *)
Fixpoint inlineLoop (fuel from : nat) (s : qstr) : qstr * option nat :=
  match indexOfCharFrom 35 s from with
  | None => (s, None)
  | Some i =>
    match fuel with
    | O => (s, Some i)
    | S fuel' =>
      if Nat.ltb 0 i && (nth (i - 1) s 0 =? 94) then inlineLoop fuel' (S i) (qremove (i - 1) 1 s) else (s, Some i)
    end
  end.
Definition removeInlineComments (s : qstr) : qstr :=
  match inlineLoop (length s) 0 s with
  | (s', Some i) => trimmed (qleft i s')
  | (s', None) => s'
  end.

(** preprocessor.cpp:67-94 internalOpenFile. *)
Definition internalOpenFile (fs : fsenv) (name : qstr) (st : pp) : ppr pp :=
  if negb (fs_exists fs name) then Err ENoFile
  else
    let abs := fs_abs fs name in
    if existsb (fun f => qeqb (tf_name f) abs) (pp_files st) then Err ECycle
    else match fs_open fs abs with
         | None => Err ECantOpen
         | Some (uni, text) => Got (st <| pp_files ::= cons (Tfile abs (fs_dir fs name) (openReader uni text)) |>)
         end.
(** preprocessor.cpp:58-65 openFile. *)
Definition openFile (fs : fsenv) (name : qstr) (st : pp) : ppr pp :=
  internalOpenFile fs name (st <| pp_conds := [] |> <| pp_files := [] |>).

(** preprocessor.cpp:139-156 basicReadLine: exhausted files are taken off the stack. *)
Fixpoint nextLine (inl : bool) (files : list tfile) : ppr (mline * list tfile) :=
  match files with
  | [] => Got (MLine None CNone, [])
  | f :: fs =>
    match readerLine inl (tf_reader f) with
    | None => Ub
    | Some (l, r) =>
      match ml_content l with
      | Some _ => Got (l, Tfile (tf_name f) (tf_dir f) r :: fs)
      | None => nextLine inl fs
      end
    end
  end.
Definition basicReadLine (inl : bool) (st : pp) : ppr (mline * pp) :=
  match pp_back st with
  | l :: b => Got (MLine (Some l) CNone, st <| pp_back := b |>)
  | [] => let* (l, fs) := nextLine inl (pp_files st) in Got (l, st <| pp_files := fs |>)
  end.

(** The content of a line; the null string is empty (makefilelinereader.h:41-45). *)
Definition contentOf (l : mline) : qstr := default [] (ml_content l).
(** makefilelinereader.h:47-50 isComplete. *)
Definition isComplete (l : mline) : bool := match ml_cont l with CNone => true | _ => false end.
(** preprocessor.cpp:158-165 leftTrimmed, 167-175 joinLines. *)
Definition joinLines (line next : mline) : mline :=
  MLine (Some (contentOf line ++ match ml_cont line with CBackslash => [32] | CCaret => [10] | CNone => [] end
               ++ dropSpaces (contentOf next))) (ml_cont next).
(** preprocessor.cpp:177-183 joinPreprocessingDirectiveLines. *)
Definition joinDirectiveLines (line next : mline) : mline :=
  MLine (Some (contentOf line ++ match ml_cont line with CCaret => [94] | _ => [] end ++ contentOf next)) (ml_cont next).
(** How much there is left to read: characters of the files and lines put back. The loops below read in every
    iteration (preprocessor.cpp:185-205). *)
Definition left (st : pp) : nat := length (pp_back st) + list_sum (map (fun f => length (rd_text (tf_reader f))) (pp_files st)).
(** preprocessor.cpp:185-195, 202-205 completePreprocessingDirectiveLine. *)
Fixpoint completeLoop (inl : bool) (fuel : nat) (line : mline) (st : pp) : ppr (mline * pp) :=
  if isComplete line then Got (line, st)
  else match fuel with
  | O => Out
  | S fuel' =>
    let* (next, st1) := basicReadLine inl st in
    match ml_content next with
    | None => Got (MLine (ml_content line) CNone, st1)
    | Some _ => completeLoop inl fuel' (joinDirectiveLines line next) st1
    end
  end.
Definition completeDirective (inl : bool) (line : mline) (st : pp) : ppr (mline * pp) :=
  completeLoop inl (S (left st)) line st.

(** preprocessor.cpp:218-238: the place of the equals sign of a macro definition. [i]: the index of the first
    character of [s]. *)
Fixpoint equalsPos (i : nat) (depth : Z) (s : qstr) : option nat :=
  match s with
  | [] => None
  | c :: r =>
    if c =? 40 then equalsPos (S i) (depth + 1)%Z r
    else if c =? 41 then equalsPos (S i) (depth - 1)%Z r
    else if (depth =? 0)%Z then
      if c =? 61 then Some i else if c =? 58 then None else equalsPos (S i) depth r
    else equalsPos (S i) depth r
  end.
(** preprocessor.cpp:207-246 parseMacro. The regular expression asks for nothing but the first character to be
    an underscore, a letter from a to z, a digit or a dollar sign. [None]: not a macro definition. *)
Definition isMacroStart (c : N) : bool :=
  (c =? 95) || ((97 <=? lowerChar c) && (lowerChar c <=? 122)) || isDigit c || (c =? 36).
Definition parseMacro (line : qstr) (st : pp) : ppr (option pp) :=
  match line with
  | [] => Got None
  | c :: r =>
    if isMacroStart c then
      match equalsPos 1 0 r with
      | None => Got None
      | Some i =>
        match setMacroValue (trimmed (qleft i line)) (removeInlineComments (trimmed (skipn (S i) line))) (pp_macros st) with
        | MOk t => Got (Some (st <| pp_macros := t |>))
        | MThrow => Err EMacro
        end
      end
    else Got None
  end.

(** The first word and what comes behind it (preprocessor.cpp:43). *)
Fixpoint cutWord (s : qstr) : qstr * qstr :=
  match s with
  | [] => ([], [])
  | c :: r => if isSpace c then ([], s) else let '(w, rest) := cutWord r in (c :: w, rest)
  end.
(** The regular expression of preprocessor.cpp:43, ^!\s*(\S+)(.* ) for the whole line. *)
Definition splitDirective (line : qstr) : option (qstr * qstr) :=
  match line with
  | c :: r =>
    if c =? 33 then match cutWord (dropSpaces r) with ([], _) => None | (w, rest) => Some (w, rest) end else None
  | [] => None
  end.
(** The regular expression of preprocessor.cpp:398, ^(ifn?def|if)\s+(.* )$ without regard to case. *)
Definition splitElse (value : qstr) : option (qstr * qstr) :=
  let '(w, rest) := cutWord value in
  if existsb (qeqb (toLower w)) [s2q "if"; s2q "ifdef"; s2q "ifndef"] then
    match rest with [] => None | _ => Some (toUpper w, dropSpaces rest) end
  else None.

(** preprocessor.cpp:365-411 isPreprocessingDirective: the result and the two output parameters, which start as [d0]
    and [v0]. A short line that is no directive at all still has the old value expanded. *)
Definition isDirective (t : mtable) (line d0 v0 : qstr) : ppr (bool * qstr * qstr) :=
  let finish (res : bool) (d v : qstr) := let* v' := expandP t v in Got (res, d, removeInlineComments v') in
  match line with
  | [] => Got (false, d0, v0)
  | c :: _ =>
    if isSpaceOrTab c then Got (false, d0, v0)
    else if negb (c =? 33) && Nat.ltb 8 (length line) then
      if isSpaceOrTab (nth 7 line 0) && qeqb (toLower (qleft 7 line)) (s2q "include")
      then finish true (s2q "INCLUDE") (skipn 8 line)
      else Got (false, d0, v0)
    else match splitDirective line with
         | None => finish false d0 v0
         | Some (w, rest) =>
           let d := toUpper w in
           let v := trimmed rest in
           if qeqb d (s2q "ELSE") then
             match splitElse v with
             | Some (k, v') => finish true (d ++ k) v'
             | None => finish true d v
             end
           else finish true d v
         end
  end.

(** preprocessor.cpp:469-474 exitConditional. *)
Definition exitConditional (st : pp) : ppr pp :=
  match pp_conds st with [] => Err EUnexpectedEndif | _ :: cs => Got (st <| pp_conds := cs |>) end.

(** preprocessor.cpp:413-462 skipUntilNextMatchingConditional. [d], [v]: the local variables directive and value. *)
Fixpoint skipLoop (inl : bool) (fuel depth : nat) (d v : qstr) (st : pp) : ppr pp :=
  match fuel with
  | O => Out
  | S fuel' =>
    let* (line, st1) := basicReadLine inl st in
    match ml_content line with
    | None => Got st1
    | Some c =>
      let* (line2, st2) := if startsWith [33] c then completeDirective inl line st1 else Got (line, st1) in
      let* e := expandP (pp_macros st2) (contentOf line2) in
      let* (isD, d', v') := isDirective (pp_macros st2) e d v in
      if negb isD then skipLoop inl fuel' depth d' v' st2
      else if qeqb d' (s2q "ENDIF") then
        match depth with
        | O => exitConditional st2
        | S depth' => skipLoop inl fuel' depth' d' v' st2
        end
      else if startsWith (s2q "IF") d' then skipLoop inl fuel' (S depth) d' v' st2
      else if startsWith (s2q "ELSE") d' then
        match depth with
        | O => Got (st2 <| pp_back ::= fun b => b ++ [e] |>)
        | S _ => skipLoop inl fuel' depth d' v' st2
        end
      else skipLoop inl fuel' depth d' v' st2
    end
  end.
Definition skipConditional (inl : bool) (st : pp) : ppr pp := skipLoop inl (S (left st)) 0 [] [] st.

(** qPrintable: toLocal8Bit as a zero-terminated string. Simplification: the local encoding is Latin-1 (preprocessor.cpp:476-493). *)
Definition toLocal (s : qstr) : list N := uptoChar 0 (map (fun c => if c <? 256 then c else 63) s).
(** preprocessor.cpp:476-493 evaluateExpression. *)
Definition evaluateExpression (fs : fsenv) (expr : qstr) (st : pp) : ppr (Z * pp) :=
  let* e := expandP (pp_macros st) expr in
  match parseText (Lexenv (fun n => isMacroDefined n (pp_macros st)) (fs_exists fs) (fs_system fs)) (pp_lex st) (toLocal e) with
  | None => Out
  | Some (r, lx, cmds) =>
    match r with
    | PValue z => Got (z, st <| pp_lex := lx |> <| pp_cmds ::= fun l => rev cmds ++ l |>)
    | PSyntax | PDivZero => Err EExpression
    | PUndefined => Ub
    | PFuel => Out
    end
  end.

(** QString::split with SkipEmptyParts (preprocessor.cpp:324-363). *)
Fixpoint splitOn (sep : N) (cur s : qstr) : list qstr :=
  match s with
  | [] => match cur with [] => [] | _ => [cur] end
  | c :: r => if c =? sep then match cur with [] => splitOn sep [] r | _ => cur :: splitOn sep [] r end
              else splitOn sep (cur ++ [c]) r
  end.
(** preprocessor.cpp:324-363 findIncludeFile. *)
Definition findIncludeFile (fs : fsenv) (v : qstr) (st : pp) : ppr qstr :=
  let angle := startsWith [60] v && endsWith [62] v in
  let path := removeDoubleQuotes (if angle then skipn 1 (qchop 1 v) else v) in
  let dirs := map tf_dir (pp_files st)
              ++ if angle then splitOn 59 [] (replaceChar 9 32 (macroValue (mt_macros (pp_macros st)) (s2q "INCLUDE"))) else [] in
  match find (fs_exists fs) (path :: map (fun d => d ++ [47] ++ path) dirs) with
  | Some p => Got (fs_abs fs p)
  | None => Err ENotFound
  end.

(** preprocessor.cpp:286-310: !ELSEIF and the like. [holds]: the condition. *)
Definition elseif (inl : bool) (holds : bool) (st : pp) : ppr pp :=
  match pp_conds st with
  | [] => Err EUnexpectedElse
  | _ :: cs => if holds then Got (st <| pp_conds := false :: cs |>) else skipConditional inl st
  end.
(** preprocessor.cpp:259-279: !IF and the like. *)
Definition enterIf (inl : bool) (holds : bool) (st : pp) : ppr pp :=
  let st := st <| pp_conds ::= cons (negb holds) |> in if holds then Got st else skipConditional inl st.

(** preprocessor.cpp:248-322 parsePreprocessingDirective. [None]: not a directive. *)
Definition runDirective (inl : bool) (fs : fsenv) (d v : qstr) (st : pp) : ppr pp :=
  let is (s : string) := qeqb d (s2q s) in
  let defined := isMacroDefined v (pp_macros st) in
  if is "CMDSWITCHES"%string then Got st
  else if is "ERROR"%string then Err (EUser v)
  else if is "MESSAGE"%string then Got (st <| pp_msgs ::= cons v |>)
  else if is "INCLUDE"%string then let* f := findIncludeFile fs v st in internalOpenFile fs f st
  else if is "IF"%string then let* (z, st1) := evaluateExpression fs v st in enterIf inl (negb (z =? 0)%Z) st1
  else if is "IFDEF"%string then enterIf inl defined st
  else if is "IFNDEF"%string then enterIf inl (negb defined) st
  else if is "ELSE"%string then
    match pp_conds st with
    | [] => Err EUnexpectedElse
    | follow :: _ => if follow then Got st else skipConditional inl st
    end
  else if is "ELSEIF"%string then
    match pp_conds st with
    | [] => Err EUnexpectedElse
    | false :: _ => skipConditional inl st
    | true :: _ => let* (z, st1) := evaluateExpression fs v st in elseif inl (negb (z =? 0)%Z) st1
    end
  else if is "ELSEIFDEF"%string then
    match pp_conds st with
    | [] => Err EUnexpectedElse
    | follow :: _ => elseif inl (follow && defined) st
    end
  else if is "ELSEIFNDEF"%string then
    match pp_conds st with
    | [] => Err EUnexpectedElse
    | follow :: _ => elseif inl (follow && negb defined) st
    end
  else if is "ENDIF"%string then exitConditional st
  else if is "UNDEF"%string then Got (st <| pp_macros ::= undefineMacro v |>)
  else Err (EUnknown d).
Definition parseDirective (inl : bool) (fs : fsenv) (line : qstr) (st : pp) : ppr (option pp) :=
  let* e := expandP (pp_macros st) line in
  let* (isD, d, v) := isDirective (pp_macros st) e [] [] in
  if isD then let* st1 := runDirective inl fs d v st in Got (Some st1) else Got None.

(** preprocessor.cpp:96-115, one iteration of the loop of readLine. [Again]: the loop goes on with this incomplete
    (or outdated) line; [Deliver]: it is left. *)
Inductive stepr := Again (line : mline) (st : pp) | Deliver (line : option qstr) (st : pp).
Definition readStep (inl : bool) (fs : fsenv) (line : mline) (st : pp) : ppr stepr :=
  let* (next, st1) := basicReadLine inl st in
  if startsWith [33] (contentOf next) then
    let* (next2, st2) := completeDirective inl next st1 in
    let* r := parseDirective inl fs (contentOf next2) st2 in
    Got (Again line (default st2 r))
  else
    let line1 := if isComplete line then next else joinLines line next in
    if negb (isComplete line1) then Got (Again line1 st1)
    else
      let* m := if inl then Got None else parseMacro (contentOf line1) st1 in
      match m with
      | Some st2 => Got (Again line1 st2)
      | None =>
        let* r := parseDirective inl fs (contentOf line1) st1 in
        match r with
        | Some st2 => Got (Again line1 st2)
        | None => Got (Deliver (ml_content line1) st1)
        end
      end.
Fixpoint readLoop (inl : bool) (fs : fsenv) (fuel : nat) (line : mline) (st : pp) : ppr (option qstr * pp) :=
  match fuel with
  | O => Out
  | S fuel' =>
    let* s := readStep inl fs line st in
    match s with
    | Again line1 st1 => readLoop inl fs fuel' line1 st1
    | Deliver l st1 =>
      match l, pp_conds st1 with
      | None, _ :: _ => Err EMissingEndif
      | _, _ => Got (l, st1)
      end
    end
  end.
(** preprocessor.cpp:96-123 readLine; [fuel] bounds the number of iterations. *)
Definition readLine (inl : bool) (fs : fsenv) (fuel : nat) (st : pp) : ppr (option qstr * pp) :=
  readLoop inl fs fuel (MLine None CNone) st.
