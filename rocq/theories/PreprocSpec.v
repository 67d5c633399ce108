(** What a makefile with directives means. *)
From Coq Require Import Ascii String.
From stdpp Require Import prelude gmap.
From Verif Require Import Base Macro MacroSpec PPExpr PPLex LineReader LineReaderSpec Preproc.
Local Open Scope N_scope.

(** What the preprocessor has to know about: macros and the state of the expression lexer; and what it leaves
    behind: messages and commands run, the last one first. *)
Record ctx := Ctx { cx_macros : mtable; cx_lex : lexst; cx_msgs : list qstr; cx_cmds : list qstr }.
(** The files being read, innermost first: name and directory. *)
Definition nest := list (qstr * qstr).
Definition setMacros (t : mtable) (cx : ctx) : ctx := Ctx t (cx_lex cx) (cx_msgs cx) (cx_cmds cx).
Definition addMsg (v : qstr) (cx : ctx) : ctx := Ctx (cx_macros cx) (cx_lex cx) (v :: cx_msgs cx) (cx_cmds cx).

(** Macro expansion. *)
Definition expands (t : mtable) (s r : qstr) : Prop := expandsTo (mt_macros t) false s r.

(** [spelled e d v]: the line [e] (macros are expanded already) is the directive [d] with the text [v] behind it. *)
Inductive spelled : qstr -> qstr -> qstr -> Prop :=
| sp_bang blanks w tail : Forall (fun c => isSpace c = true) blanks -> w <> [] -> Forall (fun c => isSpace c = false) w ->
    (forall c t, tail = c :: t -> isSpace c = true) ->
    (toUpper w = s2q "ELSE" -> forall k b r, trimmed tail = k ++ b :: r -> isSpace b = true ->
       toLower k <> s2q "if" /\ toLower k <> s2q "ifdef" /\ toLower k <> s2q "ifndef") ->
    spelled (33 :: blanks ++ w ++ tail) (toUpper w) (trimmed tail)
| sp_else blanks w tail k b blanks' v : Forall (fun c => isSpace c = true) blanks -> Forall (fun c => isSpace c = false) w ->
    (forall c t, tail = c :: t -> isSpace c = true) -> toUpper w = s2q "ELSE" ->
    toLower k = s2q "if" \/ toLower k = s2q "ifdef" \/ toLower k = s2q "ifndef" ->
    trimmed tail = k ++ b :: blanks' ++ v -> isSpace b = true -> Forall (fun c => isSpace c = true) blanks' ->
    (forall c t, v = c :: t -> isSpace c = false) ->
    spelled (33 :: blanks ++ w ++ tail) (s2q "ELSE" ++ toUpper k) v
| sp_include w b v : toLower w = s2q "include" -> isSpaceOrTab b = true -> v <> [] ->
    spelled (w ++ b :: v) (s2q "INCLUDE") v.

(** A line as written is the directive [d] with value [v]: macros are expanded in the line, and again in the text behind
    the directive; a comment at the end does not count. *)
Definition directive (t : mtable) (raw d v : qstr) : Prop :=
  exists e v0 v1, expands t raw e /\ spelled e d v0 /\ expands t v0 v1 /\ v = removeInlineComments v1.
(** A line that is no directive. *)
Definition plain (t : mtable) (raw : qstr) : Prop := exists e, expands t raw e /\ forall d v, ~ spelled e d v.

(** A macro definition: the first character is a letter, a digit, an underscore or a dollar sign, and the first equals
    sign outside of parentheses has no colon outside of parentheses before it. [level s d]: the number of parentheses
    opened and not closed. *)
Definition level (s : qstr) : Z :=
  (Z.of_nat (length (List.filter (N.eqb 40) s)) - Z.of_nat (length (List.filter (N.eqb 41) s)))%Z.
Definition definesAt (raw name value : qstr) : Prop :=
  exists c l r, raw = (c :: l) ++ 61 :: r /\ isMacroStart c = true /\ level l = 0%Z /\
    (forall l1 x l2, l = l1 ++ x :: l2 -> level l1 = 0%Z -> x <> 61 /\ x <> 58) /\
    name = trimmed (c :: l) /\ value = removeInlineComments (trimmed r).
Definition noDefinition (raw : qstr) : Prop := forall n v, ~ definesAt raw n v.

(** Lines may be continued. Those of a directive are put together as they are, but a caret stays. *)
Inductive dirLines : list mline -> qstr -> Prop :=
| dn_last c : dirLines [MLine (Some c) CNone] c
| dn_more c k ms raw : k <> CNone -> dirLines ms raw ->
    dirLines (MLine (Some c) k :: ms) (c ++ (match k with CCaret => [94] | _ => [] end) ++ raw).
(** The first line starts with an exclamation mark. *)
Definition bang (ms : list mline) : Prop := exists c k ms', ms = MLine (Some (33 :: c)) k :: ms'.
(** Those of other lines: a backslash becomes a blank, a caret a line feed, blanks at the beginning of the next line do not
    count. A line starting with an exclamation mark is a directive even here. *)
Definition separator (k : cont) : qstr := match k with CBackslash => [32] | CCaret => [10] | CNone => [] end.
Definition noBang (c : qstr) : Prop := head c <> Some 33.
Inductive moreLines : list mline -> qstr -> Prop :=
| mn_last c : noBang c -> moreLines [MLine (Some c) CNone] (dropSpaces c)
| mn_more c k ms raw : noBang c -> k <> CNone -> moreLines ms raw ->
    moreLines (MLine (Some c) k :: ms) (dropSpaces c ++ separator k ++ raw).
Inductive textLines : list mline -> qstr -> Prop :=
| tn_one c : noBang c -> textLines [MLine (Some c) CNone] c
| tn_more c k ms raw : noBang c -> k <> CNone -> moreLines ms raw ->
    textLines (MLine (Some c) k :: ms) (c ++ separator k ++ raw).

(** What is read of a file: lines, and lines of the text of inline files, which are read with their line feeds and in which
    nothing is continued or commented out. *)
Inductive rline := RRead (m : mline) | RText (l : qstr).
Notation asRead := (map RRead).
Inductive reads : reader -> list rline -> Prop :=
| rs_end r r' : readerLine false r = Some (MLine None CNone, r') -> reads r []
| rs_line r r' c k ls : readerLine false r = Some (MLine (Some c) k, r') -> reads r' ls -> reads r (RRead (MLine (Some c) k) :: ls)
| rs_text r r' l ls : readerLine true r = Some (MLine (Some l) CNone, r') -> reads r' ls -> reads r (RText l :: ls).

(** The structure of a makefile: lines, lines with the text of inline files below, and conditional blocks. *)
Inductive block :=
| BNil
| BLine (ms : list mline) (rest : block)
| BText (ms : list mline) (ts : list qstr) (rest : block)
| BCond (ms : list mline) (body : block) (alt : alts) (rest : block)    (* !IF, !IFDEF, !IFNDEF *)
with alts :=
| AEnd (ms : list mline)                                                (* !ENDIF *)
| AElse (ms : list mline) (body : block) (fin : list mline)             (* !ELSE ... !ENDIF *)
| AElif (ms : list mline) (body : block) (more : alts).                 (* !ELSEIF ... *)
Fixpoint writtenB (b : block) : list rline :=
  match b with
  | BNil => []
  | BLine ms rest => asRead ms ++ writtenB rest
  | BText ms ts rest => asRead ms ++ map RText ts ++ writtenB rest
  | BCond ms body alt rest => asRead ms ++ writtenB body ++ writtenA alt ++ writtenB rest
  end
with writtenA (a : alts) : list rline :=
  match a with
  | AEnd ms => asRead ms
  | AElse ms body fin => asRead ms ++ writtenB body ++ asRead fin
  | AElif ms body more => asRead ms ++ writtenB body ++ writtenA more
  end.

(** Conditions. [holds cx s d v b cx']: the condition of the directive [d] is [b]; evaluating it may run commands and
    use the expression lexer. [pre]: what is in front of IF, IFDEF, IFNDEF. *)
Definition condEnv (fs : fsenv) (cx : ctx) : lexenv :=
  Lexenv (fun n => isMacroDefined n (cx_macros cx)) (fs_exists fs) (fs_system fs).
Inductive holds (fs : fsenv) (pre : qstr) (cx : ctx) : qstr -> qstr -> bool -> ctx -> Prop :=
| ho_if v e z lx cmds : expands (cx_macros cx) v e ->
    parseText (condEnv fs cx) (cx_lex cx) (toLocal e) = Some (PValue z, lx, cmds) ->
    holds fs pre cx (pre ++ s2q "IF") v (negb (z =? 0)%Z) (Ctx (cx_macros cx) lx (cx_msgs cx) (rev cmds ++ cx_cmds cx))
| ho_ifdef v : holds fs pre cx (pre ++ s2q "IFDEF") v (isMacroDefined v (cx_macros cx)) cx
| ho_ifndef v : holds fs pre cx (pre ++ s2q "IFNDEF") v (negb (isMacroDefined v (cx_macros cx))) cx.

(** Skipped lines; text of inline files is not looked for among them. Their macros are expanded all the same; that must not fail, and in a directive no dollar sign may be
    left. *)
Definition ifNames : list qstr := [s2q "IF"; s2q "IFDEF"; s2q "IFNDEF"].
Definition elseNames : list qstr := [s2q "ELSE"; s2q "ELSEIF"; s2q "ELSEIFDEF"; s2q "ELSEIFNDEF"].
Inductive role := RIf | RElse | REndif | ROther.
Definition playsRole (e : qstr) (r : role) : Prop :=
  match r with
  | RIf => exists d v, spelled e d v /\ d ∈ ifNames
  | RElse => exists d v, spelled e d v /\ d ∈ elseNames
  | REndif => exists v, spelled e (s2q "ENDIF") v
  | ROther => forall d v, spelled e d v -> d <> s2q "ENDIF" /\ (forall x, d <> s2q "IF" ++ x) /\ (forall x, d <> s2q "ELSE" ++ x)
  end.
Definition settled (r : role) (e : qstr) : Prop :=
  match r with RElse => 36 ∉ e | _ => forall d v, spelled e d v -> 36 ∉ v end.
Definition quiet (t : mtable) (r : role) (raw : qstr) : Prop := exists e, expands t raw e /\ settled r e /\ playsRole e r.
(** A directive line that plays a role. *)
Definition quietDir (t : mtable) (r : role) (ms : list mline) : Prop :=
  exists raw, dirLines ms raw /\ bang ms /\ quiet t r raw.
(** Any other line: a directive, or lines that are looked at one at a time. *)
Definition quietLine (t : mtable) (ms : list mline) : Prop :=
  quietDir t ROther ms \/
  Forall (fun m => exists c, ml_content m = Some c /\ noBang c /\ quiet t ROther c) ms.
Fixpoint quietB (t : mtable) (b : block) : Prop :=
  match b with
  | BNil => True
  | BLine ms rest => quietLine t ms /\ quietB t rest
  | BText _ _ _ => False
  | BCond ms body alt rest => quietDir t RIf ms /\ quietB t body /\ quietA t alt /\ quietB t rest
  end
with quietA (t : mtable) (a : alts) : Prop :=
  match a with
  | AEnd ms => quietDir t REndif ms
  | AElse ms body fin => quietDir t RElse ms /\ quietB t body /\ quietDir t REndif fin
  | AElif ms body more => quietDir t RElse ms /\ quietB t body /\ quietA t more
  end.

(** Where an included file is looked for: the name itself, then below the directories of the files being read, innermost
    first, then, for a name in angle brackets, below the directories listed in the macro INCLUDE. *)
Definition below (p : qstr) (dirs : list qstr) : list qstr := p :: map (fun d => d ++ [47] ++ p) dirs.
(** The parts of a text between separators, in their order. *)
Fixpoint parts (sep : N) (s : qstr) : list qstr :=
  match s with
  | [] => [[]]
  | c :: r => if decide (c = sep) then [] :: parts sep r else match parts sep r with [] => [[c]] | p :: ps => (c :: p) :: ps end
  end.
Definition includeDirs (t : mtable) : list qstr :=
  base.filter (fun d => d <> []) (parts 59 (replaceChar 9 32 (macroValue (mt_macros t) (s2q "INCLUDE")))).
Inductive places (t : mtable) (at_ : nest) : qstr -> list qstr -> Prop :=
| pl_angle n : places t at_ (60 :: n ++ [62]) (below (removeDoubleQuotes n) (map snd at_ ++ includeDirs t))
| pl_plain v : (forall n, v <> 60 :: n ++ [62]) -> places t at_ v (below (removeDoubleQuotes v) (map snd at_)).
(** The first place where there is a file. *)
Definition located (fs : fsenv) (t : mtable) (at_ : nest) (v p : qstr) : Prop :=
  exists before after, places t at_ v (before ++ p :: after) /\ Forall (fun q => fs_exists fs q = false) before /\
    fs_exists fs p = true.
(** The file that is included: its name and directory. *)
Definition included (fs : fsenv) (t : mtable) (at_ : nest) (v name dir : qstr) : Prop :=
  exists p, located fs t at_ v p /\ fs_exists fs (fs_abs fs p) = true /\ name = fs_abs fs (fs_abs fs p) /\
    dir = fs_dir fs (fs_abs fs p).

(** A directive as it is written: a line starting with an exclamation mark, or another line that turns out to be a
    directive and not a macro definition. *)
Definition dirBang (t : mtable) (ms : list mline) (d v : qstr) : Prop :=
  exists raw, dirLines ms raw /\ bang ms /\ directive t raw d v.
Definition dirAny (t : mtable) (ms : list mline) (d v : qstr) : Prop :=
  dirBang t ms d v \/ exists raw, textLines ms raw /\ noDefinition raw /\ directive t raw d v.
(** The same for a line met while skipping. *)
Definition dirQuiet (t : mtable) (ms : list mline) (d v : qstr) : Prop :=
  exists raw e v0, dirLines ms raw /\ bang ms /\ expands t raw e /\ 36 ∉ e /\ spelled e d v0 /\
    v = removeInlineComments v0.

(** [runs fs at_ cx b out cx']: reading the block [b] delivers the lines [out]. [picks]: reading the branches that are left
    when none has been selected so far. [mark]: what is noted of a line that is delivered and the macros at that time;
    [tmark]: the same for the text of inline files, if the caller asks for it. *)
Inductive runsM {A} (mark : qstr -> mtable -> A) (tmark : option (qstr -> mtable -> A)) (fs : fsenv) : nest -> ctx -> block -> list A -> ctx -> Prop :=
| rn_nil at_ cx : runsM mark tmark fs at_ cx BNil [] cx
| rn_text at_ cx ms raw rest out cx' : textLines ms raw -> noDefinition raw -> plain (cx_macros cx) raw ->
    runsM mark tmark fs at_ cx rest out cx' -> runsM mark tmark fs at_ cx (BLine ms rest) (mark raw (cx_macros cx) :: out) cx'
| rn_inline f at_ cx ms raw ts rest out cx' : tmark = Some f -> textLines ms raw -> noDefinition raw -> plain (cx_macros cx) raw ->
    Forall (fun l => noBang l /\ plain (cx_macros cx) l) ts ->
    runsM mark tmark fs at_ cx rest out cx' ->
    runsM mark tmark fs at_ cx (BText ms ts rest) (mark raw (cx_macros cx) :: map (fun l => f l (cx_macros cx)) ts ++ out) cx'
| rn_empty at_ cx ms raw rest out cx' : dirLines ms raw -> bang ms -> plain (cx_macros cx) raw ->
    runsM mark tmark fs at_ cx rest out cx' -> runsM mark tmark fs at_ cx (BLine ms rest) out cx'
| rn_define at_ cx ms raw n v t rest out cx' : textLines ms raw -> definesAt raw n v ->
    setMacroValue n v (cx_macros cx) = MOk t -> runsM mark tmark fs at_ (setMacros t cx) rest out cx' ->
    runsM mark tmark fs at_ cx (BLine ms rest) out cx'
| rn_switches at_ cx ms v rest out cx' : dirAny (cx_macros cx) ms (s2q "CMDSWITCHES") v ->
    runsM mark tmark fs at_ cx rest out cx' -> runsM mark tmark fs at_ cx (BLine ms rest) out cx'
| rn_message at_ cx ms v rest out cx' : dirAny (cx_macros cx) ms (s2q "MESSAGE") v ->
    runsM mark tmark fs at_ (addMsg v cx) rest out cx' -> runsM mark tmark fs at_ cx (BLine ms rest) out cx'
| rn_undef at_ cx ms v rest out cx' : dirAny (cx_macros cx) ms (s2q "UNDEF") v ->
    runsM mark tmark fs at_ (setMacros (undefineMacro v (cx_macros cx)) cx) rest out cx' -> runsM mark tmark fs at_ cx (BLine ms rest) out cx'
| rn_include at_ cx ms v name dir uni text file out1 cx1 rest out2 cx' : dirAny (cx_macros cx) ms (s2q "INCLUDE") v ->
    included fs (cx_macros cx) at_ v name dir -> name ∉ map fst at_ -> fs_open fs name = Some (uni, text) ->
    reads (openReader uni text) (writtenB file) ->
    runsM mark tmark fs ((name, dir) :: at_) cx file out1 cx1 -> runsM mark tmark fs at_ cx1 rest out2 cx' ->
    runsM mark tmark fs at_ cx (BLine ms rest) (out1 ++ out2) cx'
| rn_if at_ cx ms d v cx1 body out1 cx2 alt rest out2 cx' : dirBang (cx_macros cx) ms d v -> holds fs [] cx d v true cx1 ->
    runsM mark tmark fs at_ cx1 body out1 cx2 -> quietA (cx_macros cx2) alt -> runsM mark tmark fs at_ cx2 rest out2 cx' ->
    runsM mark tmark fs at_ cx (BCond ms body alt rest) (out1 ++ out2) cx'
| rn_if_not at_ cx ms d v cx1 body alt out1 cx2 rest out2 cx' : dirBang (cx_macros cx) ms d v -> holds fs [] cx d v false cx1 ->
    quietB (cx_macros cx1) body -> picksM mark tmark fs at_ cx1 alt out1 cx2 -> runsM mark tmark fs at_ cx2 rest out2 cx' ->
    runsM mark tmark fs at_ cx (BCond ms body alt rest) (out1 ++ out2) cx'
with picksM {A} (mark : qstr -> mtable -> A) (tmark : option (qstr -> mtable -> A)) (fs : fsenv) : nest -> ctx -> alts -> list A -> ctx -> Prop :=
| pk_end at_ cx ms : quietDir (cx_macros cx) REndif ms -> picksM mark tmark fs at_ cx (AEnd ms) [] cx
| pk_else at_ cx ms v body fin w out cx' : dirQuiet (cx_macros cx) ms (s2q "ELSE") v -> runsM mark tmark fs at_ cx body out cx' ->
    dirBang (cx_macros cx') fin (s2q "ENDIF") w -> picksM mark tmark fs at_ cx (AElse ms body fin) out cx'
| pk_elif at_ cx ms d v cx1 body out cx' more : dirQuiet (cx_macros cx) ms d v -> holds fs (s2q "ELSE") cx d v true cx1 ->
    runsM mark tmark fs at_ cx1 body out cx' -> quietA (cx_macros cx') more -> picksM mark tmark fs at_ cx (AElif ms body more) out cx'
| pk_elif_not at_ cx ms d v cx1 body more out cx' : dirQuiet (cx_macros cx) ms d v -> holds fs (s2q "ELSE") cx d v false cx1 ->
    quietB (cx_macros cx1) body -> picksM mark tmark fs at_ cx1 more out cx' -> picksM mark tmark fs at_ cx (AElif ms body more) out cx'.
Arguments rn_nil {A mark tmark}.
Arguments rn_text {A mark tmark}.
Arguments rn_inline {A mark tmark}.
Arguments rn_empty {A mark tmark}.
Arguments rn_define {A mark tmark}.
Arguments rn_switches {A mark tmark}.
Arguments rn_message {A mark tmark}.
Arguments rn_undef {A mark tmark}.
Arguments rn_include {A mark tmark}.
Arguments rn_if {A mark tmark}.
Arguments rn_if_not {A mark tmark}.
Arguments pk_end {A mark tmark}.
Arguments pk_else {A mark tmark}.
Arguments pk_elif {A mark tmark}.
Arguments pk_elif_not {A mark tmark}.
(** The lines alone. *)
Notation runs := (runsM (fun (l : qstr) (_ : mtable) => l) None).
Notation picks := (picksM (fun (l : qstr) (_ : mtable) => l) None).

(** Lines up to the end of the file that are all skipped. *)
Inductive past : mtable -> list rline -> Prop :=
| pa_end t b : quietB t b -> past t (writtenB b)
| pa_more t b ms ls : quietB t b -> quietDir t RElse ms -> past t ls -> past t (writtenB b ++ asRead ms ++ ls).
(** [fails fs at_ cs cx ls out e]: reading the lines [ls], the last ones of the innermost file, delivers [out] and then
    raises the error [e]. [cs]: the conditional blocks that are open, innermost first; [false]: !ELSE is not for us.
    [seeks]: the same while looking for a branch of the innermost block. *)
Definition knownNames : list qstr := ifNames ++ elseNames ++
  [s2q "ENDIF"; s2q "CMDSWITCHES"; s2q "ERROR"; s2q "MESSAGE"; s2q "INCLUDE"; s2q "UNDEF"].
Inductive fails (fs : fsenv) : nest -> list bool -> ctx -> list rline -> list qstr -> pperr -> Prop :=
| fl_end f c cs cx b out cx' : runs fs [f] cx b out cx' -> fails fs [f] (c :: cs) cx (writtenB b) out EMissingEndif
| fl_past f cs cx b out cx' ms ls : runs fs [f] cx b out cx' -> quietDir (cx_macros cx') RElse ms -> past (cx_macros cx') ls ->
    fails fs [f] (false :: cs) cx (writtenB b ++ asRead ms ++ ls) out EMissingEndif
| fl_else at_ cx b out cx' ms d v ls : runs fs at_ cx b out cx' -> dirBang (cx_macros cx') ms d v -> d ∈ elseNames ->
    fails fs at_ [] cx (writtenB b ++ asRead ms ++ ls) out EUnexpectedElse
| fl_endif at_ cx b out cx' ms v ls : runs fs at_ cx b out cx' -> dirBang (cx_macros cx') ms (s2q "ENDIF") v ->
    fails fs at_ [] cx (writtenB b ++ asRead ms ++ ls) out EUnexpectedEndif
| fl_error at_ cs cx b out cx' ms v ls : runs fs at_ cx b out cx' -> dirAny (cx_macros cx') ms (s2q "ERROR") v ->
    fails fs at_ cs cx (writtenB b ++ asRead ms ++ ls) out (EUser v)
| fl_unknown at_ cs cx b out cx' ms d v ls : runs fs at_ cx b out cx' -> dirAny (cx_macros cx') ms d v -> d ∉ knownNames ->
    fails fs at_ cs cx (writtenB b ++ asRead ms ++ ls) out (EUnknown d)
| fl_cycle at_ cs cx b out cx' ms v name dir ls : runs fs at_ cx b out cx' -> dirAny (cx_macros cx') ms (s2q "INCLUDE") v ->
    included fs (cx_macros cx') at_ v name dir -> name ∈ map fst at_ ->
    fails fs at_ cs cx (writtenB b ++ asRead ms ++ ls) out ECycle
| fl_nowhere at_ cs cx b out cx' ms v ps ls : runs fs at_ cx b out cx' -> dirAny (cx_macros cx') ms (s2q "INCLUDE") v ->
    places (cx_macros cx') at_ v ps -> Forall (fun q => fs_exists fs q = false) ps ->
    fails fs at_ cs cx (writtenB b ++ asRead ms ++ ls) out ENotFound
| fl_include at_ cs cx b out cx1 ms v name dir uni text file out' e ls : runs fs at_ cx b out cx1 ->
    dirAny (cx_macros cx1) ms (s2q "INCLUDE") v ->
    included fs (cx_macros cx1) at_ v name dir -> name ∉ map fst at_ -> fs_open fs name = Some (uni, text) ->
    reads (openReader uni text) file -> fails fs ((name, dir) :: at_) cs cx1 file out' e ->
    fails fs at_ cs cx (writtenB b ++ asRead ms ++ ls) (out ++ out') e
| fl_taken at_ cs cx b out cx1 ms d v cx2 ls out' e : runs fs at_ cx b out cx1 -> dirBang (cx_macros cx1) ms d v ->
    holds fs [] cx1 d v true cx2 -> fails fs at_ (false :: cs) cx2 ls out' e ->
    fails fs at_ cs cx (writtenB b ++ asRead ms ++ ls) (out ++ out') e
| fl_not at_ cs cx b out cx1 ms d v cx2 ls out' e : runs fs at_ cx b out cx1 -> dirBang (cx_macros cx1) ms d v ->
    holds fs [] cx1 d v false cx2 -> seeks fs at_ cs cx2 ls out' e ->
    fails fs at_ cs cx (writtenB b ++ asRead ms ++ ls) (out ++ out') e
with seeks (fs : fsenv) : nest -> list bool -> ctx -> list rline -> list qstr -> pperr -> Prop :=
| sk_end f cs cx b : quietB (cx_macros cx) b -> seeks fs [f] cs cx (writtenB b) [] EMissingEndif
| sk_else at_ cs cx b ms v ls out e : quietB (cx_macros cx) b -> dirQuiet (cx_macros cx) ms (s2q "ELSE") v ->
    fails fs at_ (true :: cs) cx ls out e -> seeks fs at_ cs cx (writtenB b ++ asRead ms ++ ls) out e
| sk_elif at_ cs cx b ms d v cx1 ls out e : quietB (cx_macros cx) b -> dirQuiet (cx_macros cx) ms d v ->
    holds fs (s2q "ELSE") cx d v true cx1 -> fails fs at_ (false :: cs) cx1 ls out e ->
    seeks fs at_ cs cx (writtenB b ++ asRead ms ++ ls) out e
| sk_elif_not at_ cs cx b ms d v cx1 ls out e : quietB (cx_macros cx) b -> dirQuiet (cx_macros cx) ms d v ->
    holds fs (s2q "ELSE") cx d v false cx1 -> seeks fs at_ cs cx1 ls out e ->
    seeks fs at_ cs cx (writtenB b ++ asRead ms ++ ls) out e.

(** Calling readLine until it returns the null string, or throws. *)
Inductive reading (fs : fsenv) : pp -> list qstr -> pp -> Prop :=
| re_end st st' n : readLine false fs n st = Got (None, st') -> reading fs st [] st'
| re_line st l st1 n out st' : readLine false fs n st = Got (Some l, st1) -> reading fs st1 out st' -> reading fs st (l :: out) st'.
Inductive failing (fs : fsenv) : pp -> list qstr -> pperr -> Prop :=
| fa_here st e n : readLine false fs n st = Err e -> failing fs st [] e
| fa_line st l st1 n out e : readLine false fs n st = Got (Some l, st1) -> failing fs st1 out e -> failing fs st (l :: out) e.
(** The context of a preprocessor. *)
Definition ctxOf (st : pp) : ctx := Ctx (pp_macros st) (pp_lex st) (pp_msgs st) (pp_cmds st).
(** Readers of the same file, further down. *)
Inductive later : reader -> reader -> Prop :=
| la_here r : later r r
| la_read r r1 l r2 : later r r1 -> readerLine false r1 = Some (l, r2) -> later r r2.
(** Continuations that end where they should: in the same file, and not before a directive unless they belong to one. *)
Definition tidy (fs : fsenv) : Prop :=
  forall name uni text r1 c k r2, fs_open fs name = Some (uni, text) -> later (openReader uni text) r1 ->
    readerLine false r1 = Some (MLine (Some c) k, r2) -> k <> CNone ->
    exists c' k' r3, readerLine false r2 = Some (MLine (Some c') k', r3) /\ (startsWith [33] c = false -> startsWith [33] c' = false).
(** Calling readLine comes to an end: the null string, an exception, or undefined behaviour. *)
Inductive ends (fs : fsenv) : pp -> Prop :=
| en_end st st' n : readLine false fs n st = Got (None, st') -> ends fs st
| en_err st e n : readLine false fs n st = Err e -> ends fs st
| en_ub st n : readLine false fs n st = Ub -> ends fs st
| en_line st l st' n : readLine false fs n st = Got (Some l, st') -> ends fs st' -> ends fs st.
(** Any number of calls of readLine. *)
Inductive called (fs : fsenv) : pp -> pp -> Prop :=
| ca_none st : called fs st st
| ca_call st inl n l st1 st' : readLine inl fs n st = Got (l, st1) -> called fs st1 st' -> called fs st st'.
