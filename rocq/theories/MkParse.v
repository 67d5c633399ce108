(** The parser of makefiles up to the end of the file: parser.cpp:52-108, 164-641.
    What follows in Parser::apply is in Front.v. *)
From Coq Require Import Ascii String.
From stdpp Require Import prelude gmap.
From RecordUpdate Require Import RecordSet.
From Verif Require Import Base Data Infer UpToDate Graph Macro Cmd Front FileMacros Preproc.
Import RecordSetNotations.
Local Open Scope N_scope.

(** ** Lines *)

(** parser.cpp:182-201: the first # that is a comment, and the carets before escaped ones. [i] is the index
    of the next character, [prev] the character before, [q] says whether it is in double quotes
    (quotedVector, 175-182). *)
Fixpoint findComment (i : nat) (prev : N) (q : bool) (s : qstr) : option nat * list nat :=
  match s with
  | [] => (None, [])
  | c :: s' =>
    let q' := if c =? 34 then negb q else q in
    if c =? 35 then
      if prev =? 94 then let (r, t) := findComment (S i) c q' s' in (r, (i - 1)%nat :: t)
      else if q' then findComment (S i) c q' s'
      else (Some i, [])
    else findComment (S i) c q' s'
  end.
(** parser.cpp:203-206: the first semicolon outside of double quotes. *)
Fixpoint findSeparator (i : nat) (q : bool) (s : qstr) : option nat :=
  match s with
  | [] => None
  | c :: s' =>
    let q' := if c =? 34 then negb q else q in
    if (c =? 59) && negb q' then Some i else findSeparator (S i) q' s'
  end.
(** parser.cpp:214-215. *)
Definition removeAll (idx : list nat) (s : qstr) : qstr := fold_right (fun i s => qremove i 1 s) s idx.
(** parser.cpp:177-221 removeCommentsAndFindCommandSeparator: the line and the separator. *)
Definition removeComments (line : qstr) : qstr * option nat :=
  let (comment, carets) := findComment 0 0 false line in
  match comment, findSeparator 0 false line with
  | None, sep => (line, sep)
  | Some i, Some k => if (i <? k)%nat then (removeAll carets (qleft i line), None) else (line, Some k)
  | Some i, None => (removeAll carets (qleft i line), None)
  end.

(** parser.cpp:242-265: the separator; [i] is the index of the next character, [p1] and [p2] are the characters
    before it, if there are. *)
Fixpoint findColon (i : nat) (level : Z) (p1 p2 : option N) (s : qstr) : option nat :=
  match s with
  | [] => None
  | c :: s' =>
    if c =? 40 then findColon (S i) (level + 1)%Z (Some c) p1 s'
    else if c =? 41 then findColon (S i) (level - 1)%Z (Some c) p1 s'
    else if (level =? 0)%Z && (c =? 58) then
      if match p1, p2 with
         | Some l, None => isLetter l
         | Some l, Some b => isLetter l && (isSpace b || (b =? 34))
         | None, _ => false
         end
      then findColon (S i) level (Some c) p1 s'
      else Some i
    else findColon (S i) level (Some c) p1 s'
  end.
(** parser.cpp:230-277 isDescriptionBlock without the removal of comments: position and length of the
    separator. *)
Definition findRule (line : qstr) : option (nat * nat) :=
  match line with
  | [] => None
  | c :: _ =>
    if isSpaceOrTab c then None
    else
      match findColon 0 0 None None line with
      | None => None
      | Some pos => Some (pos, if bool_decide (line !! S pos = Some 58) then 2%nat else 1%nat)
      end
  end.

(** parser.cpp:297-305 split_append_helper. *)
Definition appendName (lst : list qstr) (entry : qstr) : list qstr :=
  let e := removeDoubleQuotes (trimmed entry) in if isEmpty e then lst else lst ++ [e].
(** parser.cpp:307-329 splitTargetNames. [cur] is the text between from and i. *)
Fixpoint splitNamesGo (q : bool) (cur : qstr) (lst : list qstr) (s : qstr) : list qstr :=
  match s with
  | [] => if isEmpty cur then lst else appendName lst cur
  | c :: s' =>
    if c =? 34 then splitNamesGo (negb q) (cur ++ [c]) lst s'
    else if negb q && isSpaceOrTab c then
      if isEmpty cur then splitNamesGo q [c] lst s'
      else splitNamesGo q [] (appendName lst cur) s'
    else splitNamesGo q (cur ++ [c]) lst s'
  end.
Definition splitTargetNames (s : qstr) : list qstr := splitNamesGo false [] [] s.

(** parser.cpp:331-357 containsWildcard. *)
Inductive wstate := WInitial | WDollar | WParen.
Fixpoint containsWildcard (w : wstate) (s : qstr) : bool :=
  match s with
  | [] => false
  | c :: s' =>
    if c =? magicEscape then containsWildcard WDollar s'
    else
      match w with
      | WDollar => containsWildcard (if c =? 40 then WParen else WInitial) s'
      | WParen => containsWildcard WInitial s'
      | WInitial => if (c =? 42) || (c =? 63) then true else containsWildcard WInitial s'
      end
  end.
(** parser.cpp:359-390 expandWildcards. [glob path pattern]: the file paths that QDirIterator yields;
    [isRel]: QFileInfo::isRelative. *)
Definition expandWildcard (glob : qstr -> qstr -> list qstr) (isRel : qstr -> bool) (dir str : qstr) : list qstr :=
  if containsWildcard WInitial str then
    let s := fromNative str in
    let '(path, pat) :=
      match lastIndexOfChar 47 s with
      | Some i => (if isRel s then dir ++ [47] ++ qleft i s else qleft i s, qremove 0 (S i) s)
      | None => (dir, s)
      end in
    map (fun f => toNative (if startsWith_ci dir f then
                              let r := qremove 0 (List.length dir) f in if startsWith [47] r then qremove 0 1 r else r
                            else f)) (glob path pat)
  else [str].

(** parser.cpp:425-441: .SYNC; the result is the list without it and the additions to m_syncPoints in order.
    [before] is the list up to i, [group] what lies between k and i. *)
Fixpoint syncLoop (before group syncDeps : list qstr) (l : list qstr) : list qstr * list (qstr * list qstr) :=
  match l with
  | [] => (before, [])
  | d :: l' =>
    if qeqb d (s2q ".SYNC") then
      match l' with
      | [] => (before, [])
      | _ => syncLoop before [] group l'
      end
    else
      let (ds, pts) := syncLoop (before ++ [d]) (group ++ [d]) syncDeps l' in (ds, (d, syncDeps) :: pts)
  end.

(** parser.cpp:43: the expression for dot directives, exactMatch; the two captures. *)
Definition dotDirective (line : qstr) : option (qstr * qstr) :=
  match line with
  | c :: rest =>
    if negb (c =? 46) then None else
    match List.find (fun d => startsWith d rest) [s2q "IGNORE"; s2q "PRECIOUS"; s2q "SILENT"; s2q "SUFFIXES"] with
    | Some d => match dropSpaces (skipn (List.length d) rest) with c :: v => if c =? 58 then Some (d, v) else None | [] => None end
    | None => None
    end
  | [] => None
  end.

(** A word character of QRegExp (parser.cpp:43-44). *)
Definition isWord (c : qchar) : bool := isLetterOrNumber c || (c =? 95).
(** The text before the last extension (a dot and word characters at the end) and this extension (parser.cpp:44). *)
Definition cutExt (s : qstr) : option (qstr * qstr) :=
  match lastIndexOfChar 46 s with
  | Some i => let w := skipn (S i) s in if isEmpty w || negb (forallb isWord w) then None else Some (qleft i s, skipn i s)
  | None => None
  end.
(** An optional text in braces (parser.cpp:44). *)
Definition optBraces (s : qstr) : bool :=
  isEmpty s || (startsWith [123] s && endsWith [125] s && (2 <=? List.length s)%nat).
(** An optional path and an extension (parser.cpp:44). *)
Definition pathExt (s : qstr) : option (qstr * qstr) :=
  match cutExt s with Some (p, e) => if optBraces p then Some (p, e) else None | None => None end.
(** The greatest [j <= n] where a path in braces can begin so that what is before is a path and an
    extension (parser.cpp:44). *)
Fixpoint cutBraces (n : nat) (s : qstr) : option (qstr * qstr * qstr) :=
  match (if startsWith [123] (skipn n s) && (2 <=? List.length (skipn n s))%nat then pathExt (qleft n s) else None) with
  | Some (p, e) => Some (p, e, skipn n s)
  | None => match n with O => None | S n' => cutBraces n' s end
  end.
(** parser.cpp:44: the expression for inference rules, exactMatch; the five captures. Where more than one path
    in braces is possible the first group takes as much as it can. *)
Definition inferenceRule (line : qstr) : option (qstr * qstr * qstr * qstr * qstr) :=
  let colons := if endsWith [58; 58] line then [58; 58] else if endsWith [58] line then [58] else [] in
  if isEmpty colons then None
  else
    match cutExt (qchop (List.length colons) line) with
    | None => None
    | Some (r, toExt) =>
      if endsWith [125] r then
        match cutBraces (List.length r) r with
        | Some (fromPath, fromExt, toPath) => Some (fromPath, fromExt, toPath, toExt, colons)
        | None => None
        end
      else
        match pathExt r with Some (fromPath, fromExt) => Some (fromPath, fromExt, [], toExt, colons) | None => None end
    end.

(** parser.cpp:586-599: the braces and the separator at the end go, an empty path is a dot. *)
Definition rulePath (cap : qstr) : qstr :=
  let p := if (2 <=? List.length cap)%nat then qmid 1 (List.length cap - 2) cap else cap in
  removeDirSeparatorAtEnd (if isEmpty p then [46] else p).

(** parser.cpp:550, 622, 632: QString::split at single white space characters, with the empty parts. *)
Fixpoint splitSpaceGo (cur s : qstr) : list qstr :=
  match s with
  | [] => [cur]
  | c :: s' => if isSpace c then cur :: splitSpaceGo [] s' else splitSpaceGo (cur ++ [c]) s'
  end.
Definition splitSpace (s : qstr) : list qstr := splitSpaceGo [] s.
(** The parts that are not empty; QString::simplified in line 624 changes nothing about them (parser.cpp:622, 632-635). *)
Definition words (s : qstr) : list qstr := List.filter (fun w => negb (isEmpty w)) (splitSpace s).

(** parser.cpp:521-541: the name behind << in a command line and what follows the name. *)
Fixpoint nonSpaces (s : qstr) : qstr := match s with c :: s' => if isSpace c then [] else c :: nonSpaces s' | [] => [] end.
Definition inlineName (s : qstr) : qstr * qstr :=
  match s with
  | [] => ([], [])
  | c :: s' =>
    if isSpace c then ([], s)
    else if c =? 34 then
      match indexOfChar 34 s' with
      | None => ([], s)
      | Some k => (qleft k s', skipn (S k) s')
      end
    else let w := nonSpaces s in (w, skipn (List.length w) s)
  end.
(** parser.cpp:514-542: the command line without the names, and the names. Each step goes on at least two
    characters, so [fuel] is the length of the text. *)
Fixpoint inlineNames (fuel : nat) (s : qstr) : qstr * list qstr :=
  match fuel with
  | O => (s, [])
  | S fuel' =>
    match indexOf [60; 60] s with
    | None => (s, [])
    | Some i =>
      let (name, rest) := inlineName (skipn (i + 2) s) in
      let (line, names) := inlineNames fuel' rest in
      (qleft (i + 2) s ++ line, name :: names)
    end
  end.
(** parser.cpp:564-569. *)
Definition withLineEnd (s : qstr) : qstr :=
  if endsWith [13; 10] s then s
  else if endsWith [10] s then qchop 1 s ++ [13; 10]
  else s ++ [13; 10].

(** ** Parsing *)

(** What can go wrong: an exception of the preprocessor, of the macro table, of a file name macro; a syntax
    error; a mix of both separators (parser.cpp:83-108). *)
Inductive perr := EPre (e : pperr) | EMacros | EFileMacro | ESyntax | EMixed.
(** Results; [PUb]: undefined behaviour; [POut]: not ended within the fuel (parser.cpp:83-108). *)
Inductive pres (A : Type) := POk (a : A) | PErr (e : perr) | PUb | POut.
Arguments POk {A} _. Arguments PErr {A} _. Arguments PUb {A}. Arguments POut {A}.
(** parser.cpp:83-108. *)
Definition bindR {A B} (r : pres A) (f : A -> pres B) : pres B :=
  match r with POk a => f a | PErr e => PErr e | PUb => PUb | POut => POut end.
Notation "'let+' x ':=' a 'in' b" := (bindR a (fun x => b)) (at level 200, x pattern, a at level 200, b at level 200).

(** parser.h:73-91, the members that matter here, and the makefile's (makefile.h:215-228).
    [s_line]: m_line, [None] when null. [s_rd]: the preprocessor. [s_sync]: m_syncPoints, the keys in the order
    of their insertion; the order in which QHash yields them is another one. *)
Record pst (R : Type) := Pst {
  s_line : option qstr; s_rd : R;
  s_mk : mkfile; s_rules : list rule; s_suffixes : list qstr; s_precious : list qstr; s_serial : bool;
  s_sync : list (qstr * list qstr); s_silent : bool; s_ignore : bool }.
Arguments Pst {R} _ _ _ _ _ _ _ _ _ _. Arguments s_line {R} _. Arguments s_rd {R} _. Arguments s_mk {R} _.
Arguments s_rules {R} _. Arguments s_suffixes {R} _. Arguments s_precious {R} _. Arguments s_serial {R} _.
Arguments s_sync {R} _. Arguments s_silent {R} _. Arguments s_ignore {R} _.
#[global] Instance etaPst R : Settable (pst R) :=
  settable! (@Pst R) <s_line; s_rd; s_mk; s_rules; s_suffixes; s_precious; s_serial; s_sync; s_silent; s_ignore>.

(** QHash::operator[] and += in parser.cpp:437. *)
Fixpoint addSync (k : qstr) (ds : list qstr) (l : list (qstr * list qstr)) : list (qstr * list qstr) :=
  match l with
  | [] => [(k, ds)]
  | (k', ds') :: l' => if qeqb k k' then (k', ds' ++ ds) :: l' else (k', ds') :: addSync k ds l'
  end.

(** A rule as parseDescriptionBlock has read it: the separator is two colons or one, the names, the
    commands (parser.cpp:392-423). *)
Record prule := Prule { pr_double : bool; pr_targets : list qstr; pr_deps : list qstr; pr_cmds : list command }.

(** parser.cpp:449-473 for one target. [fuel] is for the expansion of file name macros; $? is not allowed in
    dependents, so there is no use of file times. *)
Definition acsEqb (a b : acs) : bool :=
  match a, b with ACSUnknown, ACSUnknown | ACSEnabled, ACSEnabled | ACSDisabled, ACSDisabled => true | _, _ => false end.
Definition addRuleFor (fuel : nat) (r : prule) (mk : mkfile) (name : qstr) : pres mkfile :=
  let can := if pr_double r then ACSEnabled else ACSDisabled in
  let+ (mk1, t, can1) :=
    match mk_find mk name with
    | Some t =>
      match mk_targets mk !! t with
      | Some b => if negb (acsEqb can (b_acs b)) && negb (acsEqb (b_acs b) ACSUnknown) then PErr EMixed else POk (mk, t, can)
      | None => PUb
      end
    | None => POk (createTarget mk name [], keyOf name, ACSEnabled)
    end in
  match mk_targets mk1 !! t with
  | None => PUb
  | Some b =>
    match expandDependents (b_name b) (b_deps b ++ pr_deps r) (fun _ => 0) fuel with
    | Some (FOk deps) =>
      let cmds :=
        if isNil (pr_cmds r) then b_cmds b
        else if acsEqb can1 ACSEnabled || isNil (b_cmds b) then b_cmds b ++ pr_cmds r
        else b_cmds b in
      POk (setBlock mk1 t (Block (b_name b) deps cmds (b_rules b) (b_time b) (b_exists b) can))
    | Some FThrow => PErr EFileMacro
    | Some FCrash => PUb
    | None => POut
    end
  end.
(** parser.cpp:443-476: all targets of a rule; the flag is m_parallelExecutionDisabled. *)
Fixpoint addRule (fuel : nat) (r : prule) (names : list qstr) (st : mkfile * bool) : pres (mkfile * bool) :=
  match names with
  | [] => POk st
  | n :: names' =>
    if qeqb n (s2q ".NOTPARALLEL") then addRule fuel r names' (fst st, true)
    else let+ mk := addRuleFor fuel r (fst st) n in addRule fuel r names' (mk, snd st)
  end.

(** parser.cpp:425-476: a rule is added; the state is the makefile, its flag and m_syncPoints. *)
Definition rstate : Type := mkfile * bool * list (qstr * list qstr).
Definition applyRule (fuel : nat) (r : prule) (st : rstate) : pres rstate :=
  let '(mk, ser, sync) := st in
  let (deps, pts) := syncLoop [] [] [] (pr_deps r) in
  let+ (mk', ser') := addRule fuel (Prule (pr_double r) (pr_targets r) deps (pr_cmds r)) (pr_targets r) (mk, ser) in
  POk (mk', ser', fold_left (fun l p => addSync (fst p) (snd p) l) pts sync).

Section parser.
(** The preprocessor as a source of lines: [next] reads a line, in inline file mode or not; [tab] are the
    macros at this time. *)
Context {R : Type} (next : bool -> R -> pres (option qstr * R)) (tab : R -> gmap qstr mdata).
Context (glob : qstr -> qstr -> list qstr) (isRel : qstr -> bool).

(** m_line where its being null does not matter, parser.h:73-91. *)
Definition lineOf (st : pst R) : qstr := default [] (s_line st).
(** parser.cpp:164-167 readLine. *)
Definition readL (inl : bool) (st : pst R) : pres (pst R) :=
  let+ (l, r) := next inl (s_rd st) in POk (st <| s_line := l |> <| s_rd := r |>).
(** MacroTable::expandMacros with the macros of the moment (parser.cpp:395, 399, 505, 562). *)
Definition expandL (dep : bool) (s : qstr) (st : pst R) : pres qstr :=
  match expandMacros (tab (s_rd st)) dep s with XOk r => POk r | XCycle _ | XErr => PErr EMacros | XFuel => POut end.

(** parser.cpp:547-573: the content of one inline file. *)
Fixpoint inlineContent (fuel : nat) (inference : bool) (f : inlineFile) (st : pst R) : pres (inlineFile * pst R) :=
  match fuel with
  | O => POut
  | S fuel' =>
    match s_line st with
    | None => POk (f, st)
    | Some line =>
      if startsWith [60; 60] line then
        let opts := splitSpace (skipn 2 line) in
        POk (InlineFile (if_keep f || containsStr (s2q "KEEP") opts) (if_unicode f || containsStr (s2q "UNICODE") opts)
               (if_name f) (if_content f), st)
      else
        let+ c := (if inference then POk line else expandL false line st) in
        let+ st1 := readL true st in
        inlineContent fuel' inference (InlineFile (if_keep f) (if_unicode f) (if_name f) (if_content f ++ withLineEnd c)) st1
    end
  end.
Fixpoint inlineContents (fuel : nat) (inference : bool) (names : list qstr) (st : pst R) : pres (list inlineFile * pst R) :=
  match names with
  | [] => POk ([], st)
  | n :: names' =>
    let+ st1 := readL true st in
    let+ (f, st2) := inlineContent fuel inference (InlineFile false false n []) st1 in
    let+ (fs, st3) := inlineContents fuel inference names' st2 in
    POk (f :: fs, st3)
  end.
(** parser.cpp:495-510 parseCommandLine, with 512-576 parseInlineFiles. *)
Definition parseCommandLine (fuel : nat) (line : qstr) (inference : bool) (st : pst R) : pres (command * pst R) :=
  let max := if s_ignore st then 4294967295 else 0 in
  let+ cmd :=
    (if inference then POk (Command (trimmed line) [] max (s_silent st) false)
     else let+ l := expandL false (trimmed line) st in POk (evaluateModifiers (Command l [] max (s_silent st) false))) in
  let (l, names) := inlineNames (List.length (c_line cmd)) (c_line cmd) in
  let+ (fs, st1) := inlineContents fuel inference names st in
  POk (Command l fs (c_max cmd) (c_silent cmd) (c_single cmd), st1).

(** parser.cpp:478-493 parseCommand: [None] if there is no further command. *)
Fixpoint skipEmpty (fuel : nat) (st : pst R) : pres (bool * pst R) :=
  match fuel with
  | O => POut
  | S fuel' =>
    if isEmpty (trimmed (lineOf st)) then
      let+ st1 := readL false st in
      match s_line st1 with None => POk (false, st1) | Some _ => skipEmpty fuel' st1 end
    else POk (true, st)
  end.
Definition parseCommand (fuel : nat) (inference : bool) (st : pst R) : pres (option command * pst R) :=
  let+ (more, st1) := skipEmpty fuel st in
  if more && startsWithSpaceOrTab (lineOf st1) then
    let+ (c, st2) := parseCommandLine fuel (lineOf st1) inference st1 in POk (Some c, st2)
  else POk (None, st1).
(** parser.cpp:417-418, 609-610: the loops over the commands. *)
Fixpoint parseCommands (n fuel : nat) (inference : bool) (st : pst R) : pres (list command * pst R) :=
  match n with
  | O => POut
  | S n' =>
    let+ (c, st1) := parseCommand fuel inference st in
    match c with
    | None => POk ([], st1)
    | Some c =>
      let+ st2 := readL false st1 in
      let+ (cs, st3) := parseCommands n' fuel inference st2 in
      POk (c :: cs, st3)
    end
  end.

(** parser.cpp:392-423: the rule on a line that isDescriptionBlock has accepted. *)
Definition readRule (fuel : nat) (line : qstr) (pos len : nat) (sep : option nat) (st : pst R) : pres (prule * pst R) :=
  let+ target := expandL false (trimmed (qleft pos line)) st in
  let+ value := expandL true (trimmed (qremove 0 (pos + len) (match sep with Some k => qleft k line | None => line end))) st in
  let+ (cs1, st1) :=
    match sep with
    | Some k => let+ (c, st1) := parseCommandLine fuel (trimmed (qremove 0 (k + 1) line)) false st in POk ([c], st1)
    | None => POk ([], st)
    end in
  let+ st2 := readL false st1 in
  let+ (cs2, st3) :=
    (if isEmpty (trimmed (lineOf st2)) then let+ st3 := readL false st2 in POk ([], st3)
     else parseCommands fuel fuel false st2) in
  POk (Prule (2 <=? len)%nat (splitTargetNames (toNative target))
         (flat_map (expandWildcard glob isRel (mk_dir (s_mk st))) (splitTargetNames (toNative value))) (cs1 ++ cs2), st3).
(** parser.cpp:392-476 parseDescriptionBlock. *)
Definition parseDescriptionBlock (fuel : nat) (line : qstr) (pos len : nat) (sep : option nat) (st : pst R) : pres (pst R) :=
  let+ (r, st1) := readRule fuel line pos len sep st in
  let+ (mk, ser, sync) := applyRule fuel r (s_mk st1, s_serial st1, s_sync st1) in
  POk (st1 <| s_mk := mk |> <| s_serial := ser |> <| s_sync := sync |>).

(** parser.cpp:578-613 parseInferenceRule; addInferenceRule, makefile.cpp:550-554, appends a new object. *)
Definition parseInferenceRule (fuel : nat) (caps : qstr * qstr * qstr * qstr * qstr) (st : pst R) : pres (pst R) :=
  let '(fromPath, fromExt, toPath, toExt, colons) := caps in
  let+ st1 := readL false st in
  let+ (cs, st2) := parseCommands fuel fuel true st1 in
  POk (st2 <| s_rules ::= fun l =>
    l ++ [Rule (List.length l) (2 <=? List.length colons)%nat (rulePath fromPath) fromExt (rulePath toPath) toExt (-1) cs] |>).

(** parser.cpp:615-641 parseDotDirective, with makefile.cpp:571-575 addPreciousTarget. *)
Definition parseDotDirective (d v : qstr) (st : pst R) : pres (pst R) :=
  readL false
    (if qeqb d (s2q "SUFFIXES") then st <| s_suffixes ::= fun l => if isNil (words v) then [] else l ++ words v |>
     else if qeqb d (s2q "IGNORE") then st <| s_ignore := true |>
     else if qeqb d (s2q "PRECIOUS") then st <| s_precious ::= fun l => fold_left (fun l w => if containsStr w l then l else l ++ [w]) (words v) l |>
     else st <| s_silent := true |>).

(** parser.cpp:84-102: the loop over the lines. *)
Fixpoint parseLoop (n fuel : nat) (st : pst R) : pres (pst R) :=
  match n with
  | O => POut
  | S n' =>
    match s_line st with
    | None => POk st
    | Some line =>
      let+ expanded := expandL false line st in
      let+ st1 :=
        (if isEmpty (trimmed expanded) then readL false st
         else
           match dotDirective expanded with
           | Some (d, v) => parseDotDirective d v st
           | None =>
             match inferenceRule expanded with
             | Some caps => parseInferenceRule fuel caps st
             | None =>
               let (l, sep) := removeComments line in
               match findRule l with
               | Some (pos, len) => parseDescriptionBlock fuel l pos len sep st
               | None => PErr ESyntax
               end
             end
           end) in
      parseLoop n' fuel st1
    end
  end.

(** parser.cpp:56-83: the beginning; options.h: [silent] is suppressOutputMessages, [stop] stopOnErrors. *)
Definition defaultSuffixes : list qstr :=
  map s2q [".exe"; ".obj"; ".asm"; ".c"; ".cpp"; ".cxx"; ".bas"; ".cbl"; ".for"; ".pas"; ".res"; ".rc"]%string.
Definition parseFile (n fuel : nat) (dir : qstr) (silent stop : bool) (r : R) : pres (pst R) :=
  let+ st := readL false (Pst None r (Mkfile ∅ None dir 0) [] defaultSuffixes [] false [] silent (negb stop)) in
  parseLoop n fuel st.
End parser.

(** The preprocessor of Preproc.v as a source of lines (preprocessor.cpp:96-123). *)
Definition ppNext (fs : fsenv) (fuel : nat) (inl : bool) (st : pp) : pres (option qstr * pp) :=
  match readLine inl fs fuel st with Got r => POk r | Err e => PErr (EPre e) | Ub => PUb | Out => POut end.
(** parser.cpp:159-162. *)
Definition ppTab (st : pp) : gmap qstr mdata := mt_macros (pp_macros st).
(** A source of lines that does not change macros, for examples (preprocessor.cpp:96-123). *)
Definition listNext (inl : bool) (l : list qstr) : pres (option qstr * list qstr) :=
  match l with [] => POk (None, []) | x :: l' => POk (Some x, l') end.
