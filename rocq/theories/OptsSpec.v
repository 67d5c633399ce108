(** What a command line means, as a grammar. *)
From Coq Require Import Ascii String.
From stdpp Require Import prelude gmap.
From RecordUpdate Require Import RecordSet.
Import RecordSetNotations.
From Verif Require Import Base Macro SplitCmd Opts.
Local Open Scope N_scope.

(** The character [c] is the letter [l], a capital, in either case. *)
Definition isLet (l c : qchar) : bool := (c =? l) || ((65 <=? l) && (l <=? 90) && (c =? l + 32)).

(** Long options. *)
Inductive longName := LNologo | LDumpDot | LDump | LDebug | LErrorReport | LVersion.
Definition nameOf (l : longName) : qstr :=
  match l with
  | LNologo => s2q "NOLOGO" | LDumpDot => s2q "DUMPGRAPHDOT" | LDump => s2q "DUMPGRAPH"
  | LDebug => s2q "DEBUG" | LErrorReport => s2q "ERRORREPORT" | LVersion => s2q "VERSION"
  end.

(** What an option says. The character as written is kept, since MAKEFLAGS repeats it. *)
Inductive item :=
| IFlag (c : qchar)
| ILong (l : longName)
| IJobs (c : qchar) (text : qstr) (n : N)
| IFile (f : qstr)
| IStderr (f : qstr).

(** The single-letter options without an argument. *)
Definition flagLetters : qstr := s2q "ABCDEGH?IKLNPQRSTUWY".
Definition flagChar (c : qchar) : Prop := exists l, l ∈ flagLetters /\ isLet l c = true.

(** A name in any case at the front of a word. *)
Definition spells (name p : qstr) : Prop := Forall2 (fun l c => isLet l c = true) name p.
Definition noLong (w : qstr) : Prop := forall l p s, w = p ++ s -> ~ spells (nameOf l) p.
(** [longAt l w s]: the word [w] is the long option [l] (the longest possible one) followed by [s]. *)
Definition longAt (l : longName) (w s : qstr) : Prop :=
  (exists p, w = p ++ s /\ spells (nameOf l) p) /\
  (l = LDump -> forall p s', w = p ++ s' -> ~ spells (nameOf LDumpDot) p).

(** Decimal numbers. *)
Definition digits (d : qstr) : Prop := d <> [] /\ Forall (fun c => isDigit c = true) d.
Inductive decimal : qstr -> N -> Prop :=
| dec_one c : isDigit c = true -> decimal [c] (c - 48)
| dec_snoc d n c : decimal d n -> isDigit c = true -> decimal (d ++ [c]) (n * 10 + (c - 48)).

(** A job count: between 1 and the largest int. *)
Definition jobNumber (d : qstr) (n : N) : Prop := decimal d n /\ 1 <= n /\ n < 2 ^ 31.
(** In an argument of its own it may have blanks around it and a plus sign. *)
Definition jobText (a : qstr) (n : N) : Prop :=
  exists b1 p d b2, a = b1 ++ p ++ d ++ b2 /\ (p = [] \/ p = [ch "+"]) /\
    Forall (fun c => isSpace c = true) b1 /\ Forall (fun c => isSpace c = true) b2 /\ jobNumber d n.

(** [letterItem c s r i s' r']: the letter [c] with [s] behind it in the same word and the arguments
    [r] behind that says [i] and leaves [s'] and [r']. *)
Inductive letterItem (c : qchar) : qstr -> list qstr -> item -> qstr -> list qstr -> Prop :=
| li_flag s r : flagChar c -> letterItem c s r (IFlag c) s r
| li_jobs d s r n : isLet (ch "J") c = true -> jobNumber d n ->
    (forall x s', s = x :: s' -> isDigit x = false) -> letterItem c (d ++ s) r (IJobs c d n) s r
| li_jobs_next a r n : isLet (ch "J") c = true -> jobText a n -> letterItem c [] (a :: r) (IJobs c a n) [] r
| li_file f r : isLet (ch "F") c = true -> f <> [] -> letterItem c f r (IFile f) [] r
| li_file_next a r : isLet (ch "F") c = true -> letterItem c [] (a :: r) (IFile a) [] r
| li_stderr f r : isLet (ch "X") c = true -> f <> [] -> letterItem c f r (IStderr f) [] r
| li_stderr_next a r : isLet (ch "X") c = true -> letterItem c [] (a :: r) (IStderr a) [] r.

(** [optionWord w r is r']: the option word [w] (without its sign) followed by the arguments [r]
    says [is] and leaves the arguments [r']. A long name directly behind a long name is not
    recognised as such. *)
Inductive optionWord : qstr -> list qstr -> list item -> list qstr -> Prop :=
| ow_end r : optionWord [] r [] r
| ow_letter c s r i s' r' is r'' : noLong (c :: s) -> letterItem c s r i s' r' ->
    optionWord s' r' is r'' -> optionWord (c :: s) r (i :: is) r''
| ow_long l w r : longAt l w [] -> optionWord w r [ILong l] r
| ow_long_letter l w c s r i s' r' is r'' : longAt l w (c :: s) -> letterItem c s r i s' r' ->
    optionWord s' r' is r'' -> optionWord w r (ILong l :: i :: is) r''.

(** A sign starts an option. *)
Definition signed (a : qstr) : Prop := exists c w, a = c :: w /\ (c = ch "-" \/ c = ch "/").

(** [commandLine as is ms ts]: the arguments [as] say the options [is], the macro definitions [ms]
    and the targets [ts], each in the order given. *)
Inductive commandLine : list qstr -> list item -> list (qstr * qstr) -> list qstr -> Prop :=
| cl_end : commandLine [] [] [] []
| cl_option c w r is r' is' ms ts : c = ch "-" \/ c = ch "/" -> optionWord (trimmed w) r is r' ->
    commandLine r' is' ms ts -> commandLine ((c :: w) :: r) (is ++ is') ms ts
| cl_macro n v r is ms ts : ~ signed (n ++ ch "=" :: v) -> ch "=" ∉ n -> isMacroNameValid (trimmed n) = true ->
    commandLine r is ms ts -> commandLine ((n ++ ch "=" :: v) :: r) is ((trimmed n, trimLeft v) :: ms) ts
| cl_target t r is ms ts : ~ signed t -> ch "=" ∉ t -> commandLine r is ms ts ->
    commandLine (t :: r) is ms (trimmed t :: ts).

(** Command files: the arguments with an at sign are replaced by what is in the files they name, put
    behind all others; at signs in the files do not count. *)
Definition atSign (a : qstr) : Prop := exists f, a = ch "@" :: f.
Definition commandFileName (a f : qstr) : Prop :=
  (exists q, a = ch "@" :: ch """" :: q /\ q = f ++ [ch """"])
  \/ (a = ch "@" :: f /\ ~ (exists q, f = ch """" :: q ++ [ch """"]) /\ f <> [ch """"])
  \/ (a = [ch "@"; ch """"] /\ f = []).
Inductive withFiles (fs : cfiles) : list qstr -> list qstr -> list qstr -> Prop :=
| wf_end : withFiles fs [] [] []
| wf_plain a as_ keep new : ~ atSign a -> withFiles fs as_ keep new -> withFiles fs (a :: as_) (a :: keep) new
| wf_file a f ls as_ keep new : commandFileName a f -> fs f = Some ls -> withFiles fs as_ keep new ->
    withFiles fs (a :: as_) keep (concat (map splitCommandLine ls) ++ new).
Definition expandsArgs (fs : cfiles) (as_ as' : list qstr) : Prop :=
  exists keep new, withFiles fs as_ keep new /\ as' = keep ++ filter (fun a => startsWith [64] a = false) new.

(** Does a flag occur. *)
Definition has (l : qchar) (is : list item) : bool :=
  existsb (fun i => match i with IFlag c => isLet l c | _ => false end) is.
Definition hasLong (l : longName) (is : list item) : bool :=
  existsb (fun i => match i, l with
    | ILong LNologo, LNologo | ILong LDumpDot, LDumpDot | ILong LDump, LDump
    | ILong LDebug, LDebug | ILong LErrorReport, LErrorReport | ILong LVersion, LVersion => true
    | _, _ => false end) is.

(** The last one of several. *)
Fixpoint lastOf {A B} (f : A -> option B) (l : list A) (d : B) : B :=
  match l with [] => d | a :: l' => lastOf f l' (default d (f a)) end.
Definition jobsOf (i : item) : option N := match i with IJobs _ _ n => Some n | _ => None end.
Definition fileOf (i : item) : option (option qstr) := match i with IFile f => Some (Some f) | _ => None end.
Definition stderrOf (i : item) : option (option qstr) := match i with IStderr f => Some (Some f) | _ => None end.

(** The settings that a list of options stands for, whatever their order: each flag counts if it
    occurs at all, /I overrides /K, of job counts and files the last one counts. *)
Definition settings (cpus : N) (is : list item) : copts := {|
  o_buildAll := has (ch "A") is;
  o_buildIfEqual := has (ch "B") is;
  o_showLogo := negb (has (ch "L") is || hasLong LNologo is || hasLong LDump is || hasLong LDumpDot is);
  o_suppressMessages := has (ch "C") is;
  o_overrideEnv := has (ch "E") is;
  o_displayIncludes := has (ch "G") is;
  o_dryRun := has (ch "N") is;
  o_stopOnErrors := negb (has (ch "I") is);
  o_keepGoing := has (ch "K") is && negb (has (ch "I") is);
  o_checkOnly := has (ch "Q") is;
  o_touch := has (ch "T") is;
  o_ignorePredefined := has (ch "R") is;
  o_suppressCommands := has (ch "S") is;
  o_printDir := has (ch "W") is;
  o_batch := negb (has (ch "Y") is);
  o_dumpInline := has (ch "U") is;
  o_dumpGraph := hasLong LDump is || hasLong LDumpDot is;
  o_dumpDot := hasLong LDumpDot is;
  o_displayMakeInfo := has (ch "P") is;
  o_usage := has (ch "H") is || has (ch "?") is;
  o_buildInfo := has (ch "D") is;
  o_debug := hasLong LDebug is;
  o_version := hasLong LVersion is;
  o_stderr := lastOf stderrOf is None;
  o_jobs := lastOf jobsOf is cpus;
  o_jobsSet := existsb (fun i => match i with IJobs _ _ _ => true | _ => false end) is
|}.

(** A list without repetitions: first occurrences in order. *)
Fixpoint firsts (l : list qstr) : list qstr :=
  match l with [] => [] | x :: l' => x :: filter (fun y => y <> x) (firsts l') end.

(** The definitions that macro arguments make, [seen] the names defined before: the first definition
    of a name counts, and every definition also defines the name in capitals unless it was given. *)
Fixpoint definitions (seen : list qstr) (ms : list (qstr * qstr)) : list (qstr * qstr * msource) :=
  match ms with
  | [] => []
  | (n, v) :: ms' =>
    let seen' := n :: seen in
    (if bool_decide (n ∈ seen) then [] else [(n, v, SrcCommandLine)]) ++
    (if bool_decide (toUpper n ∈ seen') then [] else [(toUpper n, v, SrcCommandLineImplicit)]) ++
    definitions seen' ms'
  end.
Inductive defined : mtable -> list (qstr * qstr * msource) -> mtable -> Prop :=
| df_end t : defined t [] t
| df_one t n v src t1 ds t2 : defineCommandLine n v src t = MOk t1 -> defined t1 ds t2 ->
    defined t ((n, v, src) :: ds) t2.

(** MAKEFLAGS: what is handed on to other instances. *)
Definition setOnce (c : qchar) (f : qstr) : qstr := if bool_decide (c ∈ f) then f else f ++ [c].
Definition flagsAfter (f : qstr) (i : item) : qstr :=
  match i with
  | IFlag c => setOnce c f
  | ILong LNologo => f ++ [ch "L"]
  | ILong _ => f
  | IJobs c s _ => if bool_decide (c ∈ f) then f else f ++ c :: s
  | IFile _ | IStderr _ => f
  end.
Definition flagsOf (is : list item) : qstr := fold_left flagsAfter is [].

(** The first definition of exactly this name. *)
Fixpoint given (ms : list (qstr * qstr)) (k : qstr) : option qstr :=
  match ms with [] => None | (n, v) :: ms' => if bool_decide (n = k) then Some v else given ms' k end.
(** The last definition of a name that is this one in capitals. *)
Fixpoint implied (ms : list (qstr * qstr)) (k : qstr) (old : option qstr) : option qstr :=
  match ms with [] => old | (n, v) :: ms' => implied ms' k (if bool_decide (toUpper n = k) then Some v else old) end.

(** Job counts among the options; flags that read as /DEBUG. *)
Definition isJobs (i : item) : bool := match i with IJobs _ _ _ => true | _ => false end.

Definition noDebug (w : qstr) : Prop := forall a p s, w = a ++ p ++ s -> ~ spells (nameOf LDebug) p.

(** Options that are not handed on. *)
Definition inherited (o : copts) : copts :=
  o <| o_debug := false |> <| o_version := false |> <| o_stderr := None |>.
