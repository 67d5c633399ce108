(** A grammar of makefiles, line by line, and what a makefile says. Wildcards are not part of it. *)
From Coq Require Import Ascii String.
From stdpp Require Import prelude gmap.
From RecordUpdate Require Import RecordSet.
From Verif Require Import Base Data Macro MacroSpec MkLineSpec CmdSpec FileMacros MkParse.
From Verif Require InlineSpec.
Import RecordSetNotations.
Local Open Scope N_scope.

(** A line, the macros at the time it is read, and whether it is read as a line of an inline file. *)
Record moment := Moment { mo_macros :> gmap qstr mdata; mo_inline : bool }.
Definition tline : Type := qstr * moment.

(** ** Lines that are directives *)
Inductive dot := DIgnore | DPrecious | DSilent | DSuffixes.
Definition dotName (d : dot) : qstr :=
  match d with DIgnore => s2q ".IGNORE" | DPrecious => s2q ".PRECIOUS" | DSilent => s2q ".SILENT" | DSuffixes => s2q ".SUFFIXES" end.
Definition dotLine (s : qstr) (d : dot) (v : qstr) : Prop := exists sp, spaces sp /\ s = dotName d ++ sp ++ s2q ":" ++ v.
(** The words of a text. *)
Inductive wordsOf : list N -> list qstr -> Prop :=
| wo_none sp : spaces sp -> wordsOf sp []
| wo_word sp w rest ws : spaces sp -> w <> [] -> Forall (fun c => isSpace c = false) w -> (forall c, head rest = Some c -> isSpace c = true) ->
    wordsOf rest ws -> wordsOf (sp ++ w ++ rest) (w :: ws).

(** ** Lines of inference rules *)
Definition wordChar (c : N) : Prop := isLetterOrNumber c = true \/ c = ch "_".
Definition extension (e : qstr) : Prop := exists w, e = ch "." :: w /\ w <> [] /\ Forall wordChar w.
Definition braces (p : qstr) : Prop := p = [] \/ exists q, p = ch "{" :: q ++ [ch "}"].
Definition colons (double : bool) : qstr := if double then s2q "::" else s2q ":".
Record irule := Irule { ir_fromPath : qstr; ir_fromExt : qstr; ir_toPath : qstr; ir_toExt : qstr; ir_double : bool }.
Definition ruleParts (s : qstr) (r : irule) : Prop :=
  s = ir_fromPath r ++ ir_fromExt r ++ ir_toPath r ++ ir_toExt r ++ colons (ir_double r) /\
  braces (ir_fromPath r) /\ extension (ir_fromExt r) /\ braces (ir_toPath r) /\ extension (ir_toExt r).
(** If there are several ways to read a line, the first path is as long as possible. *)
Definition ruleLine (s : qstr) (r : irule) : Prop :=
  ruleParts s r /\ forall r', ruleParts s r' -> (List.length (ir_fromPath r') <= List.length (ir_fromPath r))%nat.
(** The path in braces: a separator at its end does not belong to it; no path is the current directory. *)
Definition isSep (c : N) : Prop := c = ch "/" \/ c = ch "\".
Inductive searchPath : qstr -> qstr -> Prop :=
| sp_none : searchPath [] (s2q ".")
| sp_empty : searchPath (s2q "{}") (s2q ".")
| sp_sep p c : isSep c -> searchPath (ch "{" :: p ++ [c; ch "}"]) p
| sp_plain p : p <> [] -> (forall c, last p = Some c -> ~ isSep c) -> searchPath (ch "{" :: p ++ [ch "}"]) p.

(** ** Lines of description blocks *)
(** The line without its comment or the command on it. *)
Inductive cutLine : qstr -> qstr -> option qstr -> Prop :=
| cl_comment s i body : firstAt (commentAt s) i -> (forall k, commandAt s k -> (i < k)%nat) -> unescaped (take i s) body -> cutLine s body None
| cl_command s k : firstAt (commandAt s) k -> (forall i, commentAt s i -> (k < i)%nat) -> cutLine s (take k s) (Some (drop (S k) s))
| cl_none s : (forall i, ~ commentAt s i) -> (forall k, ~ commandAt s k) -> cutLine s s None.
(** The text with backslashes for slashes. *)
Definition backslashes (s : list N) : list N := map (fun c => if decide (c = ch "/") then ch "\" else c) s.
(** The names in a part of a line; [dep]: they are dependents. *)
Definition namesFor (mt : gmap qstr mdata) (dep : bool) (s : list N) (l : list qstr) : Prop :=
  exists t x, trims s t /\ expandsTo mt dep t x /\ namesIn (backslashes x) l.
Definition noWildcard (d : qstr) : Prop := ch "*" ∉ d /\ ch "?" ∉ d.
Inductive ruleHeader : tline -> bool -> list qstr -> list qstr -> option qstr -> Prop :=
| rh s (mt : moment) body cmd pos (double : bool) ts ds : cutLine s body cmd -> (forall c, head body = Some c -> ~ blank c) ->
    firstAt (colonAt body) pos -> (double = true <-> body !! S pos = Some (chr ":")) ->
    namesFor mt false (take pos body) ts -> namesFor mt true (drop (pos + if double then 2 else 1) body) ds -> Forall noWildcard ds ->
    ruleHeader (s, mt) double ts ds cmd.

(** ** Commands *)
(** What was said so far: rules, inference rules, suffixes, precious targets; commands are silent, exit codes are ignored. *)
Record said := Said { k_blocks : list prule; k_rules : list (irule * list command); k_suffixes : list qstr; k_precious : list qstr;
  k_silent : bool; k_ignore : bool }.
#[global] Instance etaSaid : Settable said := settable! Said <k_blocks; k_rules; k_suffixes; k_precious; k_silent; k_ignore>.
(** The text of an inline file: lines up to one that begins with the mark. Macros are replaced in the lines, but not in
    commands of inference rules. *)
Inductive inlineBody (inference : bool) : list tline -> list (list N) -> list N -> Prop :=
| ib_end o mt : mo_inline mt = true -> inlineBody inference [(s2q "<<" ++ o, mt)] [] o
| ib_line s mt c ls cs o : mo_inline mt = true -> (forall t, s <> s2q "<<" ++ t) -> (if inference then c = s else expandsTo mt false s c) ->
    inlineBody inference ls cs o -> inlineBody inference ((s, mt) :: ls) (c :: cs) o.
(** The texts of the inline files with the given names. *)
Inductive inlineBodies (inference : bool) : list tline -> list qstr -> list inlineFile -> Prop :=
| ibs_none : inlineBodies inference [] [] []
| ibs_file ls cs o n f ls' ns fs : inlineBody inference ls cs o -> InlineSpec.fileFor n (cs, o) f -> inlineBodies inference ls' ns fs ->
    inlineBodies inference (ls ++ ls') (n :: ns) (f :: fs).
(** A command of a description block: macros are replaced, then come its modifiers; behind it the texts [ils] of its inline
    files. *)
Inductive commandText (k : said) (mt : gmap qstr mdata) : list N -> list tline -> command -> Prop :=
| ct_mods s t e ms text line names ils c : trims s t -> expandsTo mt false t e -> e = modsText ms ++ text -> writtenAs ms text -> numbersFit ms ->
    InlineSpec.inlines text line names -> inlineBodies false ils names (c_inline c) ->
    c_line c = line -> (c_silent c = true <-> k_silent k = true \/ has MSilent ms) -> (c_single c = true <-> has MEach ms) ->
    c_max c = tolerated ms (if k_ignore k then anyExitCode else 0) -> commandText k mt s ils c.
(** A command of an inference rule is left as it is. *)
Inductive ruleCommand (k : said) : list N -> list tline -> command -> Prop :=
| rc_text s t line names ils fs : trims s t -> InlineSpec.inlines t line names -> inlineBodies true ils names fs ->
    ruleCommand k s ils (Command line fs (if k_ignore k then anyExitCode else 0) (k_silent k) false).
Definition indented (s : list N) : Prop := (exists c, head s = Some c /\ blank c) /\ ~ spaces s.
(** Lines with commands, with blank lines between them. *)
Inductive commandLines (k : said) (inference : bool) : list tline -> list command -> Prop :=
| cs_nil : commandLines k inference [] []
| cs_blank s mt ls cs : mo_inline mt = false -> spaces s -> commandLines k inference ls cs -> commandLines k inference ((s, mt) :: ls) cs
| cs_command s mt ils c ls cs : mo_inline mt = false -> indented s -> (if inference then ruleCommand k s ils c else commandText k mt s ils c) ->
    commandLines k inference ls cs -> commandLines k inference ((s, mt) :: ils ++ ls) (c :: cs).
(** Behind the commands. *)
Definition notCommand (ls : list tline) : Prop := forall s mt ls', ls = (s, mt) :: ls' -> ~ spaces s /\ ~ indented s.

(** ** Makefiles *)
Definition sayDot (d : dot) (ws : list qstr) (k : said) : said :=
  match d with
  | DIgnore => k <| k_ignore := true |>
  | DSilent => k <| k_silent := true |>
  | DPrecious => k <| k_precious ::= fun l => l ++ ws |>
  | DSuffixes => k <| k_suffixes ::= fun l => match ws with [] => [] | _ => l ++ ws end |>
  end.
(** A line that is neither blank nor a directive nor an inference rule. *)
Definition ordinary (e : qstr) : Prop := ~ spaces e /\ (forall d v, ~ dotLine e d v) /\ (forall r, ~ ruleParts e r).
(** [says k ls k']: the lines [ls] add to [k] what is in [k']. *)
Inductive says : said -> list tline -> said -> Prop :=
| sy_end k : says k [] k
| sy_blank k s mt e ls k' : mo_inline mt = false -> expandsTo mt false s e -> spaces e -> says k ls k' -> says k ((s, mt) :: ls) k'
| sy_dot k s mt e d v ws ls k' : mo_inline mt = false -> expandsTo mt false s e -> dotLine e d v -> wordsOf v ws -> says (sayDot d ws k) ls k' -> says k ((s, mt) :: ls) k'
| sy_rule k s mt e r cls cs ls k' : mo_inline mt = false -> expandsTo mt false s e -> ruleLine e r -> commandLines k true cls cs -> notCommand ls ->
    says (k <| k_rules ::= fun l => l ++ [(r, cs)] |>) ls k' -> says k ((s, mt) :: cls ++ ls) k'
| sy_block k s mt e double ts ds cmd cs0 ils cls cs ls k' : mo_inline mt = false -> expandsTo mt false s e -> ordinary e -> ruleHeader (s, mt) double ts ds cmd ->
    (match cmd with Some t => exists c, cs0 = [c] /\ commandText k mt t ils c | None => cs0 = [] /\ ils = [] end) ->
    (match cls with (l, _) :: _ => ~ spaces l | [] => True end) -> commandLines k false cls cs ->
    (match cls with [] => forall l mt' ls', ls = (l, mt') :: ls' -> ~ indented l | _ => notCommand ls end) ->
    says (k <| k_blocks ::= fun l => l ++ [Prule double ts ds (cs0 ++ cs)] |>) ls k' -> says k ((s, mt) :: ils ++ cls ++ ls) k'.

(** ** Sources of lines *)
(** The source [r] gives the lines [ls], and then nothing any more. *)
Inductive yields {R} (next : bool -> R -> pres (option qstr * R)) (tab : R -> gmap qstr mdata) : R -> list tline -> Prop :=
| yl_end r r' : next false r = POk (None, r') -> next false r' = POk (None, r') -> yields next tab r []
| yl_line r inl s r' ls : next inl r = POk (Some s, r') -> yields next tab r' ls -> yields next tab r ((s, Moment (tab r') inl) :: ls).
(** The inference rules that the parser keeps for those that were said. *)
Definition keeps (i : nat) (p : irule * list command) (r : rule) : Prop :=
  r_id r = i /\ r_batch r = ir_double (fst p) /\ searchPath (ir_fromPath (fst p)) (r_fromPath r) /\ r_fromExt r = ir_fromExt (fst p) /\
  searchPath (ir_toPath (fst p)) (r_toPath r) /\ r_toExt r = ir_toExt (fst p) /\ r_prio r = (-1)%Z /\ r_cmds r = snd p.
(** Every name once. *)
Inductive once : list qstr -> list qstr -> Prop :=
| on_nil : once [] []
| on_new l r w : once l r -> w ∉ l -> once (l ++ [w]) (r ++ [w])
| on_old l r w : once l r -> w ∈ l -> once (l ++ [w]) r.
(** All of them, in their order. *)
Definition kept (l : list (irule * list command)) (rs : list rule) : Prop :=
  List.length l = List.length rs /\ forall i p r, l !! i = Some p -> rs !! i = Some r -> keeps i p r.
(** Before the first line. *)
Definition silence (silent ignore : bool) : said := Said [] [] defaultSuffixes [] silent ignore.
