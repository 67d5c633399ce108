(** The macro table: macrotable.cpp. *)
From stdpp Require Import prelude gmap.
From Verif Require Import Base.
Local Open Scope N_scope.

(** macrotable.h:73-80 MacroSource. *)
Inductive msource := SrcCommandLine | SrcCommandLineImplicit | SrcMakeFile | SrcEnvironment | SrcPredefinition.

(** macrotable.h:82-87 MacroData. *)
Record mdata := Mdata { md_source : msource; md_ro : bool; md_value : qstr }.

(** macrotable.h:98-99 m_macros and m_environment. The environment is a QMap whose keys compare without
    case (processenvironment.h:37-69); it is modelled with the case-folded name as key and the name as
    first inserted beside the value (QMap::operator[] keeps the old key). *)
Record mtable := Mtable {
  mt_macros : gmap qstr mdata;
  mt_env : gmap qstr (qstr * qstr);
}.

(** What expansion can end with: a string, the recursion error naming the macro (macrotable.cpp:361-364),
    one of the other errors (259, 268, 336, 411). [XFuel] does not stand for anything in the program; it is
    shown not to occur. *)
Inductive xres := XOk (r : qstr) | XCycle (m : qstr) | XErr | XFuel.
Definition xbind (a : xres) (f : qstr -> xres) : xres := match a with XOk r => f r | e => e end.

(** macrotable.cpp:46-49 MacroTable::macroValue: empty for undefined macros. *)
Definition macroValue (mt : gmap qstr mdata) (n : qstr) : qstr :=
  match mt !! n with Some d => md_value d | None => [] end.

(** macrotable.cpp:245-257: [s] is the text behind the opening parenthesis; the place of the first
    closing parenthesis and of the first colon before it. *)
Fixpoint scanInvocation (s : qstr) : option (nat * option nat) :=
  match s with
  | [] => None
  | c :: s' =>
    if c =? 41 then Some (O, None)
    else match scanInvocation s' with
         | Some (e, col) => Some (S e, if c =? 58 then Some O else option_map S col)
         | None => None
         end
  end.

(** macrotable.cpp:389-408, the loop of parseSubstitutionStatement over the text behind the colon: places
    of the last equals sign, of the closing parenthesis and of the carets. *)
Fixpoint subScan (s : qstr) (i : nat) (quoted : bool) (eq : option nat) (qs : list nat)
  : option (option nat * nat * list nat) :=
  match s with
  | [] => None
  | c :: s' =>
    if c =? 61 then subScan s' (S i) false (Some i) qs
    else if (c =? 41) && negb quoted then Some (eq, i, qs)
    else if c =? 94 then subScan s' (S i) true eq (qs ++ [i])
    else subScan s' (S i) false eq qs
  end.

(** QString::remove(pos, 1): a negative position counts from the end; nothing happens out of range (macrotable.cpp:227-357). *)
Definition qremoveZ (pos : Z) (s : qstr) : qstr :=
  let p := if (pos <? 0)%Z then (pos + Z.of_nat (length s))%Z else pos in
  if (p <? 0)%Z || (Z.of_nat (length s) <=? p)%Z then s else qremove (Z.to_nat p) 1 s.

(** macrotable.cpp:385-419 parseSubstitutionStatement: before, after, place of the closing parenthesis;
    [None]: it throws. The carets are removed from the last to the first (416-417). *)
Definition parseSubstitution (s : qstr) : option (qstr * qstr * nat) :=
  match subScan s 0 false None [] with
  | Some (Some eq, e, qs) =>
    Some (qleft eq s,
          fold_right (fun q a => qremoveZ (Z.of_nat q - Z.of_nat eq - 1) a) (qmid (S eq) (e - eq - 1) s) qs, e)
  | _ => None
  end.

(** macrotable.cpp:421-424 applySubstitution. *)
Definition applySubstitution (before after value : qstr) : qstr := replaceAll before after value.

(** macrotable.cpp:272-275, 328-331: the characters naming file name macros. *)
Definition isFileMacroChar (c : qchar) : bool := (c =? 60) || (c =? 42) || (c =? 64) || (c =? 63).

(** macrotable.cpp:227-357, one call of expandMacros. [call m] is the value of macro [m] after the cycle
    check (359-367) and after expansion, lines 284-285 and 321-322. usedMacros has the same contents before
    and after every nested call that returns (290, 323), so it is an argument of the recursion instead of a
    reference. The text not yet looked at is [s]; [n] bounds its length. *)
Fixpoint expandLoop (call : qstr -> xres) (dep : bool) (n : nat) (s : qstr) : xres :=
  match n with
  | O => match s with [] => XOk [] | _ => XFuel end
  | S n' =>
    match s with
    | [] => XOk []
    | c :: s1 =>
      match s1 with
      | [] => XOk [c]
      | d :: s2 =>
        if negb (c =? 36) then xbind (expandLoop call dep n' s1) (fun r => XOk (c :: r))
        else if d =? 40 then
          (* 243-294 *)
          match scanInvocation s2 with
          | None => XErr
          | Some (e, col) =>
            let name := qleft (match col with Some k => k | None => e end) s2 in
            match name with
            | [] => XErr
            | f :: _ =>
              if isFileMacroChar f then
                xbind (expandLoop call dep n' (skipn (S e) s2))
                      (fun r => XOk ([magicEscape; 40] ++ qleft (S e) s2 ++ r))
              else
                xbind (call name) (fun v =>
                match col with
                | None => xbind (expandLoop call dep n' (skipn (S e) s2)) (fun r => XOk (v ++ r))
                | Some k =>
                  let t := skipn (S k) s2 in
                  match parseSubstitution t with
                  | None => XErr
                  | Some (before, after, e') =>
                    xbind (expandLoop call dep n' (skipn (S e') t))
                          (fun r => XOk (applySubstitution before after v ++ r))
                  end
                end)
            end
          end
        else if d =? 36 then
          (* 295-317 *)
          match dep, s2 with
          | true, 64 :: s3 => xbind (expandLoop call dep n' s3) (fun r => XOk (magicEscape :: 64 :: r))
          | true, 40 :: 64 :: s3 =>
            xbind (expandLoop call dep n' s3) (fun r => XOk (magicEscape :: 40 :: 64 :: r))
          | _, _ => xbind (expandLoop call dep n' s2) (fun r => XOk (36 :: r))
          end
        else if isLetterOrNumber d then
          (* 318-324 *)
          xbind (call [d]) (fun v => xbind (expandLoop call dep n' s2) (fun r => XOk (v ++ r)))
        else if isFileMacroChar d then
          xbind (expandLoop call dep n' s2) (fun r => XOk (magicEscape :: d :: r))
        else XErr
      end
    end
  end.

(** macrotable.cpp:227-357 with the recursion; [used] is usedMacros. *)
Fixpoint expandWith (fuel : nat) (mt : gmap qstr mdata) (dep : bool) (used : list qstr) (s : qstr) : xres :=
  match fuel with
  | O => XFuel
  | S fuel' =>
    expandLoop (fun m => if containsStr m used then XCycle m
                         else expandWith fuel' mt dep (m :: used) (macroValue mt m))
               dep (length s) s
  end.

(** macrotable.cpp:221-225. Every name in usedMacros but the last one added is a defined macro with a
    non-empty value, so the recursion is at most two levels deeper than there are macros. *)
Definition expandMacros (mt : gmap qstr mdata) (dep : bool) (s : qstr) : xres :=
  expandWith (S (S (size mt))) mt dep [] s.

(** ** Definitions *)

(** macrotable.cpp:108-117 isMacroNameValid, the regular expression ([A-Z]|_|)(\w|\.)+ without regard to
    case. The first group may be empty and what it matches is also matched by \w, so this is one or more
    of \w and the dot. QRegExp's \w: letters, numbers, marks and the underscore. *)
Definition isMacroNameValid (n : qstr) : bool :=
  match n with [] => false | _ => forallb (fun c => isLetterOrNumber c || (c =? 95) || (c =? 46)) n end.

(** macrotable.cpp:162-173 replaceStringWithLazyValue: the search goes on behind the inserted text, so this
    is a plain replacement from left to right. (The search string is never empty.) *)
Definition replaceLazy (pat value s : qstr) : qstr := replaceAll pat value s.

(** $(NAME), macrotable.cpp:200. *)
Definition invocationOf (n : qstr) : qstr := [36; 40] ++ n ++ [41].

(** The MacroData that operator[] makes for a new key, macrotable.h:84-86. *)
Definition newMacro : mdata := Mdata SrcMakeFile false [].

(** Result of operations that may throw: [MThrow] keeps the table, which was changed before (macrotable.cpp:56-160). *)
Inductive mres (A : Type) := MOk (a : A) | MThrow.
Arguments MOk {A} _.
Arguments MThrow {A}.

(** macrotable.cpp:192-209 internalSetMacroValue: the new table and the key of the entry; [None] inside
    for the null pointer. *)
Definition internalSet (t : mtable) (name value : qstr) (ignoreRo : bool) : mres (mtable * option qstr) :=
  match expandMacros (mt_macros t) false name with
  | XOk en =>
    if isMacroNameValid en then
      let v := replaceLazy (invocationOf en) (macroValue (mt_macros t) en) value in
      let d := default newMacro (mt_macros t !! en) in
      let d' := if ignoreRo || negb (md_ro d) then Mdata (md_source d) (md_ro d) v else d in
      MOk (Mtable (<[en := d']> (mt_macros t)) (mt_env t), Some en)
    else MOk (t, None)
  | _ => MThrow
  end.

(** macrotable.cpp:153-156 setEnvironmentVariable. *)
Definition setEnv (n v : qstr) (t : mtable) : mtable :=
  let k := foldCase n in
  Mtable (mt_macros t) (<[k := (match mt_env t !! k with Some (n0, _) => n0 | None => n end, v)]> (mt_env t)).

(** Assignments through the MacroData pointer (macrotable.h:82-87). *)
Definition setSource (k : qstr) (src : msource) (t : mtable) : mtable :=
  Mtable (alter (fun d => Mdata src (md_ro d) (md_value d)) k (mt_macros t)) (mt_env t).
(** macrotable.h:82-87. *)
Definition setRo (k : qstr) (ro : bool) (t : mtable) : mtable :=
  Mtable (alter (fun d => Mdata (md_source d) ro (md_value d)) k (mt_macros t)) (mt_env t).

(** Does the macro's source equal a given one (macrotable.cpp:131-142). *)
Definition srcEqb (a b : msource) : bool :=
  match a, b with
  | SrcCommandLine, SrcCommandLine | SrcCommandLineImplicit, SrcCommandLineImplicit
  | SrcMakeFile, SrcMakeFile | SrcEnvironment, SrcEnvironment | SrcPredefinition, SrcPredefinition => true
  | _, _ => false
  end.

(** macrotable.cpp:56-84 defineEnvironmentMacroValue. The exception of line 71 is caught, the one of
    line 63 is not. *)
Definition defineEnvironment (name value : qstr) (ro : bool) (t : mtable) : mres mtable :=
  let u := toUpper name in
  match mt_macros t !! u with
  | Some d =>
    if srcEqb (md_source d) SrcCommandLine then
      let t1 := setSource u SrcEnvironment t in
      match expandMacros (mt_macros t1) false (md_value d) with
      | XOk v => MOk (setEnv u v t1)
      | _ => MThrow
      end
    else MOk t
  | None =>
    match expandMacros (mt_macros t) false value with
    | XOk ev =>
      match internalSet t u value false with
      | MOk (t1, Some k) => MOk (setEnv u ev (setRo k ro (setSource k SrcEnvironment t1)))
      | MOk (t1, None) => MOk t1
      | MThrow => MThrow
      end
    | _ => MOk t
    end
  end.

(** macrotable.cpp:98-106 defineCommandLineMacroValueImpl and 86-96 its two callers. *)
Definition defineCommandLine (name value : qstr) (src : msource) (t : mtable) : mres mtable :=
  match internalSet t name value true with
  | MThrow => MThrow
  | MOk (t1, k) =>
    let t2 := match k with Some k => setRo k true (setSource k src t1) | None => t1 end in
    match expandMacros (mt_macros t2) false value with
    | XOk v => MOk (setEnv name v t2)
    | _ => MThrow
    end
  end.

(** macrotable.cpp:131-142 setMacroValueImpl. *)
Definition setMacroImpl (name value : qstr) (src : msource) (t : mtable) : mres mtable :=
  match internalSet t name value false with
  | MOk (t1, Some k) =>
    let t2 := setSource k src t1 in
    if srcEqb src SrcEnvironment then
      match expandMacros (mt_macros t2) false (macroValue (mt_macros t2) k) with
      | XOk v => MOk (setEnv name v t2)
      | _ => MThrow
      end
    else MOk t2
  | _ => MThrow
  end.
(** macrotable.cpp:126-129. *)
Definition setMacroValue (name value : qstr) (t : mtable) : mres mtable := setMacroImpl name value SrcMakeFile t.
(** macrotable.cpp:144-147. *)
Definition predefineValue (name value : qstr) (t : mtable) : mres mtable := setMacroImpl name value SrcPredefinition t.
(** macrotable.cpp:216-219. *)
Definition undefineMacro (name : qstr) (t : mtable) : mtable := Mtable (delete name (mt_macros t)) (mt_env t).
(** macrotable.cpp:211-214. *)
Definition isMacroDefined (name : qstr) (t : mtable) : bool :=
  match mt_macros t !! name with Some _ => true | None => false end.
