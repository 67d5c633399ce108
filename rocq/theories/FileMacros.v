(** File name macros in commands: makefile.cpp:128-361. *)
From Coq Require Import Ascii String.
From stdpp Require Import prelude.
From Verif Require Import Base Data Macro.
Local Open Scope N_scope.

(** makefile.cpp:171-177 quoteStringIfNeeded. *)
Definition quoteIfNeeded (s : qstr) : qstr := if containsChar 32 s || containsChar 9 s then [34] ++ s ++ [34] else s.
(** makefile.cpp:179-190 joinFileNameMacroValues. *)
Fixpoint joinValues (l : list qstr) : qstr :=
  match l with
  | [] => []
  | [v] => quoteIfNeeded v
  | v :: l' => quoteIfNeeded v ++ [32] ++ joinValues l'
  end.

(** The result of an expansion: a text; an exception; undefined behaviour (an access behind the end of the
    string) (makefile.cpp:203-361). *)
Inductive fres (A : Type) := FOk (a : A) | FThrow | FCrash.
Arguments FOk {_} a. Arguments FThrow {_}. Arguments FCrash {_}.

Section expand.
(** The target name; its dependents; the file times that FastFileInfo gives (zero for no file), which stay
    the same during the expansion. *)
Context (target : qstr) (deps : list qstr) (tm : qstr -> N).

(** makefile.cpp:315-321: the dependents that count. [depIdx] is in range at all callers (148-151). *)
Definition candidates (depIdx : option nat) (forbidden : bool) : list qstr :=
  if forbidden then []
  else match depIdx with
       | None => deps
       | Some i => match deps !! i with Some d => [d] | None => [] end
       end.

(** makefile.cpp:312-361 getFileNameMacroValues: the values and the length of the macro name. *)
Definition macroValues (s : qstr) (depIdx : option nat) (forbidden : bool) : fres (list qstr * nat) :=
  match s with
  | [] => FCrash
  | c :: s' =>
    if c =? 64 then FOk ([target], 1%nat)
    else if c =? 42 then
      if startsWith [42] s' then if forbidden then FThrow else FOk (candidates depIdx forbidden, 2%nat)
      else FOk ([match lastIndexOfChar 46 target with Some i => take i target | None => target end], 1%nat)
    else if c =? 63 then
      if forbidden then FThrow
      else FOk (List.filter (fun d => tm target <=? tm d) (candidates depIdx forbidden), 1%nat)
    else FOk ([], 0%nat)
  end.

(** makefile.cpp:239-270: what the letters D, B, F and R do to a value. *)
Definition modify (m : qchar) (v : qstr) : qstr :=
  if m =? 68 then match lastIndexOfChar 92 v with Some k => take k v | None => [46] end
  else if m =? 66 then qfiBaseName v
  else if m =? 70 then qfiFileName v
  else match lastIndexOfChar 46 v with Some k => take k v | None => v end.
Definition isModifier (m : qchar) : bool := (m =? 68) || (m =? 66) || (m =? 70) || (m =? 82).

(** What is done with an invocation; [b] is the text behind the magic character: replace it by a text, so
    that the string goes on with [r]; or leave it (line 281, default branch) (makefile.cpp:224-303). *)
Inductive faction := AReplace (r : qstr) | ALeave.

(** makefile.cpp:287-300: a substitution that begins at [off] in [b']. *)
Definition withSubstitution (vals : list qstr) (b' : qstr) (off : nat) : fres faction :=
  match parseSubstitution (drop off b') with
  | None => FThrow
  | Some (before, after, e) =>
    FOk (AReplace (joinValues (map (applySubstitution before after) vals) ++ drop (off + S e) b'))
  end.

(** makefile.cpp:224-303 for the text [b] behind a magic character that is to be expanded. In the terms of
    the code [idx] is the place of the first character of [b]. *)
Definition invocation (b : qstr) (depIdx : option nat) (forbidden : bool) : fres faction :=
  match b with
  | [] => FCrash
  | c :: b' =>
    if c =? 40 then
    match macroValues b' depIdx forbidden with
    | FThrow => FThrow
    | FCrash => FCrash
    | FOk ([], n) => FOk (AReplace (drop (n + 2) b))
    | FOk (vals, n) =>
      match b' !! n with
      | None => FCrash
      | Some m =>
        if isModifier m then
          match b' !! S n with
          | None => FCrash
          | Some d => if d =? 58 then withSubstitution (map (modify m) vals) b' (n + 2) else FOk (AReplace (joinValues (map (modify m) vals) ++ drop (n + 3) b))
          end
        else if m =? 58 then withSubstitution vals b' (n + 1)
        else if m =? 41 then FOk (AReplace (joinValues vals ++ drop (n + 3) b))
        else FOk ALeave
      end
    end
    else
    match macroValues b depIdx forbidden with
    | FThrow => FThrow
    | FCrash => FCrash
    | FOk (vals, n) => FOk (AReplace (joinValues vals ++ drop n b))
    end
  end.

(** The text up to the first magic character and the text behind it (makefile.cpp:203-222). *)
Fixpoint cutMagic (s : qstr) : option (qstr * qstr) :=
  match s with
  | [] => None
  | c :: s' =>
    if c =? magicEscape then Some ([], s')
    else match cutMagic s' with Some (a, b) => Some (c :: a, b) | None => None end
  end.

(** makefile.cpp:216-222. *)
Definition endsCaret (p : qstr) : bool := match last p with Some c => c =? 94 | None => false end.

(** makefile.cpp:203-305 expandFileNameMacros: the string is [pre ++ rest] and [idx] the length of [pre].
    After a replacement the search goes on one character behind its place (line 208 with the [idx] of line
    209). lastEscapedIdx (212) is always smaller than the place that is found. [None]: not done within
    [fuel] rounds. *)
Fixpoint expandNames (fuel : nat) (depIdx : option nat) (forbidden : bool) (pre rest : qstr) : option (fres qstr) :=
  match fuel with
  | O => None
  | S f =>
    match cutMagic rest with
    | None => Some (FOk (pre ++ rest))
    | Some (a, b) =>
      let p := pre ++ a in
      if endsCaret p then expandNames f depIdx forbidden (p ++ [magicEscape]) b
      else
        match invocation b depIdx forbidden with
        | FThrow => Some FThrow
        | FCrash => Some FCrash
        | FOk ALeave => expandNames f depIdx forbidden (p ++ [magicEscape]) b
        | FOk (AReplace r) => expandNames f depIdx forbidden (p ++ take 1 r) (drop 1 r)
        end
    end
  end.
Definition expandName (fuel : nat) (depIdx : option nat) (forbidden : bool) (s : qstr) : option (fres qstr) :=
  expandNames fuel depIdx forbidden [] s.

(** makefile.cpp:162-169: the command line, then names and contents of the inline files. *)
Fixpoint expandFiles (fuel : nat) (depIdx : option nat) (l : list inlineFile) : option (fres (list inlineFile)) :=
  match l with
  | [] => Some (FOk [])
  | f :: l' =>
    match expandName fuel depIdx false (if_name f) with
    | Some (FOk n) =>
      match expandName fuel depIdx false (if_content f) with
      | Some (FOk c) =>
        match expandFiles fuel depIdx l' with
        | Some (FOk r) => Some (FOk (InlineFile (if_keep f) (if_unicode f) n c :: r))
        | x => x
        end
      | Some FThrow => Some FThrow | Some FCrash => Some FCrash | None => None
      end
    | Some FThrow => Some FThrow | Some FCrash => Some FCrash | None => None
    end
  end.
Definition expandCommand (fuel : nat) (depIdx : option nat) (c : command) : option (fres command) :=
  match expandName fuel depIdx false (c_line c) with
  | Some (FOk line) =>
    match expandFiles fuel depIdx (c_inline c) with
    | Some (FOk fs) => Some (FOk (Command line fs (c_max c) (c_silent c) (c_single c)))
    | Some FThrow => Some FThrow | Some FCrash => Some FCrash | None => None
    end
  | Some FThrow => Some FThrow | Some FCrash => Some FCrash | None => None
  end.

(** One after the other until something goes wrong (makefile.cpp:132-169). *)
Fixpoint collect {A B} (f : A -> option (fres B)) (l : list A) : option (fres (list B)) :=
  match l with
  | [] => Some (FOk [])
  | x :: l' =>
    match f x with
    | Some (FOk y) => match collect f l' with Some (FOk r) => Some (FOk (y :: r)) | z => z end
    | Some FThrow => Some FThrow | Some FCrash => Some FCrash | None => None
    end
  end.

(** makefile.cpp:141-160 expandFileNameMacros: a command with an exclamation mark becomes one command per
    dependent. *)
Definition single (c : command) : command := Command (c_line c) (c_inline c) (c_max c) (c_silent c) false.
Definition jobsOf (cs : list command) : list (option nat * command) :=
  flat_map (fun c => if c_single c then map (fun i => (Some i, single c)) (seq 0 (List.length deps)) else [(None, c)]) cs.
Definition expandCommands (fuel : nat) (cs : list command) : option (fres (list command)) :=
  collect (fun p => expandCommand fuel (fst p) (snd p)) (jobsOf cs).

(** commandexecutor.cpp:76-81 and 156: a target without commands is done at once, otherwise the first of
    the expanded commands is used, even if there is none. *)
Definition startCommands (fuel : nat) (cs : list command) : option (fres (list command)) :=
  match cs with
  | [] => Some (FOk [])
  | _ => match expandCommands fuel cs with Some (FOk []) => Some FCrash | r => r end
  end.

(** makefile.cpp:132-139 expandFileNameMacrosForDependents. *)
Definition expandDependents (fuel : nat) : option (fres (list qstr)) := collect (expandName fuel None true) deps.
End expand.
