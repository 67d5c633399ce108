(** Strings and characters as used by jom (Qt's QChar / QString).

    A QChar is a UTF-16 code unit, modelled as an [N]; a QString is a list of them.
    Character classification and case mapping follow Qt's tables for the Latin-1 range
    (0..255).  Simplification: code units >= 256 are treated as caseless non-letters and
    non-digits; the white-space code points above 255 are included. *)

From Coq Require Import List NArith ZArith Bool Lia Ascii String.
Import ListNotations.
Local Open Scope N_scope.

Global Arguments N.add : simpl never.
Global Arguments N.sub : simpl never.
Global Arguments N.mul : simpl never.
Global Arguments N.eqb : simpl nomatch.
Global Arguments N.leb : simpl nomatch.
Global Arguments N.ltb : simpl nomatch.

(** A code unit of a QString, e.g. parser.cpp:246. *)
Definition qchar := N.
(** A QString, e.g. parser.h:74. *)
Definition qstr := list qchar.

(** String literals of the C++ source, QLatin1String / QLatin1Char (e.g. parser.cpp:67-78). *)
Fixpoint s2q (s : string) : qstr :=
  match s with
  | EmptyString => []
  | String a s' => N_of_ascii a :: s2q s'
  end.

(** A character literal, e.g. parser.cpp:251. *)
Definition ch (a : ascii) : qchar := N_of_ascii a.

(** QString::operator== (e.g. parser.cpp:430). *)
Fixpoint qeqb (a b : qstr) : bool :=
  match a, b with
  | [], [] => true
  | x :: a', y :: b' => (x =? y) && qeqb a' b'
  | _, _ => false
  end.

(** QChar::isSpace (Qt: tab..CR, space, NEL, NBSP and the Unicode separators) (e.g. parser.cpp:258). *)
Definition isSpace (c : qchar) : bool :=
  ((9 <=? c) && (c <=? 13)) || (c =? 32) || (c =? 133) || (c =? 160)
  || (c =? 5760) || ((8192 <=? c) && (c <=? 8202)) || (c =? 8232) || (c =? 8233)
  || (c =? 8239) || (c =? 8287) || (c =? 12288).

(** QChar::isDigit (decimal digits; only the ASCII ones are in Latin-1) (e.g. makefile.cpp:94). *)
Definition isDigit (c : qchar) : bool := (48 <=? c) && (c <=? 57).

(** QChar::isLetter, Latin-1 range (e.g. parser.cpp:253). *)
Definition isLetter (c : qchar) : bool :=
  ((65 <=? c) && (c <=? 90)) || ((97 <=? c) && (c <=? 122))
  || (c =? 170) || (c =? 181) || (c =? 186)
  || ((192 <=? c) && (c <=? 214)) || ((216 <=? c) && (c <=? 246)) || ((248 <=? c) && (c <=? 255)).

(** QChar::isLetterOrNumber, Latin-1 range (the "number" class also has the superscripts and
    vulgar fractions) (e.g. macrotable.cpp:318). *)
Definition isLetterOrNumber (c : qchar) : bool :=
  isLetter c || isDigit c || (c =? 178) || (c =? 179) || (c =? 185)
  || ((188 <=? c) && (c <=? 190)).

(** QChar::toLower, Latin-1 range (makefile.h:151). *)
Definition lowerChar (c : qchar) : qchar :=
  if ((65 <=? c) && (c <=? 90)) || ((192 <=? c) && (c <=? 222) && negb (c =? 215))
  then c + 32 else c.

(** QString::toLower (makefile.h:151). *)
Definition toLower (s : qstr) : qstr := map lowerChar s.

(** QString::toUpper: sharp s becomes SS, y-diaeresis and micro leave Latin-1 (e.g. macrotable.cpp:58). *)
Definition upperChar (c : qchar) : qstr :=
  if c =? 223 then [83; 83]
  else if c =? 255 then [376]
  else if c =? 181 then [924]
  else if ((97 <=? c) && (c <=? 122)) || ((224 <=? c) && (c <=? 254) && negb (c =? 247))
  then [c - 32] else [c].
(** e.g. macrotable.cpp:58. *)
Definition toUpper (s : qstr) : qstr := flat_map upperChar s.

(** Simple case folding used by Qt::CaseInsensitive comparisons (e.g. parser.cpp:705). *)
Definition foldChar (c : qchar) : qchar := if c =? 181 then 956 else lowerChar c.
(** e.g. parser.cpp:705. *)
Definition foldCase (s : qstr) : qstr := map foldChar s.

(** QString::compare(.., Qt::CaseInsensitive) == 0 (e.g. makefile.cpp:556-569). *)
Definition qeqb_ci (a b : qstr) : bool := qeqb (foldCase a) (foldCase b).

(** QString::isEmpty, e.g. parser.cpp:303. *)
Definition isEmpty (s : qstr) : bool := match s with [] => true | _ => false end.

(** QString::startsWith (e.g. parser.cpp:549). *)
Fixpoint startsWith (p s : qstr) : bool :=
  match p, s with
  | [], _ => true
  | x :: p', y :: s' => (x =? y) && startsWith p' s'
  | _ :: _, [] => false
  end.
(** e.g. commandexecutor.cpp:142. *)
Definition startsWith_ci (p s : qstr) : bool := startsWith (foldCase p) (foldCase s).

(** QString::endsWith (e.g. parser.cpp:564). *)
Definition endsWith (p s : qstr) : bool := startsWith (rev p) (rev s).
(** e.g. parser.cpp:705. *)
Definition endsWith_ci (p s : qstr) : bool := endsWith (foldCase p) (foldCase s).

(** QString::trimmed (e.g. parser.cpp:301). *)
Fixpoint dropSpaces (s : qstr) : qstr :=
  match s with
  | c :: s' => if isSpace c then dropSpaces s' else s
  | [] => []
  end.
(** e.g. parser.cpp:301. *)
Definition trimRight (s : qstr) : qstr := rev (dropSpaces (rev s)).
(** e.g. parser.cpp:301. *)
Definition trimmed (s : qstr) : qstr := trimRight (dropSpaces s).

(** QString::contains(QChar) (e.g. commandexecutor.cpp:300). *)
Definition containsChar (c : qchar) (s : qstr) : bool := existsb (N.eqb c) s.

(** QString::indexOf(QChar, from); [None] is -1 (e.g. parser.cpp:205). *)
Fixpoint indexOfChar (c : qchar) (s : qstr) : option nat :=
  match s with
  | [] => None
  | x :: s' => if x =? c then Some O else option_map S (indexOfChar c s')
  end.
(** e.g. parser.cpp:205. *)
Definition indexOfCharFrom (c : qchar) (s : qstr) (from : nat) : option nat :=
  option_map (fun k => (from + k)%nat) (indexOfChar c (skipn from s)).

(** QString::lastIndexOf(QChar) (e.g. parser.cpp:366). *)
Fixpoint lastIndexOfChar (c : qchar) (s : qstr) : option nat :=
  match s with
  | [] => None
  | x :: s' => match lastIndexOfChar c s' with
               | Some k => Some (S k)
               | None => if x =? c then Some O else None
               end
  end.

(** QString::indexOf(QString, from) (e.g. parser.cpp:516). *)
Fixpoint indexOf (p s : qstr) : option nat :=
  if startsWith p s then Some O
  else match s with
       | [] => None
       | _ :: s' => option_map S (indexOf p s')
       end.
(** e.g. parser.cpp:516. *)
Definition indexOfFrom (p s : qstr) (from : nat) : option nat :=
  if Nat.leb from (List.length s) then option_map (fun k => (from + k)%nat) (indexOf p (skipn from s))
  else None.

(** QString::left / mid / remove(pos,n) / replace(pos,n,str) for in-range arguments (e.g. parser.cpp:394). *)
Definition qleft (n : nat) (s : qstr) : qstr := firstn n s.
(** e.g. parser.cpp:530. *)
Definition qmid (pos n : nat) (s : qstr) : qstr := firstn n (skipn pos s).
(** e.g. parser.cpp:398. *)
Definition qremove (pos n : nat) (s : qstr) : qstr := firstn pos s ++ skipn (pos + n) s.
(** e.g. commandexecutor.cpp:307. *)
Definition qreplaceAt (pos n : nat) (r s : qstr) : qstr := firstn pos s ++ r ++ skipn (pos + n) s.

(** QString::chop (e.g. makefile.cpp:399). *)
Definition qchop (n : nat) (s : qstr) : qstr := firstn (List.length s - n) s.

(** QString::replace(QChar, QChar) (e.g. preprocessor.cpp:351). *)
Definition replaceChar (a b : qchar) (s : qstr) : qstr := map (fun c => if c =? a then b else c) s.

(** QDir::toNativeSeparators / fromNativeSeparators on Windows (e.g. parser.cpp:400). *)
Definition toNative (s : qstr) : qstr := replaceChar 47 92 s.
(** e.g. parser.cpp:365. *)
Definition fromNative (s : qstr) : qstr := replaceChar 92 47 s.

(** QString::replace(QString before, QString after): left to right, non-overlapping; an empty
    [before] matches at every position.  [skip] counts the characters still belonging to the
    match just replaced (commandexecutor.cpp:169). *)
Fixpoint replaceGo (b a : qstr) (skip : nat) (s : qstr) : qstr :=
  match s with
  | [] => []
  | c :: s' =>
    match skip with
    | S k => replaceGo b a k s'
    | O => if startsWith b s then a ++ replaceGo b a (List.length b - 1) s'
           else c :: replaceGo b a O s'
    end
  end.
(** commandexecutor.cpp:169. *)
Definition replaceAll (b a s : qstr) : qstr :=
  match b with
  | [] => match a with [] => s | _ => flat_map (fun c => a ++ [c]) s ++ a end
  | _ => replaceGo b a O s
  end.

(** QStringList::contains (e.g. parser.cpp:551). *)
Definition containsStr (x : qstr) (l : list qstr) : bool := existsb (qeqb x) l.

(** helperfunctions.h:32-40 fileNameFromFilePath: text behind the last slash or backslash. *)
Fixpoint fileNameFromFilePath (s : qstr) : qstr :=
  match s with
  | [] => []
  | c :: s' =>
    if containsChar 47 s || containsChar 92 s then fileNameFromFilePath s' else s
  end.

(** helperfunctions.h:42-45. *)
Definition isSpaceOrTab (c : qchar) : bool := (c =? 32) || (c =? 9).

(** helperfunctions.h:47-51 (the empty string is excluded by the assertion there). *)
Definition startsWithSpaceOrTab (s : qstr) : bool :=
  match s with c :: _ => isSpaceOrTab c | [] => false end.

(** helperfunctions.h:53-57. *)
Definition removeDirSeparatorAtEnd (s : qstr) : qstr :=
  if endsWith [47] s || endsWith [92] s then qchop 1 s else s.

(** helperfunctions.h:59-66. For the one-character string consisting of a quote, chop gives the
    empty string and remove(0,1) on it does nothing. *)
Definition removeDoubleQuotes (s : qstr) : qstr :=
  if startsWith [34] s && endsWith [34] s then qremove 0 1 (qchop 1 s) else s.

(** helperfunctions.cpp:65-71 trimLeft. *)
Definition trimLeft (s : qstr) : qstr := dropSpaces s.

(** QFileInfo(path).fileName() on Windows: both separators count, and a bare drive prefix is cut
    off (QFileSystemEntry::fileName) (makefile.cpp:239-270). *)
Definition qfiFileName (s : qstr) : qstr :=
  if containsChar 47 s || containsChar 92 s then fileNameFromFilePath s
  else match s with
       | _ :: 58 :: rest => rest
       | _ => s
       end.

(** QFileInfo(path).baseName(): file name up to the first dot (makefile.cpp:239-270). *)
Fixpoint uptoChar (c : qchar) (s : qstr) : qstr :=
  match s with
  | [] => []
  | x :: s' => if x =? c then [] else x :: uptoChar c s'
  end.
(** makefile.cpp:239-270. *)
Definition qfiBaseName (s : qstr) : qstr := uptoChar 46 (qfiFileName s).

(** The character that marks a file name macro to be expanded later,
    macrotable.cpp:36 MacroTable::fileNameMacroMagicEscape (0xFEFF). *)
Definition magicEscape : qchar := 65279.
