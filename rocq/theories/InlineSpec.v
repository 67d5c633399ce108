(** Inline files in commands: how names and contents are written. *)
From Coq Require Import Ascii String.
From stdpp Require Import prelude gmap.
From RecordUpdate Require Import RecordUpdate.
From Verif Require Import Base Data Macro LineReader Preproc.
Local Open Scope N_scope.

(** White space, see QChar::isSpace. *)
Definition space (c : N) : Prop := isSpace c = true.
(** Two less-than signs stand at [i]. *)
Definition marked (s : list N) (i : nat) : Prop := s !! i = Some 60 /\ s !! S i = Some 60.

(** [inlines s line names]: a command [s] with inline files is the command [line], in which no names follow the
    marks, and the names. A name ends before white space or is in double quotes; it can be missing. *)
Inductive inlines : list N -> list N -> list (list N) -> Prop :=
| in_end s : (forall i, ~ marked s i) -> inlines s s []
| in_word t w rest line names : (forall i, ~ marked (t ++ [60]) i) -> Forall (fun c => ~ space c) w -> head w <> Some 34 ->
    (forall c, head rest = Some c -> space c) -> inlines rest line names ->
    inlines (t ++ [60; 60] ++ w ++ rest) (t ++ [60; 60] ++ line) (w :: names)
| in_quoted t w rest line names : (forall i, ~ marked (t ++ [60]) i) -> 34 ∉ w -> inlines rest line names ->
    inlines (t ++ [60; 60; 34] ++ w ++ [34] ++ rest) (t ++ [60; 60] ++ line) (w :: names)
| in_open t rest line names : (forall i, ~ marked (t ++ [60]) i) -> 34 ∉ rest -> inlines (34 :: rest) line names ->
    inlines (t ++ [60; 60; 34] ++ rest) (t ++ [60; 60] ++ line) ([] :: names).

(** A line with CR LF at its end. *)
Inductive ended : list N -> list N -> Prop :=
| ed_crlf s : ended (s ++ [13; 10]) (s ++ [13; 10])
| ed_lf s : last s <> Some 13 -> ended (s ++ [10]) (s ++ [13; 10])
| ed_none s : last s <> Some 10 -> ended s (s ++ [13; 10]).

(** A line that is a directive: an exclamation mark, or the word include and a blank. *)
Definition directive (s : list N) : Prop :=
  head s = Some 33 \/ exists w c v, s = w ++ c :: v /\ toLower w = map N.of_nat [105; 110; 99; 108; 117; 100; 101]%nat /\ (c = 32 \/ c = 9) /\ v <> [].

(** The text of an inline file: lines that are no directives, neither before macros are expanded nor afterwards,
    and do not begin with the mark; the line with the mark ends it. [cs]: the lines with macros expanded. *)
Definition nodirective (mt : gmap qstr mdata) (l c : list N) : Prop := head l <> Some 33 /\ expandMacros mt false l = XOk c /\ ~ directive c.
Inductive inlineText (mt : gmap qstr mdata) : list N -> list (list N) -> list N -> list N -> Prop :=
| it_end o c rest : 10 ∉ o -> last o <> Some 13 -> nodirective mt ([60; 60] ++ o ++ [10]) c -> inlineText mt ([60; 60] ++ o ++ [10] ++ rest) [] o rest
| it_line l c text cs o rest : 10 ∉ l -> last l <> Some 13 -> (forall s, l <> [60; 60] ++ s) -> nodirective mt (l ++ [10]) c ->
    inlineText mt text cs o rest -> inlineText mt (l ++ [10] ++ text) (c :: cs) o rest.
(** One word of a text. *)
Definition isWord (s w : list N) : Prop := exists a b, s = a ++ w ++ b /\ w <> [] /\ Forall (fun c => ~ space c) w /\
  (forall c, last a = Some c -> space c) /\ (forall c, head b = Some c -> space c).
(** The texts of several inline files, one behind the other. *)
Inductive inlineTexts (mt : gmap qstr mdata) : list N -> list (list (list N) * list N) -> list N -> Prop :=
| its_nil rest : inlineTexts mt rest [] rest
| its_cons text cs o text' l rest : inlineText mt text cs o text' -> inlineTexts mt text' l rest -> inlineTexts mt text ((cs, o) :: l) rest.
(** The words behind the mark that ends a text. *)
Definition keepWord : list N := s2q "KEEP".
Definition unicodeWord : list N := s2q "UNICODE".
(** What is read for an inline file. *)
Definition fileFor (n : qstr) (p : list (list N) * list N) (f : inlineFile) : Prop :=
  if_name f = n /\ (exists es, Forall2 ended (fst p) es /\ if_content f = concat es) /\
  (if_keep f = true <-> isWord (snd p) keepWord) /\ (if_unicode f = true <-> isWord (snd p) unicodeWord).
(** The reader with [text] left in the file that is read. *)
Definition withText (st : pp) (text : list N) : pp :=
  st <| pp_files := match pp_files st with f :: fs => Tfile (tf_name f) (tf_dir f) (Reader (rd_uni (tf_reader f)) (rd_size (tf_reader f)) text) :: fs | [] => [] end |>.
