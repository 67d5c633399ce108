(** What the lines of a file are, without buffers. *)
From stdpp Require Import prelude.
From Verif Require Import Base LineReader.
Local Open Scope N_scope.

(** [phys text ls]: the physical lines of a text. A line feed ends a line; the last line may be without. *)
Inductive phys : list N -> list (list N) -> Prop :=
| ph_nil : phys [] []
| ph_last l : l <> [] -> 10 ∉ l -> phys l [l]
| ph_line l text ls : 10 ∉ l -> phys text ls -> phys (l ++ 10 :: text) (l :: ls).

(** Carriage returns before line feeds do not count. *)
Inductive physCR : list N -> list (list N) -> Prop :=
| pc_nil : physCR [] []
| pc_last l : l <> [] -> 10 ∉ l -> physCR l [l]
| pc_line l text ls : 10 ∉ l -> last l <> Some 13 -> physCR text ls -> physCR (l ++ 10 :: text) (l :: ls)
| pc_cr l text ls : 10 ∉ l -> physCR text ls -> physCR (l ++ 13 :: 10 :: text) (l :: ls).

(** A comment line. *)
Definition comment (l : list N) : Prop := head l = Some 35.

(** The end of a line: a caret keeps the backslash behind it, two backslashes stand for themselves, a single
    backslash joins, a caret keeps the line feed. *)
Inductive ends : list N -> qstr -> cont -> Prop :=
| en_caret_backslash p : ends (p ++ [94; 92]) (p ++ [92]) CNone
| en_two p : ends (p ++ [92; 92]) (p ++ [92; 92]) CNone
| en_backslash p : last p <> Some 94 -> last p <> Some 92 -> ends (p ++ [92]) p CBackslash
| en_caret p : ends (p ++ [94]) p CCaret
| en_plain p : last p <> Some 92 -> last p <> Some 94 -> ends p p CNone.

(** The lines that are delivered: comments are dropped wherever they are. *)
Inductive delivered : list (list N) -> list mline -> Prop :=
| de_nil : delivered [] []
| de_comment l ls r : comment l -> delivered ls r -> delivered (l :: ls) r
| de_line l ls c k r : ~ comment l -> ends l c k -> delivered ls r -> delivered (l :: ls) (MLine (Some c) k :: r).

(** Everything a reader delivers up to the end of the file. *)
Inductive readsAll : reader -> list mline -> Prop :=
| ra_end r r' : readerLine false r = Some (MLine None CNone, r') -> readsAll r []
| ra_line r r' c k ls : readerLine false r = Some (MLine (Some c) k, r') -> readsAll r' ls ->
    readsAll r (MLine (Some c) k :: ls).

(** The same for any sizes of the buffer and its growth. *)
Inductive readsAll8 (grow : nat) : nat -> list N -> list mline -> Prop :=
| r8_end size text : readLine8 grow (S (length text)) size text = REnd -> readsAll8 grow size text []
| r8_line size text l size' text' ls : readLine8 grow (S (length text)) size text = RLine l size' text' ->
    readsAll8 grow size' text' ls -> readsAll8 grow size text (l :: ls).
