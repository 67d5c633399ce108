(** What the parts of a rule line are. *)
From Coq Require Import Ascii String.
From stdpp Require Import prelude.
From Verif Require Import Base.
Local Open Scope N_scope.

(** The code of a character. *)
Definition chr (a : ascii) : N := N_of_ascii a.
(** The number of a character in a text. *)
Definition count (c : N) (s : list N) : nat := length (filter (fun x => x = c) s).
(** The place [i] is outside of double quotes. *)
Definition outside (s : list N) (i : nat) : Prop := Nat.even (count (34 : N) (take i s)) = true.
(** At [i] a comment starts; the in-line command starts. *)
Definition commentAt (s : list N) (i : nat) : Prop :=
  s !! i = Some (chr "#") /\ outside s i /\ forall j, i = S j -> s !! j <> Some (chr "^").
Definition commandAt (s : list N) (i : nat) : Prop := s !! i = Some (chr ";") /\ outside s i.
(** The place [i] is the first one with [P]. *)
Definition firstAt (P : nat -> Prop) (i : nat) : Prop := P i /\ forall j, (j < i)%nat -> ~ P j.
(** The carets before # taken away. *)
Inductive unescaped : list N -> list N -> Prop :=
| ue_nil : unescaped [] []
| ue_escape s r : unescaped s r -> unescaped (chr "^" :: chr "#" :: s) (chr "#" :: r)
| ue_char c s r : ~ (c = chr "^" /\ head s = Some (chr "#")) -> unescaped s r -> unescaped (c :: s) (c :: r).

(** The level of parentheses. *)
Definition depth (s : list N) : Z := (Z.of_nat (count (chr "(") s) - Z.of_nat (count (chr ")") s))%Z.
(** The character before [i] is a drive letter: at the beginning of the line, after white space or a double
    quote. *)
Definition driveAt (s : list N) (i : nat) : Prop :=
  exists j l, i = S j /\ s !! j = Some l /\ isLetter l = true /\
    (j = 0%nat \/ exists k b, j = S k /\ s !! k = Some b /\ (isSpace b = true \/ b = 34)).
Definition colonAt (s : list N) (i : nat) : Prop := s !! i = Some (chr ":") /\ depth (take i s) = 0%Z /\ ~ driveAt s i.

(** Names. A blank is a space or a tab. *)
Definition blank (c : N) : Prop := c = chr " " \/ c = 9.
(** All blanks are in double quotes. *)
Definition oneWord (w : list N) : Prop := forall i c, w !! i = Some c -> blank c -> ~ outside w i.
Definition spaces (s : list N) : Prop := Forall (fun c => isSpace c = true) s.
(** Without white space at both ends. *)
Definition trims (w m : list N) : Prop :=
  exists a b, w = a ++ m ++ b /\ spaces a /\ spaces b /\
    (forall c, head m = Some c -> isSpace c = false) /\ (forall c, last m = Some c -> isSpace c = false).
(** Without the double quotes at both ends. *)
Inductive unquoted : list N -> list N -> Prop :=
| uq_quoted n : unquoted (34 :: n ++ [34]) n
| uq_single : unquoted [34] []
| uq_plain m : (head m <> Some 34 \/ last m <> Some 34) -> unquoted m m.
Definition nameOf (w : list N) (l : list qstr) : Prop :=
  exists m n, trims w m /\ unquoted m n /\ l = match n with [] => [] | _ => [n] end.
(** The names in a text: the words between blanks outside of double quotes. *)
Inductive namesIn : list N -> list qstr -> Prop :=
| ni_last w l : oneWord w -> nameOf w l -> namesIn w l
| ni_more w b s l l' : oneWord w -> outside w (length w) -> blank b -> nameOf w l -> namesIn s l' ->
    namesIn (w ++ b :: s) (l ++ l').
