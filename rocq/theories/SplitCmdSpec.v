(** What splitting a command line should mean, said without the loop of helperfunctions.cpp. *)
From Coq Require Import List NArith Arith Bool Ascii String.
From Verif Require Import Base.
Import ListNotations.
Local Open Scope N_scope.

(** Number of double quotes in a text. *)
Definition quotes (s : qstr) : nat := count_occ N.eq_dec s 34.

(** Quotes are balanced. *)
Definition balanced (s : qstr) : Prop := Nat.Even (quotes s).

(** A word: not empty, balanced, and every blank in it stands between quotes (behind an odd number
    of them). *)
Definition word (w : qstr) : Prop :=
  w <> [] /\ balanced w /\
  forall a c b, w = a ++ c :: b -> isSpace c = true -> Nat.Odd (quotes a).

(** Blanks only. *)
Definition blank (b : qstr) : Prop := Forall (fun c => isSpace c = true) b.

(** [sentence s ws]: the words of the line [s] are [ws], separated by at least one blank. *)
Inductive sentence : qstr -> list qstr -> Prop :=
| sen_nil b : blank b -> sentence b []
| sen_last b w : blank b -> word w -> sentence (b ++ w) [w]
| sen_cons b w c s ws : blank b -> word w -> isSpace c = true -> sentence s ws ->
    sentence (b ++ w ++ c :: s) (w :: ws).

(** [value k w]: the text of a word, [k] telling whether an unpaired quote stands directly before.
    A pair of adjacent quotes stands for one quote, other quotes only group. *)
Fixpoint value (k : bool) (w : qstr) : qstr :=
  match w with
  | [] => []
  | c :: w' =>
    if c =? 34 then if k then 34 :: value false w' else value true w'
    else c :: value false w'
  end.

(** Writing an argument: put it in quotes and double the quotes in it (the convention of the
    comment at helperfunctions.cpp:28-30). *)
Definition quote (a : qstr) : qstr :=
  34 :: flat_map (fun c => if c =? 34 then [34; 34] else [c]) a ++ [34].

(** Writing a list of arguments, one blank between them. *)
Fixpoint writeArgs (l : list qstr) : qstr :=
  match l with
  | [] => []
  | [a] => quote a
  | a :: l' => quote a ++ 32 :: writeArgs l'
  end.

(** No blank at either end. *)
Definition tight (a : qstr) : Prop :=
  (forall c b, a = c :: b -> isSpace c = false) /\ (forall c b, a = b ++ [c] -> isSpace c = false).

(** Words that survive splitting unchanged. *)
Definition survives (a : qstr) : Prop := a <> [] /\ tight a.

(** Arguments that can be written and read back: no blank at either end, and something else than
    quotes in them. *)
Definition plainArg (a : qstr) : Prop := tight a /\ exists c, In c a /\ c <> 34.
