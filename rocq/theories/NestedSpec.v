(** What C64 is about: the variables by which a jom finds the job server of the jom that started it. *)
From Coq Require Import Ascii String.
From stdpp Require Import prelude gmap.
From Verif Require Import Base.
Local Open Scope N_scope.

(** Names of variables for which capital letters are the only other spelling: characters of ASCII, no two s in a row (a sharp s in
    capital letters is SS). *)
Definition plainName (name : qstr) : Prop := Forall (fun c => c < 128) name /\ ~ exists a b, foldCase name = a ++ [115; 115] ++ b.
(** The macros of a command line leave a variable alone. *)
Definition leaveAlone (name : qstr) (ms : list (qstr * qstr)) : Prop := Forall (fun m => 36 ∉ fst m /\ foldCase (fst m) <> foldCase name) ms.
(** The entries of an environment block as lines, each a name, an equals sign and a value. *)
Definition linesOf (l : list (qstr * qstr)) : list qstr := map (fun kv => fst kv ++ [ch "="] ++ snd kv) l.
