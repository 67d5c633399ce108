(** What environment variables are, without the data structures of jom. *)
From Coq Require Import Ascii String.
From stdpp Require Import prelude.
From Verif Require Import Base SplitCmdSpec Env CmdExec.
Local Open Scope N_scope.

(** Two spellings of one variable. *)
Definition sameVar (a b : qstr) : Prop := foldCase a = foldCase b.
Global Instance sameVar_dec a b : Decision (sameVar a b).
Proof. unfold sameVar. apply _. Defined.

(** A name and a value that an environment block can carry. *)
Definition cleanVar (kv : qstr * qstr) : Prop :=
  fst kv <> [] /\ 0 ∉ fst kv /\ ch "=" ∉ tail (fst kv) /\ 0 ∉ snd kv.

(** How a process reads its environment block: entries up to an empty one, each with its name up to the
    first equals sign behind its first character. *)
Inductive reads : qstr -> list (qstr * qstr) -> Prop :=
| rd_end r : reads (0 :: r) []
| rd_entry n v r l : cleanVar (n, v) -> reads r l -> reads (n ++ ch "=" :: v ++ 0 :: r) ((n, v) :: l).

(** The value of a variable among entries. *)
Fixpoint valueIn (l : list (qstr * qstr)) (k : qstr) : option qstr :=
  match l with [] => None | (n, v) :: l' => if decide (sameVar n k) then Some v else valueIn l' k end.

(** The last value that a sequence of effects sets a variable to. *)
Fixpoint lastSet (l : list effect) (k : qstr) (old : option qstr) : option qstr :=
  match l with
  | [] => old
  | FSet n v :: l' => lastSet l' k (if decide (sameVar n k) then Some v else old)
  | _ :: l' => lastSet l' k old
  end.
Definition cleanSets (l : list effect) : Prop := forall n v, FSet n v ∈ l -> cleanVar (n, v).

(** A command line that sets a variable: the word set, blanks, the name, an equals sign, the value, blanks;
    nothing that only a shell understands. *)
Definition setLine (line name value : qstr) : Prop :=
  exists word s b1 b2,
    line = word ++ s :: b1 ++ (name ++ ch "=" :: value) ++ b2 /\
    foldCase word = s2q "set" /\ isSpace s = true /\
    Forall (fun c => isSpace c = true) b1 /\ Forall (fun c => isSpace c = true) b2 /\
    tight (name ++ ch "=" :: value) /\ ch "=" ∉ name /\
    (forall c, c ∈ line -> c ∉ s2q "|<>&") /\
    (forall a b, line <> a ++ s2q "%%" ++ b).
