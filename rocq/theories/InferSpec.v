(** Which inference rules fit a target, in the words of the documentation. *)
From stdpp Require Import prelude gmap.
From Verif Require Import Base Data Infer Front.

(** Place [i] is the first place of the suffix list that holds [ext]; case does not matter. *)
Definition firstAt (sfx : list qstr) (ext : qstr) (i : nat) : Prop :=
  (exists x, sfx !! i = Some x /\ foldCase x = foldCase ext)
  /\ forall j x, (j < i)%nat -> sfx !! j = Some x -> foldCase x <> foldCase ext.

(** The target's name ends with the extension; case does not matter. *)
Definition hasSuffix (ext name : qstr) : Prop := exists p, foldCase name = p ++ foldCase ext.

(** The file a rule would make the target [name] from: same file name, extension exchanged, in the
    rule's directory. (The minimum only matters for extensions that are longer than the file name.) *)
Definition sourceOf (r : rule) (name : qstr) (file : qstr) : Prop :=
  exists base ext, qfiFileName name = base ++ ext /\ length ext = Nat.min (length (r_toExt r)) (length (qfiFileName name))
    /\ file = r_fromPath r ++ 92%N :: base ++ r_fromExt r.

(** Known to be there: as a target whose file was seen, or on disk. *)
Definition isThere (sn : snap) (mk : mkfile) (file : qstr) : Prop :=
  (exists b, mk_targets mk !! (file : tid) = Some b /\ b_exists b = true) \/ sn_exists sn file = true.

(** The rule fits: extension, directory, suffix list, and the source is there. *)
Definition applicable (sfx : list qstr) (sn : snap) (mk : mkfile) (name : qstr) (r : rule) : Prop :=
  hasSuffix (r_toExt r) name /\ r_toPath r = dirOfTarget name
  /\ (exists i, firstAt sfx (r_fromExt r) i)
  /\ (exists f, sourceOf r name f /\ isThere sn mk f).

(** The same rule; only the priority may have been filled in. *)
Definition sameRule (a b : rule) : Prop :=
  r_id a = r_id b /\ r_batch a = r_batch b /\ r_fromPath a = r_fromPath b /\ r_fromExt a = r_fromExt b
  /\ r_toPath a = r_toPath b /\ r_toExt a = r_toExt b /\ r_cmds a = r_cmds b.

(** All batches made from a queue, makefile.cpp:529-543, as a list of (rule, members). *)
Definition batchesOf (jobs : nat) (q : batchq) : list (rule * list tid) :=
  flat_map (fun r => let all := queueTargets q r in
                     map (pair r) (chunks (filesPerBatch (length all) jobs) all)) (queueRules q []).
