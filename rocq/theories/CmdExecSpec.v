(** What a dry run does, and what inline files are, without the executor. *)
From Coq Require Import Ascii String.
From stdpp Require Import prelude gmap.
From Verif Require Import Base Data CmdExec.
Local Open Scope N_scope.

(** What is printed for a command line. *)
Definition printed (line : qstr) : effect := FPrint false ([9] ++ line ++ [10]).

(** Effects that start a process, and effects on files. *)
Definition startsNone (l : list effect) : Prop := forall line cwd b, FStart line cwd b ∉ l.
Definition touchesNone (l : list effect) : Prop := (forall n c, FWrite n c ∉ l) /\ (forall n, FRemove n ∉ l).

(** A line with places for the names of inline files: [gaps t0 [t1; …; tk]] is t0<<t1<<…<<tk. *)
Definition gaps (t0 : qstr) (ts : list qstr) : qstr := t0 ++ concat (map (fun t => s2q "<<" ++ t) ts).
(** The same line with names put in. *)
Definition filled (t0 : qstr) (nts : list (qstr * qstr)) : qstr := t0 ++ concat (map (fun nt => fst nt ++ snd nt) nts).
(** How a name is written on the command line: backslashes, quotes if there are blanks in it. *)
Definition written (n : qstr) : qstr :=
  let m := map (fun c => if c =? 47 then 92 else c) n in
  if decide (32 ∈ m \/ 9 ∈ m) then [34] ++ m ++ [34] else m.

(** [created o w fs ns known]: the names of the files [fs], when the files [known] exist: the given one, or
    for a nameless file one in the temporary directory that no file has. *)
Inductive created (o : xopts) (w : xworld) (target : qstr) : list inlineFile -> list qstr -> gset qstr -> Prop :=
| cr_nil known : created o w target [] [] known
| cr_named f n fs ns known : if_name f = n -> n <> [] -> xw_open w n = true ->
    created o w target fs ns ({[n]} ∪ known) -> created o w target (f :: fs) (n :: ns) known
| cr_temp f k n fs ns known : if_name f = [] -> n ∉ known -> xw_open w n = true ->
    n = xo_temp o ++ fileNameFromFilePath target ++ s2q "." ++ xo_pid o ++ s2q "." ++ xw_tick w k ++ s2q ".jom" ->
    created o w target fs ns ({[n]} ∪ known) -> created o w target (f :: fs) (n :: ns) known.

(** All commands: the names command by command. *)
Inductive createdAll (o : xopts) (w : xworld) (target : qstr) : list command -> list (list qstr) -> gset qstr -> Prop :=
| ca_nil known : createdAll o w target [] [] known
| ca_cons c cs ns nss known : created o w target (c_inline c) ns known -> createdAll o w target cs nss (list_to_set ns ∪ known) ->
    createdAll o w target (c :: cs) (ns :: nss) known.
