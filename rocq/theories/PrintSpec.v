(** C58: what can be learnt from the listing printed by /P. *)
From Coq Require Import Ascii String.
From stdpp Require Import prelude gmap.
From Verif Require Import Base Data Macro WrittenSpec.
Local Open Scope N_scope.

(** ** What the listing is about *)
Definition macroSaid (p : qstr * mdata) : qstr * qstr := (fst p, md_value (snd p)).
Definition ruleSaid (r : rule) : qstr * qstr * qstr * qstr * bool * list qstr :=
  (r_fromPath r, r_fromExt r, r_toPath r, r_toExt r, r_batch r, map c_line (r_cmds r)).
Definition blockSaid (b : block) : qstr * list qstr * list qstr := (b_name b, b_deps b, map c_line (b_cmds b)).

(** ** Texts that cannot be mistaken for another part of the listing *)
Definition oneLine (s : qstr) : Prop := ch "010" ∉ s.
Definition macroPlain (p : qstr * mdata) : Prop := ch " " ∉ fst p /\ oneLine (fst p) /\ oneLine (md_value (snd p)).
(** The rule is what a line of a makefile says, and its paths do not end with another separator. *)
Definition cleanPath (p : qstr) : Prop := p <> [] /\ forall c, last p = Some c -> ~ isSep c.
Definition ruleWritten (r : rule) : Prop :=
  exists s i, ruleLine s i /\ searchPath (ir_fromPath i) (r_fromPath r) /\ searchPath (ir_toPath i) (r_toPath r) /\
  r_fromExt r = ir_fromExt i /\ r_toExt r = ir_toExt i /\ r_batch r = ir_double i.
Definition rulePlain (r : rule) : Prop :=
  ruleWritten r /\ cleanPath (r_fromPath r) /\ cleanPath (r_toPath r) /\ oneLine (r_fromPath r) /\ oneLine (r_toPath r) /\
  Forall (fun c => oneLine (c_line c)) (r_cmds r).
Definition blockPlain (b : block) : Prop :=
  (exists c s, b_name b = c :: s /\ c <> ch "009") /\ oneLine (b_name b) /\
  Forall (fun d => oneLine d /\ ch "009" ∉ d) (b_deps b) /\ Forall (fun c => oneLine (c_line c)) (b_cmds b).
(** Every target is stored under its name in lower case. *)
Definition keyed (mk : mkfile) : Prop := forall t b, mk_targets mk !! t = Some b -> t = toLower (b_name b).
