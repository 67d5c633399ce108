(** Lemmas about the string functions of Base.v. *)
From stdpp Require Import prelude.
From Verif Require Import Base.
Local Open Scope N_scope.

Lemma qeqb_spec a b : qeqb a b = true <-> a = b.
Proof.
  revert b. induction a as [|x a IH]; intros [|y b]; cbn; try done.
  rewrite andb_true_iff, N.eqb_eq, IH. split; [by intros [-> ->]|by intros [= -> ->]].
Qed.
Lemma qeqb_refl a : qeqb a a = true.
Proof. by apply qeqb_spec. Qed.
Lemma qeqb_neq a b : qeqb a b = false <-> a <> b.
Proof. rewrite <- qeqb_spec. by destruct (qeqb a b). Qed.
