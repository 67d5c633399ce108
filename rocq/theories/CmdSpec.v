(** Specification of command modifiers (property C13), independent of the scanning loop. *)
From Coq Require Import Ascii String.
From stdpp Require Import prelude.
From Verif Require Import Base Data.
Local Open Scope N_scope.

(** A modifier as a user writes it: "@", "!", or "-" followed by an optional decimal number. *)
Inductive modifier := MSilent | MEach | MTolerate (digits : qstr).

Definition modText (m : modifier) : qstr :=
  match m with
  | MSilent => s2q "@"
  | MEach => s2q "!"
  | MTolerate ds => s2q "-" ++ ds
  end.
Definition modsText (ms : list modifier) : qstr := concat (map modText ms).

Definition isDecDigit (c : qchar) : Prop := 48 <= c <= 57.
Definition startsWithDigit (s : qstr) : Prop := exists c s', s = c :: s' /\ isDecDigit c.
Definition startsWithModifier (s : qstr) : Prop :=
  exists c s', s = c :: s' /\ (c = ch "@" \/ c = ch "!" \/ c = ch "-").

(** [line] is written as the modifiers [ms] followed by the command [rest]: a number is taken as long
    as possible, and the command does not start with a modifier. *)
Fixpoint writtenAs (ms : list modifier) (rest : qstr) : Prop :=
  match ms with
  | [] => not (startsWithModifier rest)
  | MTolerate ds :: ms' =>
    Forall isDecDigit ds /\ not (startsWithDigit (modsText ms' ++ rest)) /\ writtenAs ms' rest
  | _ :: ms' => writtenAs ms' rest
  end.

(** The number written by a digit string. *)
Fixpoint number (acc : N) (ds : qstr) : N :=
  match ds with
  | [] => acc
  | d :: ds' => number (acc * 10 + (d - 48)) ds'
  end.

(** The largest exit code there is: "-" without a number tolerates everything. *)
Definition anyExitCode : N := 2 ^ 32 - 1.

(** The tolerated exit code: that of the last "-". *)
Fixpoint tolerated (ms : list modifier) (dflt : N) : N :=
  match ms with
  | [] => dflt
  | MTolerate [] :: ms' => tolerated ms' anyExitCode
  | MTolerate ds :: ms' => tolerated ms' (number 0 ds)
  | _ :: ms' => tolerated ms' dflt
  end.

(** All numbers fit into 32 bits. *)
Definition numbersFit (ms : list modifier) : Prop :=
  Forall (fun m => match m with MTolerate ds => number 0 ds <= anyExitCode | _ => True end) ms.

Definition has (m : modifier) (ms : list modifier) : Prop := m ∈ ms.
