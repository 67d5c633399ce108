(** Command modifiers: makefile.cpp:79-112 Command::evaluateModifiers. *)
From stdpp Require Import prelude.
From Verif Require Import Base Data.
Local Open Scope N_scope.

(** The greatest unsigned int, makefile.cpp:100, parser.cpp:499. *)
Definition uintMax : N := 4294967295.

(** Number of leading characters with a property (the index loops at makefile.cpp:88-90, 94-96). *)
Fixpoint countWhile (f : qchar -> bool) (s : qstr) : nat :=
  match s with
  | c :: s' => if f c then S (countWhile f s') else O
  | [] => O
  end.

(** QString::toUInt for a string of decimal digits: the value, or 0 if it does not fit into 32 bits
    (Qt signals the overflow only through its ok argument, which is not used at makefile.cpp:98). *)
Definition decVal (s : qstr) : N := fold_left (fun a c => 10 * a + (c - 48)) s 0.
Definition toUInt (s : qstr) : N := let v := decVal s in if v <=? uintMax then v else 0.

(** The state changed by the loop: remaining command line, m_maxExitCode, m_silent,
    m_singleExecution (makefile.cpp:79-112). *)
Record mods := Mods { md_line : qstr; md_max : N; md_silent : bool; md_single : bool }.

(** makefile.cpp:81-111, the loop; [None] only if the fuel does not suffice. *)
Fixpoint evalModsLoop (fuel : nat) (m : mods) : option mods :=
  match md_line m with
  | [] => Some m
  | c :: rest =>
    match fuel with
    | O => None
    | S fuel' =>
      if c =? 45 (* - *) then
        let l1 := skipn (countWhile (fun x => x =? 45) (c :: rest)) (c :: rest) in
        let i := countWhile isDigit l1 in
        if (0 <? i)%nat
        then evalModsLoop fuel' (Mods (skipn i l1) (toUInt (firstn i l1)) (md_silent m) (md_single m))
        else evalModsLoop fuel' (Mods l1 uintMax (md_silent m) (md_single m))
      else if c =? 64 (* @ *) then
        evalModsLoop fuel' (Mods rest (md_max m) true (md_single m))
      else if c =? 33 (* ! *) then
        evalModsLoop fuel' (Mods rest (md_max m) (md_silent m) true)
      else Some m
    end
  end.

(** makefile.cpp:79-112 on a Command object. The fuel always suffices (CmdProofs.v), so the
    [None] branch is never taken. *)
Definition evaluateModifiers (c : command) : command :=
  match evalModsLoop (S (length (c_line c))) (Mods (c_line c) (c_max c) (c_silent c) (c_single c)) with
  | Some m => Command (md_line m) (c_inline c) (md_max m) (md_silent m) (md_single m)
  | None => c
  end.
