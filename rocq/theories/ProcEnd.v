(** The end of a process: jomprocess.cpp:411-444 and commandexecutor.cpp:93-106. *)
From stdpp Require Import prelude.
Local Open Scope Z_scope.

(** winbase.h STILL_ACTIVE: a number that is also an exit code a process can have. *)
Definition STILL_ACTIVE : Z := 259.

(** jomprocess.cpp:411-421 tryToRetrieveExitCode, called again and again by the timer; [answers]: what GetExitCodeProcess
    says at each call, [None] if it fails. Result: the exit code with which onProcessFinished is called, [None] if
    it has not been called after all these calls. *)
Fixpoint retrieve (answers : list (option Z)) : option Z :=
  match answers with
  | [] => None
  | a :: rest => let c := match a with Some c => c | None => STILL_ACTIVE end in
                 if c =? STILL_ACTIVE then retrieve rest else Some c
  end.

(** A DWORD as an int (jomprocess.cpp:437), and an int as an unsigned int (commandexecutor.cpp:106). *)
Definition toInt (w : Z) : Z := if w <? 2 ^ 31 then w else w - 2 ^ 32.
Definition toUnsigned (i : Z) : Z := i mod 2 ^ 32.

(** jomprocess.cpp:437-443: the int and whether it counts as a crash. *)
Definition finishedWith (w : Z) : Z * bool := let m := toInt w in (m, (m =? 62097) || (m <? 0)).
(** commandexecutor.cpp:100-106: whether the command has failed; [max] is m_maxExitCode. *)
Definition failedWith (max : Z) (code : Z) (crashed : bool) : bool :=
  let code := if crashed then 2 else code in max <? toUnsigned code.

(** From the end of the process to the result of the command (commandexecutor.cpp:99-125). *)
Definition commandEnd (max : Z) (answers : list (option Z)) : option bool :=
  match retrieve answers with
  | Some w => let (m, crashed) := finishedWith w in Some (failedWith max m crashed)
  | None => None
  end.
