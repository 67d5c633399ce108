(** The job server a jom creates, and what its commands are told about it: jobserver.cpp:46-63, main.cpp:196-214. *)
From Coq Require Import Ascii String.
From stdpp Require Import prelude gmap.
From Verif Require Import Base Macro CmdExec Main.
Local Open Scope N_scope.

(** jobserver.cpp:50-54: the key. [pid]: QCoreApplication::applicationPid; [r]: randomId, made from the clock and an address. *)
Definition serverKey (pid r : N) : qstr := s2q "jomsrv-" ++ decimalText pid ++ [45] ++ decimalText r.
(** jobserver.cpp:60-61: the variables for other instances. *)
Definition tellOthers (key : qstr) (jobs : N) (t : mtable) : mtable :=
  setEnv (s2q "_JOMJOBCOUNT_") (decimalText jobs) (setEnv (s2q "_JOMSRVKEY_") key t).
(** main.cpp:197-214: the environment the executors begin with. [key]: that of the server, if one is created. *)
Definition executorsEnvironment (b : building) (key : qstr) : mtable :=
  match bd_server b with Some jobs => tellOthers key jobs (pd_macros (bd_parsed b)) | None => pd_macros (bd_parsed b) end.
