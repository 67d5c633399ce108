(** The data structures of makefile.h. *)
From stdpp Require Import prelude gmap.
From Verif Require Import Base.
Local Open Scope N_scope.

(** makefile.h:39-48 InlineFile. *)
Record inlineFile := InlineFile {
  if_keep : bool;
  if_unicode : bool;
  if_name : qstr;
  if_content : qstr;
}.

(** makefile.h:50-63 Command; [c_max] is m_maxExitCode (an unsigned int). *)
Record command := Command {
  c_line : qstr;
  c_inline : list inlineFile;
  c_max : N;
  c_silent : bool;
  c_single : bool;
}.

(** makefile.h:124-139 InferenceRule.  [r_id] stands for the object's address; [r_prio] is
    m_priority (initially -1: not applicable). *)
Record rule := Rule {
  r_id : nat;
  r_batch : bool;
  r_fromPath : qstr;
  r_fromExt : qstr;
  r_toPath : qstr;
  r_toExt : qstr;
  r_prio : Z;
  r_cmds : list command;
}.

(** makefile.h:110 AddCommandsState. *)
Inductive acs := ACSUnknown | ACSEnabled | ACSDisabled.

(** makefile.h:79-122 DescriptionBlock (the flags of the cycle checker live in Front.v).
    [b_time] is m_timeStamp with 0 for an invalid time, as in filetime.cpp:34-52. *)
Record block := Block {
  b_name : qstr;
  b_deps : list qstr;
  b_cmds : list command;
  b_rules : list rule;
  b_time : N;
  b_exists : bool;
  b_acs : acs;
}.

(** The key under which a target is stored, which also stands for the DescriptionBlock pointer:
    makefile.h:149-153 Makefile::append stores one block per lower-cased name. *)
Definition tid := qstr.
Definition keyOf (name : qstr) : tid := toLower name.

(** makefile.h:141-229 Makefile: the target table, the first target and the directory. *)
Record mkfile := Mkfile {
  mk_targets : gmap tid block;
  mk_first : option tid;
  mk_dir : qstr;
  mk_tick : nat;   (* model only: number of file system observations made so far *)
}.

(** makefile.h:160-174 Makefile::target: exact lower-case key first, then with slashes turned
    into backslashes. *)
Definition mk_find (mk : mkfile) (name : qstr) : option tid :=
  let low := toLower name in
  match mk_targets mk !! low with
  | Some _ => Some low
  | None =>
    let sys := replaceChar 47 92 low in
    match mk_targets mk !! sys with
    | Some _ => Some sys
    | None => None
    end
  end.

(** What the outside world shows at one moment: file times (FastFileInfo, fastfileinfo.cpp:57-97;
    [None]: no such file), QFile::exists, the clock (FileTime::currentTime, filetime.cpp:54-62).
    Everything the program learns about files goes through such a snapshot; successive
    observations use successive elements of an arbitrary stream of snapshots, so nothing is assumed
    about how files change between observations or about the cache in FastFileInfo. *)
Record snap := Snap {
  sn_stat : qstr -> option N;
  sn_exists : qstr -> bool;
  sn_now : N;
}.
Definition world := nat -> snap.

(** Options used by the build, options.h. *)
Record bopts := Bopts {
  o_all : bool;        (* buildAllTargets, /A *)
  o_keep : bool;       (* buildUnrelatedTargetsOnError, /K *)
  o_batch : bool;      (* batchModeEnabled, not /Y *)
  o_jobs : nat;        (* maxNumberOfJobs *)
  o_dump : bool;       (* dumpDependencyGraph *)
}.
