(** The cache of file times: fastfileinfo.cpp:48-97, and builds that look at files through it. *)
From stdpp Require Import prelude gmap.
From Verif Require Import Base Data Infer UpToDate Graph Exec.
Local Open Scope N_scope.

(** What GetFileAttributesEx says about the absolute path of a name: the time of the last change, [None] if it
    fails. Simplification: of the attributes only this time is used (fastfileinfo.cpp:79-92). *)
Definition disk := qstr -> option N.
(** fastfileinfo.cpp:55 fadHash. *)
Notation cache := (gmap qstr N).

(** fastfileinfo.cpp:57-77 the constructor FastFileInfo, with 79-92 exists and lastModified: only the data of files
    that exist is remembered, under the name as it is spelled. *)
Definition fileInfo (d : disk) (name : qstr) (c : cache) : option N * cache :=
  match c !! name with
  | Some t => (Some t, c)
  | None => match d name with Some t => (Some t, <[name := t]> c) | None => (None, c) end
  end.
(** fastfileinfo.cpp:94-97 clearCacheForFile. *)
Definition clearCacheForFile (name : qstr) (c : cache) : cache := delete name c.

(** Several names one after the other (fastfileinfo.cpp:57-77). *)
Definition consults (d : disk) (names : list qstr) (c : cache) : cache :=
  fold_left (fun c n => snd (fileInfo d n c)) names c.

Section Cached.
Context (xp : qstr -> option qstr) (prep : mkfile -> tid -> nat -> option (list command))
        (kind : command -> ckind) (w : world) (o : bopts).
(** [own t name]: the commands of target t may change the file [name]. *)
Context (own : tid -> qstr -> Prop).

(** The commands of a target are under way after the history [log] (targetexecutor.cpp:156-173, 224-267). *)
Definition underWay (log : list logev) (t : tid) : Prop :=
  exists pre cmds post, log = pre ++ LStart t cmds :: post /\ forall f, LEnd t f ∉ post.
(** Files that may be changing (targetexecutor.cpp:156-173, 224-267). *)
Definition beingMade (log : list logev) (name : qstr) : Prop := exists t, underWay log t /\ own t name.
(** Files that may have been changed during the events [l] (targetexecutor.cpp:156-173). *)
Definition madeBy (l : list logev) (name : qstr) : Prop := exists t cmds, LStart t cmds ∈ l /\ own t name.

(** [looks P c d n c' d' m]: the observations n to m-1 of the world are made through the cache; meanwhile files
    for which [P] holds may change. All calls of FastFileInfo: dependencygraph.cpp:105, 131, 163, 197 at the
    observations; makefile.cpp:350, 352 (expansion of file name macros) need not be at one. *)
Inductive looks (P : qstr -> Prop) : cache -> disk -> nat -> cache -> disk -> nat -> Prop :=
| lk_end c d n : looks P c d n c d n
| lk_change c d d1 n c' d' m : (forall name, d1 name <> d name -> P name) -> looks P c d1 n c' d' m -> looks P c d n c' d' m
| lk_consult c d names n c' d' m : looks P (consults d names c) d n c' d' m -> looks P c d n c' d' m
| lk_observe c d names n c' d' m : (forall name, sn_stat (w n) name = fst (fileInfo d name c)) ->
    looks P (consults d names c) d (S n) c' d' m -> looks P c d n c' d' m.

(** targetexecutor.cpp:236, once for each target that is finished. *)
Definition clearFinished (mk : mkfile) (l : list logev) (c : cache) : cache :=
  fold_left (fun c e => match e with
                        | LEnd t _ => match mk_targets mk !! t with Some b => clearCacheForFile (b_name b) c | None => c end
                        | _ => c
                        end) l c.

(** One step up to the last look at a file in it; [l]: what happens in the step (targetexecutor.cpp:119-222). *)
Definition looksAndStep (s : est) (c : cache) (d : disk) (e : event) (s1 : est) (l : list logev) (c1 : cache) (d1 : disk) : Prop :=
  step xp prep kind w o s e = Some s1 /\ e_log s1 = e_log s ++ l
  /\ looks (beingMade (e_log s)) c d (mk_tick (e_mk s)) c1 d1 (mk_tick (e_mk s1)).

(** Builds. In a step first files are looked at (by findNextTarget or DependencyGraph::build), then commands are
    started or end; the files of a target that ends have been changed before the cache is cleared (targetexecutor.cpp:119-267). *)
Inductive cachedRun : est -> cache -> disk -> list event -> est -> cache -> disk -> Prop :=
| cr_end s c d : cachedRun s c d [] s c d
| cr_step s c d e s1 l c1 d1 d2 es s' c' d' :
    looksAndStep s c d e s1 l c1 d1 ->
    (forall name, d2 name <> d1 name -> beingMade (e_log s) name \/ madeBy l name) ->
    cachedRun s1 (clearFinished (e_mk s1) l c1) d2 es s' c' d' ->
    cachedRun s c d (e :: es) s' c' d'.
(** targetexecutor.cpp:70-117. *)
Definition cachedBuild (mk : mkfile) (names : list qstr) (es : list event) (s : est) (c : cache) (d : disk) : Prop :=
  exists s0 d0 c1 d1, apply w o mk names = Ok s0
    /\ looks (fun _ => False) ∅ d0 (mk_tick mk) c1 d1 (mk_tick (e_mk s0)) /\ cachedRun s0 c1 d1 es s c d.
End Cached.

(** The commands of a target change no file but the one with the target's name (an assumption on commands, see targetexecutor.cpp:224-267). *)
Definition ownsOk (own : tid -> qstr -> Prop) (mk : mkfile) : Prop :=
  forall t name, own t name -> exists b, mk_targets mk !! t = Some b /\ b_name b = name.
(** Every target is found under its own name (makefile.h:149-160). *)
Definition keyed (mk : mkfile) : Prop := forall t b, mk_targets mk !! t = Some b -> mk_find mk (b_name b) = Some t.
