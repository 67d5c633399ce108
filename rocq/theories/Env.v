(** The process environment: processenvironment.h:35-69 and jomprocess.cpp:211-281. *)
From Coq Require Import Ascii String.
From stdpp Require Import prelude.
From Verif Require Import Base.
Local Open Scope N_scope.

(** The order of code units that QString::compare uses, on folded strings (processenvironment.h:64-68). *)
Fixpoint lexLt (a b : qstr) : bool :=
  match a, b with
  | [], [] => false
  | [], _ :: _ => true
  | _ :: _, [] => false
  | x :: a', y :: b' => if x <? y then true else if y <? x then false else lexLt a' b'
  end.

(** processenvironment.h:64-67 operator < with 54-57 compare (Qt::CaseInsensitive). *)
Definition keyLt (a b : qstr) : bool := lexLt (foldCase a) (foldCase b).

(** processenvironment.h:69: a QMap, here the list of its entries in the order of the keys. *)
Definition env := list (qstr * qstr).

(** QMap::insert: an entry with an equal key keeps its key and gets the new value (commandexecutor.cpp:200). *)
Fixpoint envInsert (k v : qstr) (m : env) : env :=
  match m with
  | [] => [(k, v)]
  | (k', v') :: m' =>
    if keyLt k k' then (k, v) :: m
    else if keyLt k' k then (k', v') :: envInsert k v m'
    else (k', v) :: m'
  end.

(** QMap::find (jomprocess.cpp:210-275). *)
Fixpoint envFind (k : qstr) (m : env) : option qstr :=
  match m with
  | [] => None
  | (k', v') :: m' => if keyLt k k' || keyLt k' k then envFind k m' else Some v'
  end.
(** QMap::contains and QMap::value (jomprocess.cpp:210-275). *)
Definition envContains (k : qstr) (m : env) : bool := match envFind k m with Some _ => true | None => false end.
(** jomprocess.cpp:210-275. *)
Definition envValue (k : qstr) (m : env) : qstr := match envFind k m with Some v => v | None => [] end.

(** jom's own environment as far as createEnvBlock looks at it: PATH and SystemRoot (empty: not set) (jomprocess.cpp:210-275). *)
Record penv := Penv { p_path : qstr; p_root : qstr }.

(** jomprocess.cpp:215-237: the variables that are added to the copy. *)
Definition envCopy (p : penv) (e : env) : env :=
  let copy := if envContains (s2q "Path") e then e
              else match p_path p with [] => e | path => envInsert (s2q "Path") path e end in
  if envContains (s2q "SystemRoot") copy then copy
  else match p_root p with [] => copy | root => envInsert (s2q "SystemRoot") root copy end.

(** jomprocess.cpp:248-269: one entry, empty ones are ignored. *)
Definition envEntry (kv : qstr * qstr) : qstr :=
  match fst kv ++ snd kv with
  | [] => []
  | _ => fst kv ++ [ch "="] ++ snd kv ++ [0]
  end.

(** jomprocess.cpp:210-275 createEnvBlock: the block in code units, empty for an empty environment
    (then CreateProcess hands on jom's own one); four zero bytes are two zero code units. *)
Definition createEnvBlock (p : penv) (e : env) : qstr :=
  match e with
  | [] => []
  | _ => concat (map envEntry (envCopy p e)) ++ [0; 0]
  end.
(** jomprocess.cpp:217-224: jom's own PATH follows the variable. *)
Definition pathAfter (p : penv) (e : env) : penv :=
  match e with
  | [] => p
  | _ => if envContains (s2q "Path") e then Penv (envValue (s2q "Path") e) (p_root p) else p
  end.
