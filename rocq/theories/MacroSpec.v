(** How a string is made up of text and macro references, and what it stands for. *)
From stdpp Require Import prelude gmap relations.
From Verif Require Import Base Macro.
Local Open Scope N_scope.

Inductive seg :=
| STxt (t : qstr)                    (* stands for itself *)
| SMac (m : qstr)                    (* $(m) or $m *)
| SSub (m before after : qstr)       (* $(m:before=after) *)
| SFile (t : qstr).                  (* file name macro, kept for later *)

Definition dollar : qstr := [36].
Definition opening : qstr := [36; 40].

(** A name in an invocation: not empty, without colon and closing parenthesis, and not a file name macro. *)
Definition invName (m : qstr) : Prop :=
  58 ∉ m /\ 41 ∉ m /\ exists c m', m = c :: m' /\ c ∉ [60; 42; 64; 63].

(** The text between the colon and the end of a substitution: every closing parenthesis in it has a caret
    before it, and the last character is not a caret. *)
Fixpoint quotedOk (q : bool) (s : qstr) : Prop :=
  match s with
  | [] => q = false
  | c :: s' => (c = 41 -> q = true) /\ quotedOk (bool_decide (c = 94)) s'
  end.

(** Carets in the replacement are dropped. If there are carets in front of the equals sign, each of them
    also costs a character at the end of the replacement; that part follows the code. *)
Definition unquote (before after : qstr) : qstr :=
  if decide (94 ∈ before)
  then match parseSubstitution (before ++ [61] ++ after ++ [41]) with Some (_, a, _) => a | None => [] end
  else List.filter (fun c => negb (c =? 94)) after.

(** [one dep s g rest]: the string [s] starts with the piece [g], [rest] follows. *)
Inductive one (dep : bool) : qstr -> seg -> qstr -> Prop :=
| one_char c s : c <> 36 -> one dep (c :: s) (STxt [c]) s
| one_last : one dep [36] (STxt [36]) []
| one_dollar s : (dep = true -> forall s', s <> 64 :: s' /\ s <> 40 :: 64 :: s') ->
    one dep (36 :: 36 :: s) (STxt [36]) s
| one_at s : dep = true -> one dep (36 :: 36 :: 64 :: s) (SFile [64]) s
| one_parat s : dep = true -> one dep (36 :: 36 :: 40 :: 64 :: s) (SFile [40; 64]) s
| one_letter c s : isLetterOrNumber c = true -> one dep (36 :: c :: s) (SMac [c]) s
| one_file c s : c ∈ [60; 42; 64; 63] -> one dep (36 :: c :: s) (SFile [c]) s
| one_mac m s : invName m -> one dep (36 :: 40 :: m ++ 41 :: s) (SMac m) s
| one_sub m before after s : invName m -> 61 ∉ after -> quotedOk false (before ++ 61 :: after) ->
    one dep (36 :: 40 :: m ++ 58 :: before ++ 61 :: after ++ 41 :: s) (SSub m before (unquote before after)) s
| one_filepar c t s : c ∈ [60; 42; 64; 63] -> 41 ∉ t ->
    one dep (36 :: 40 :: c :: t ++ 41 :: s) (SFile (40 :: c :: t ++ [41])) s.

(** [s] starts with the pieces [l]; [rest] has not been looked at. *)
Inductive takes (dep : bool) : qstr -> list seg -> qstr -> Prop :=
| takes_nil s : takes dep s [] s
| takes_cons s g s1 l rest : one dep s g s1 -> takes dep s1 l rest -> takes dep s (g :: l) rest.

(** The whole of [s]. *)
Definition pieces (dep : bool) (s : qstr) (l : list seg) : Prop := takes dep s l [].

(** Replacing text from left to right; replaced text is not looked at again. Replacing the empty text
    inserts before every character and at the end. *)
Inductive replaced (b a : qstr) : qstr -> qstr -> Prop :=
| rp_nil : replaced b a [] []
| rp_here s r : replaced b a s r -> replaced b a (b ++ s) (a ++ r)
| rp_skip c s r : (forall t, c :: s <> b ++ t) -> replaced b a s r -> replaced b a (c :: s) (c :: r).
Definition substituted (b a v w : qstr) : Prop :=
  (b <> [] /\ replaced b a v w) \/ (b = [] /\ w = flat_map (fun c => a ++ [c]) v ++ a).

(** What a string stands for; a finite derivation. *)
Inductive stands (mt : gmap qstr mdata) (dep : bool) : list seg -> qstr -> Prop :=
| st_nil : stands mt dep [] []
| st_txt t l r : stands mt dep l r -> stands mt dep (STxt t :: l) (t ++ r)
| st_file t l r : stands mt dep l r -> stands mt dep (SFile t :: l) (magicEscape :: t ++ r)
| st_mac m ps v l r : pieces dep (macroValue mt m) ps -> stands mt dep ps v -> stands mt dep l r ->
    stands mt dep (SMac m :: l) (v ++ r)
| st_sub m before after ps v w l r : pieces dep (macroValue mt m) ps -> stands mt dep ps v ->
    substituted before after v w -> stands mt dep l r ->
    stands mt dep (SSub m before after :: l) (w ++ r).
Definition expandsTo (mt : gmap qstr mdata) (dep : bool) (s r : qstr) : Prop :=
  exists ps, pieces dep s ps /\ stands mt dep ps r.

(** The macro referred to by a piece. *)
Definition refersTo (g : seg) (m : qstr) : Prop :=
  g = SMac m \/ exists b a, g = SSub m b a.

(** Expanding [s] refers to the value of [m]. The second case: the reference is cut off in its
    substitution part. *)
Definition mentions (dep : bool) (s m : qstr) : Prop :=
  exists l rest, takes dep s l rest /\
    ((exists g, g ∈ l /\ refersTo g m)
     \/ (invName m /\ exists t, rest = 36 :: 40 :: m ++ 58 :: t /\ 41 ∈ t)).
(** The value of macro [a] refers to macro [b]. *)
Definition needs (mt : gmap qstr mdata) (dep : bool) (a b : qstr) : Prop := mentions dep (macroValue mt a) b.

(** A string that cannot be read to its end. *)
Definition malformed (dep : bool) (s : qstr) : Prop :=
  exists l rest, takes dep s l rest /\ rest <> [] /\ forall g s', ~ one dep rest g s'.
(** Something malformed would be met. *)
Definition meetsMalformed (mt : gmap qstr mdata) (dep : bool) (s : qstr) : Prop :=
  malformed dep s \/ exists m n, mentions dep s m /\ rtc (needs mt dep) m n /\ malformed dep (macroValue mt n).
(** A macro is needed while its own value is being expanded. *)
Definition recursive (mt : gmap qstr mdata) (dep : bool) (s : qstr) (n : qstr) : Prop :=
  exists m, mentions dep s m /\ rtc (needs mt dep) m n /\ tc (needs mt dep) n n.

(** ** Histories of definitions *)
Inductive mop :=
| OSet (n v : qstr)               (* n = v in the makefile *)
| OUndef (n : qstr)               (* !UNDEF n *)
| OPre (n v : qstr)               (* predefined macro *)
| OEnv (n v : qstr) (ro : bool)   (* environment variable; ro: /E *)
| OCmd (n v : qstr).              (* n=v on the command line *)
Definition doOp (o : mop) (t : mtable) : mres mtable :=
  match o with
  | OSet n v => setMacroValue n v t
  | OUndef n => MOk (undefineMacro n t)
  | OPre n v => predefineValue n v t
  | OEnv n v ro => defineEnvironment n v ro t
  | OCmd n v => defineCommandLine n v SrcCommandLine t
  end.
(** An error ends the history. *)
Inductive history : mtable -> list mop -> mtable -> Prop :=
| hi_nil t : history t [] t
| hi_cons t o t1 os t2 : doOp o t = MOk t1 -> history t1 os t2 -> history t (o :: os) t2.
(** Operations after the command line has been read, other than undefining [m]. *)
Definition laterThan (m : qstr) (o : mop) : Prop :=
  match o with OUndef n => n <> m | OEnv n _ _ => 36 ∉ n | OCmd _ _ => False | _ => True end.

(** The shapes of a string that cannot be read: a dollar sign before something that is no name; a missing
    closing parenthesis; no name; a substitution without equals sign or closing parenthesis. *)
Inductive unreadable : qstr -> Prop :=
| un_char c s : c <> 40 -> c <> 36 -> isLetterOrNumber c = false -> c ∉ [60; 42; 64; 63] -> unreadable (36 :: c :: s)
| un_open s : 41 ∉ s -> unreadable (36 :: 40 :: s)
| un_empty s : unreadable (36 :: 40 :: 41 :: s)
| un_colon s : 41 ∈ s -> unreadable (36 :: 40 :: 58 :: s)
| un_subst m t : invName m -> 41 ∈ t ->
    (forall before after s, t = before ++ 61 :: after ++ 41 :: s -> 61 ∉ after -> ~ quotedOk false (before ++ 61 :: after)) ->
    unreadable (36 :: 40 :: m ++ 58 :: t).
