(** Command texts with file name macros and what they stand for. *)
From Coq Require Import Ascii String.
From stdpp Require Import prelude.
From Verif Require Import Base Data MacroSpec.
Local Open Scope N_scope.

(** The macros and their names. *)
Inductive fmac := MTarget | MBase | MAll | MNewer.
Definition nameOf (m : fmac) : qstr :=
  match m with MTarget => s2q "@" | MBase => s2q "*" | MAll => s2q "**" | MNewer => s2q "?" end.
Inductive fmod := MDir | MFile | MStem | MNoExt.
Definition letterOf (d : fmod) : qstr :=
  match d with MDir => s2q "D" | MFile => s2q "F" | MStem => s2q "B" | MNoExt => s2q "R" end.

(** A piece of a command: text, or an invocation: the short form, or the one in parentheses with an
    optional letter and an optional substitution. *)
Inductive piece :=
| PText (t : qstr)
| PShort (m : fmac)
| PLong (m : fmac) (d : option fmod) (sub : option (qstr * qstr)).

(** How pieces are written; the dollar sign is the magic character that the macro table leaves. *)
Definition writePiece (p : piece) : qstr :=
  match p with
  | PText t => t
  | PShort m => magicEscape :: nameOf m
  | PLong m d sub =>
    magicEscape :: s2q "(" ++ nameOf m ++ match d with Some d => letterOf d | None => [] end
      ++ match sub with Some (a, b) => s2q ":" ++ a ++ s2q "=" ++ b | None => [] end ++ s2q ")"
  end.
Definition write (ps : list piece) : qstr := concat (map writePiece ps).

(** The parts of a file name. *)
Inductive dirPart : qstr -> qstr -> Prop :=
| dp_some d f : ch "\" ∉ f -> dirPart (d ++ ch "\" :: f) d
| dp_none v : ch "\" ∉ v -> dirPart v (s2q ".").
Inductive noExt : qstr -> qstr -> Prop :=
| ne_some r e : ch "." ∉ e -> noExt (r ++ ch "." :: e) r
| ne_none v : ch "." ∉ v -> noExt v v.
Definition isSep (c : qchar) : Prop := c = ch "/" \/ c = ch "\".
Inductive filePart : qstr -> qstr -> Prop :=
| fp_sep d c f : isSep c -> Forall (fun c => ~ isSep c) f -> filePart (d ++ c :: f) f
| fp_drive c f : Forall (fun c => ~ isSep c) (c :: ch ":" :: f) -> filePart (c :: ch ":" :: f) f
| fp_none v : Forall (fun c => ~ isSep c) v -> (forall c f, v <> c :: ch ":" :: f) -> filePart v v.
Inductive stem : qstr -> qstr -> Prop :=
| sm_dot v b e : filePart v (b ++ ch "." :: e) -> ch "." ∉ b -> stem v b
| sm_none v b : filePart v b -> ch "." ∉ b -> stem v b.
Definition modified (d : option fmod) (v w : qstr) : Prop :=
  match d with
  | None => w = v
  | Some MDir => dirPart v w
  | Some MFile => filePart v w
  | Some MStem => stem v w
  | Some MNoExt => noExt v w
  end.
Definition substitutes (sub : option (qstr * qstr)) (v w : qstr) : Prop :=
  match sub with None => w = v | Some (a, b) => substituted a b v w end.

(** A name on a command line: quoted if there are blanks in it. *)
Inductive onLine : qstr -> qstr -> Prop :=
| ol_blank v : (ch " " ∈ v \/ 9 ∈ v) -> onLine v ([34] ++ v ++ [34])
| ol_plain v : ch " " ∉ v -> 9 ∉ v -> onLine v v.
(** Names on a command line: separated by one blank. *)
Inductive listed : list qstr -> qstr -> Prop :=
| li_nil : listed [] []
| li_one v t : onLine v t -> listed [v] t
| li_more v t v' l r : onLine v t -> listed (v' :: l) r -> listed (v :: v' :: l) (t ++ ch " " :: r).

Section values.
(** The target, the dependents that count, and the times of files. *)
Context (target : qstr) (deps : list qstr) (tm : qstr -> N).
Inductive newer : list qstr -> list qstr -> Prop :=
| nw_nil : newer [] []
| nw_yes d l r : tm target <= tm d -> newer l r -> newer (d :: l) (d :: r)
| nw_no d l r : tm d < tm target -> newer l r -> newer (d :: l) r.
(** The file names that a macro stands for. *)
Inductive names : fmac -> list qstr -> Prop :=
| nm_target : names MTarget [target]
| nm_base b : noExt target b -> names MBase [b]
| nm_all : names MAll deps
| nm_newer l : newer deps l -> names MNewer l.

(** What a piece stands for. *)
Inductive means : piece -> qstr -> Prop :=
| me_text t : means (PText t) t
| me_short m l r : names m l -> listed l r -> means (PShort m) r
| me_long m d sub l l1 l2 r : names m l -> Forall2 (modified d) l l1 -> Forall2 (substitutes sub) l1 l2 -> listed l2 r ->
    means (PLong m d sub) r.

(** The next piece is an invocation. *)
Definition isMac (ps : list piece) : bool := match ps with PText _ :: _ => false | [] => false | _ => true end.
(** Substitutions that are written without escapes. *)
Definition substClean (sub : option (qstr * qstr)) : Prop :=
  match sub with Some (a, b) => ch "=" ∉ a ++ b /\ ch ")" ∉ a ++ b /\ ch "^" ∉ a ++ b | None => True end.
(** [fine ps rs]: the pieces [ps] stand for the texts [rs], and
    - text and file names have no magic characters, a caret does not stand before an invocation;
    - an invocation that stands for nothing is not followed at once by another one;
    - the short form for the name without extension is not followed by an asterisk;
    - with an empty list of names there is neither letter nor substitution;
    - the form in parentheses without letter and substitution is the last piece. *)
Inductive fine : list piece -> list qstr -> Prop :=
| fi_nil : fine [] []
| fi_text t ps rs : t <> [] -> magicEscape ∉ t -> (isMac ps = true -> last t <> Some (ch "^")) -> fine ps rs ->
    fine (PText t :: ps) (t :: rs)
| fi_short m ps r rs : means (PShort m) r -> magicEscape ∉ r -> (isMac ps = true -> r <> [] /\ last r <> Some (ch "^")) ->
    (m = MBase -> forall t ps', ps = PText t :: ps' -> head t <> Some (ch "*")) -> fine ps rs -> fine (PShort m :: ps) (r :: rs)
| fi_long m d sub ps r rs : means (PLong m d sub) r -> magicEscape ∉ r ->
    (isMac ps = true -> r <> [] /\ last r <> Some (ch "^")) -> substClean sub ->
    (names m [] -> d = None /\ sub = None) -> (d = None -> sub = None -> ~ names m [] -> ps = []) -> fine ps rs ->
    fine (PLong m d sub :: ps) (r :: rs).
End values.

(** In dependents only the macros for the target are allowed. *)
Definition ofTarget (m : fmac) : Prop := m = MTarget \/ m = MBase.
Definition targetOnly (p : piece) : Prop := match p with PText _ => True | PShort m => ofTarget m | PLong m _ _ => ofTarget m end.
