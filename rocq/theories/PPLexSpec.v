(** The rules of ppexpr.l as regular expressions, and what it means to split a text by them. *)
From Coq Require Import Ascii String.
From stdpp Require Import prelude.
From Verif Require Import Base PPExpr PPLex.
Local Open Scope N_scope.

(** Regular expressions over bytes. [RSet neg l]: one byte that is in [l] (not in [l] if [neg]). *)
Inductive rx := REmpty | REps | RSet (neg : bool) (l : list N) | RSeq (a b : rx) | RAlt (a b : rx) | RStar (a : rx).

Inductive matches : rx -> list N -> Prop :=
| m_eps : matches REps []
| m_in l c : c ∈ l -> matches (RSet false l) [c]
| m_out l c : c ∉ l -> matches (RSet true l) [c]
| m_seq a b u v : matches a u -> matches b v -> matches (RSeq a b) (u ++ v)
| m_left a b u : matches a u -> matches (RAlt a b) u
| m_right a b u : matches b u -> matches (RAlt a b) u
| m_star0 a : matches (RStar a) []
| m_star a u v : matches a u -> matches (RStar a) v -> matches (RStar a) (u ++ v).

(** The notation of flex: characters, strings, strings without regard to case, one or more. *)
Definition rchar (c : N) : rx := RSet false [c].
Fixpoint rstr (s : qstr) : rx := match s with [] => REps | [c] => rchar c | c :: r => RSeq (rchar c) (rstr r) end.
Fixpoint rstrCI (s : qstr) : rx :=
  match s with [] => REps | [c] => RSet false [c; c + 32] | c :: r => RSeq (RSet false [c; c + 32]) (rstrCI r) end.
Definition rplus (r : rx) : rx := RSeq r (RStar r).
Definition rdot : rx := RSet true [10].
(** [[:blank:]] without the outer brackets is the set of the characters : b l a n k. *)
Definition rblank : rx := RSet false (s2q ":blank").
Definition digits : list N := s2q "0123456789".
Definition dflt : Z * rx := (41%Z, RSet true []).

(** ppexpr.l:57-170 in the order of the file, with the numbers flex gives to them. Rule 41 is the rule flex adds. *)
Definition rules (c : startCond) : list (Z * rx) :=
  match c with
  | Initial =>
    [(1%Z, rplus (RSet false [32; 9])); (2%Z, rplus (RSet false digits));
     (3%Z, RAlt (rstr [13; 10]) (rstr [10]));
     (4%Z, rstr (s2q "&&")); (5%Z, rstr (s2q "||")); (6%Z, rstr (s2q "&")); (7%Z, rstr (s2q "|"));
     (8%Z, rstr (s2q "!=")); (9%Z, rstr (s2q "==")); (10%Z, rstr (s2q "<")); (11%Z, rstr (s2q ">"));
     (12%Z, rstr (s2q "<=")); (13%Z, rstr (s2q ">=")); (14%Z, rstr (s2q "<<")); (15%Z, rstr (s2q ">>"));
     (16%Z, rstr (s2q "+")); (17%Z, rstr (s2q "-")); (18%Z, rstr (s2q "*")); (19%Z, rstr (s2q "/"));
     (20%Z, rstr (s2q "%")); (21%Z, rstr (s2q "~")); (22%Z, rstr (s2q "!")); (23%Z, rstr (s2q "("));
     (24%Z, rstr (s2q ")")); (25%Z, rchar 34); (26%Z, rstr (s2q "["));
     (27%Z, rstrCI (s2q "DEFINED")); (28%Z, rstrCI (s2q "EXIST"));
     (33%Z, RSeq (rstr (s2q "EXIST")) (RSeq (RStar rblank) (RSeq (rchar 40) (RSeq (RStar rdot) (rchar 41)))));
     dflt]
  | InDefined =>
    [(29%Z, rplus rblank); (30%Z, RSeq (rchar 40) (RSeq (rplus (RSet true [41])) (rchar 41))); dflt]
  | InExist => [(31%Z, rplus rblank); (32%Z, RSeq (rchar 40) (RSeq (rplus rdot) (rchar 41))); dflt]
  | InString => [(34%Z, rplus (RSet true [10; 34])); (35%Z, rstr [34; 34]); (36%Z, rchar 34); dflt]
  | InShell =>
    [(37%Z, rplus (RSet true [10; 91; 93; 94])); (38%Z, rstr (s2q "^[")); (39%Z, rstr (s2q "^]"));
     (40%Z, rchar 93); dflt]
  end.

(** [first l w k]: [k] is the first rule of [l] that matches [w]. *)
Inductive firstRule (w : list N) : list (Z * rx) -> Z -> Prop :=
| fr_here k r l : matches r w -> firstRule w ((k, r) :: l) k
| fr_later k r l k' : ~ matches r w -> firstRule w l k' -> firstRule w ((k, r) :: l) k'.

(** The next piece of a text: the longest non-empty prefix that a rule matches, with the first rule that
    matches it. *)
Definition nextPiece (c : startCond) (text : list N) (k : Z) (w rest : list N) : Prop :=
  text = w ++ rest /\ w <> [] /\ firstRule w (rules c) k
  /\ forall w' rest', text = w' ++ rest' -> (length w < length w')%nat -> forall k' r, (k', r) ∈ rules c -> ~ matches r w'.

(** The pieces of a text under the rules, each with the condition in which it was read, and the tokens. *)
Inductive splits (env : lexenv) : lexst -> list N -> list token -> lexst -> list qstr -> Prop :=
| sp_end st : splits env st [] [] st []
| sp_piece st text k w rest ts st' cmds :
    nextPiece (lx_cond st) text k w rest ->
    splits env (ef_state (action env k w st)) rest ts st' cmds ->
    splits env st text (option_list (ef_token (action env k w st)) ++ ts) st'
           (option_list (ef_command (action env k w st)) ++ cmds).

(** Bytes of a C string. *)
Definition byte (c : N) : Prop := 0 < c < 256.

(** How tokens are written: numbers in decimal digits, strings in quotes with the quotes inside doubled, operators
    as they are, macro tests in any case, commands in brackets. [cmds]: the commands run by reading it. *)
Definition quoteText (s : qstr) : qstr := flat_map (fun c => if c =? 34 then [34; 34] else [c]) s.
Definition shellText (s : qstr) : qstr := flat_map (fun c => if (c =? 91) || (c =? 93) then [94; c] else [c]) s.
Definition operators : list (qstr * token) :=
  [(s2q "&&", BOOL_AND); (s2q "||", BOOL_OR); (s2q "&", BIT_AND); (s2q "|", BIT_OR); (s2q "!=", NOT_EQUAL);
   (s2q "==", EQUAL); (s2q "<", LESS_THAN); (s2q ">", GREATER_THAN); (s2q "<=", EQUAL_OR_LESS_THAN);
   (s2q ">=", EQUAL_OR_GREATER_THAN); (s2q "<<", SHIFT_LEFT); (s2q ">>", SHIFT_RIGHT); (s2q "+", PLUS);
   (s2q "-", MINUS); (s2q "*", MULT); (s2q "/", DIV); (s2q "%", MOD); (s2q "~", BIT_NOT); (s2q "!", BOOL_NOT);
   (s2q "(", LEFT_PAREN); (s2q ")", RIGHT_PAREN)].
(** The value of decimal digits. *)
Inductive decimal : qstr -> Z -> Prop :=
| dec_digit c : c ∈ digits -> decimal [c] (Z.of_N c - 48)
| dec_more w c z : decimal w z -> c ∈ digits -> decimal (w ++ [c]) (10 * z + (Z.of_N c - 48)).
Inductive spelled (env : lexenv) : qstr -> token -> list qstr -> Prop :=
| sl_number w z : decimal w z -> (z <= 2147483647)%Z -> spelled env w (NUMBER z) []
| sl_operator w t : (w, t) ∈ operators -> spelled env w t []
| sl_string s : 10 ∉ s -> spelled env (34 :: quoteText s ++ [34]) (STRING s) []
| sl_defined w n : Forall2 (fun x y => y = x \/ y = x + 32) (s2q "DEFINED") w ->
    n <> [] -> Forall (fun c => ~ (c = 32 \/ 9 <= c <= 13) /\ c <> 34 /\ c <> 41) n ->
    spelled env (w ++ 40 :: n ++ [41]) (NUMBER (if le_defined env n then 1 else 0)) []
| sl_shell s : 10 ∉ s -> 94 ∉ s -> spelled env (91 :: shellText s ++ [93]) (NUMBER (le_system env s)) [s].
(** A text: written tokens with blanks between them. *)
Definition blank (c : N) : Prop := c = 32 \/ c = 9.
Inductive written (env : lexenv) : list N -> list token -> list qstr -> Prop :=
| wr_end b : Forall blank b -> written env b [] []
| wr_token b w t cs rest ts cmds : Forall blank b -> spelled env w t cs ->
    match rest with c :: _ => blank c | [] => True end -> written env rest ts cmds ->
    written env (b ++ w ++ rest) (t :: ts) (cs ++ cmds).
