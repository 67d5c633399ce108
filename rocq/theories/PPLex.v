(** The lexer of preprocessor expressions: the tables of ppexpr-lex.inc, number by number, the scanner that runs
    on them and the actions of ppexpr.l. *)
From stdpp Require Import prelude.
From Verif Require Import Base PPExpr.
Local Open Scope Z_scope.

(** ppexpr-lex.inc:361-372. *)
Definition yy_accept : list Z := [
  0; 0; 0; 0; 0; 0; 0; 0; 0; 0; 0; 42; 41; 1; 3; 41; 22; 25; 20; 6; 23; 24; 18; 16;
  17; 19; 2; 10; 41; 11; 41; 41; 26; 41; 7; 21; 34; 36; 41; 29; 41; 31; 37; 40; 41; 1; 3; 8;
  4; 2; 14; 12; 9; 13; 15; 0; 0; 0; 5; 34; 35; 0; 29; 0; 31; 37; 38; 39; 0; 0; 0; 30;
  32; 0; 0; 0; 0; 28; 28; 0; 0; 0; 27; 0; 33; 0].
(** ppexpr-lex.inc:374-404. *)
Definition yy_ec : list Z := [
  0; 1; 1; 1; 1; 1; 1; 1; 1; 2; 3; 1; 1; 4; 1; 1; 1; 1; 1; 1; 1; 1; 1; 1;
  1; 1; 1; 1; 1; 1; 1; 1; 2; 5; 6; 1; 1; 7; 8; 1; 9; 10; 11; 12; 1; 13; 1; 14;
  15; 15; 15; 15; 15; 15; 15; 15; 15; 15; 16; 1; 17; 18; 19; 1; 1; 1; 1; 1; 20; 21; 22; 1;
  1; 23; 1; 1; 1; 1; 24; 1; 1; 1; 1; 25; 26; 1; 1; 1; 27; 1; 1; 28; 1; 29; 30; 1;
  1; 16; 16; 1; 31; 32; 33; 1; 1; 34; 1; 16; 16; 1; 35; 1; 1; 1; 1; 36; 37; 1; 1; 1;
  38; 1; 1; 1; 39; 1; 40; 1; 1; 1; 1; 1; 1; 1; 1; 1; 1; 1; 1; 1; 1; 1; 1; 1;
  1; 1; 1; 1; 1; 1; 1; 1; 1; 1; 1; 1; 1; 1; 1; 1; 1; 1; 1; 1; 1; 1; 1; 1;
  1; 1; 1; 1; 1; 1; 1; 1; 1; 1; 1; 1; 1; 1; 1; 1; 1; 1; 1; 1; 1; 1; 1; 1;
  1; 1; 1; 1; 1; 1; 1; 1; 1; 1; 1; 1; 1; 1; 1; 1; 1; 1; 1; 1; 1; 1; 1; 1;
  1; 1; 1; 1; 1; 1; 1; 1; 1; 1; 1; 1; 1; 1; 1; 1; 1; 1; 1; 1; 1; 1; 1; 1;
  1; 1; 1; 1; 1; 1; 1; 1; 1; 1; 1; 1; 1; 1; 1; 1].
(** ppexpr-lex.inc:406-412. *)
Definition yy_meta : list Z := [
  0; 1; 1; 2; 1; 1; 3; 1; 1; 1; 4; 1; 1; 1; 1; 1; 1; 1; 1; 1; 1; 1; 1; 1;
  1; 1; 1; 1; 5; 5; 5; 1; 1; 1; 1; 1; 1; 1; 1; 1; 1].
(** ppexpr-lex.inc:414-427. *)
Definition yy_base : list Z := [
  0; 0; 0; 38; 39; 34; 37; 38; 39; 48; 53; 128; 175; 124; 175; 122; 106; 175; 175; 115; 175; 175; 175; 175;
  175; 175; 107; 40; 103; 41; 31; 37; 175; 41; 81; 175; 0; 113; 0; 45; 0; 49; 0; 175; 38; 115; 175; 175;
  175; 100; 175; 175; 175; 175; 175; 63; 63; 64; 175; 0; 175; 104; 54; 103; 55; 0; 175; 175; 65; 66; 67; 175;
  102; 69; 68; 69; 79; 92; 175; 87; 100; 100; 175; 52; 39; 175; 135; 140; 145; 150; 155; 160; 165; 169].
(** ppexpr-lex.inc:429-442. *)
Definition yy_def : list Z := [
  0; 85; 1; 86; 86; 87; 87; 87; 87; 88; 88; 85; 85; 85; 85; 85; 85; 85; 85; 85; 85; 85; 85; 85;
  85; 85; 85; 85; 85; 85; 85; 85; 85; 85; 85; 85; 89; 85; 90; 85; 91; 85; 92; 85; 85; 85; 85; 85;
  85; 85; 85; 85; 85; 85; 85; 85; 85; 85; 85; 89; 85; 90; 85; 91; 85; 92; 85; 85; 85; 85; 85; 85;
  91; 85; 85; 85; 85; 85; 85; 85; 93; 85; 85; 93; 93; 0; 85; 85; 85; 85; 85; 85; 85; 85].
(** ppexpr-lex.inc:444-470. *)
Definition yy_nxt : list Z := [
  0; 12; 13; 14; 15; 16; 17; 18; 19; 20; 21; 22; 23; 24; 25; 26; 12; 27; 28; 29; 30; 31; 12; 12;
  12; 12; 12; 12; 32; 12; 12; 30; 33; 12; 12; 12; 12; 12; 12; 34; 35; 12; 12; 38; 37; 37; 38; 40;
  40; 84; 39; 12; 55; 39; 41; 41; 12; 50; 51; 53; 54; 62; 84; 55; 56; 64; 66; 67; 57; 39; 62; 64;
  39; 41; 41; 57; 12; 43; 44; 57; 62; 12; 43; 44; 64; 68; 69; 70; 73; 62; 64; 74; 75; 76; 77; 78;
  68; 70; 70; 73; 79; 80; 75; 75; 76; 78; 78; 82; 81; 80; 84; 79; 72; 72; 71; 49; 81; 45; 82; 60;
  58; 52; 49; 48; 47; 46; 45; 81; 85; 85; 85; 85; 85; 85; 85; 81; 36; 36; 36; 36; 36; 12; 12; 12;
  12; 12; 42; 42; 42; 42; 42; 59; 85; 85; 59; 59; 61; 61; 61; 85; 61; 63; 85; 63; 63; 63; 65; 85;
  65; 65; 83; 85; 83; 83; 83; 11; 85; 85; 85; 85; 85; 85; 85; 85; 85; 85; 85; 85; 85; 85; 85; 85;
  85; 85; 85; 85; 85; 85; 85; 85; 85; 85; 85; 85; 85; 85; 85; 85; 85; 85; 85; 85; 85; 85; 85; 85].
(** ppexpr-lex.inc:472-498. *)
Definition yy_chk : list Z := [
  0; 1; 1; 1; 1; 1; 1; 1; 1; 1; 1; 1; 1; 1; 1; 1; 1; 1; 1; 1; 1; 1; 1; 1;
  1; 1; 1; 1; 1; 1; 1; 1; 1; 1; 1; 1; 1; 1; 1; 1; 1; 3; 4; 5; 3; 4; 6; 7;
  8; 84; 5; 9; 30; 6; 7; 8; 10; 27; 27; 29; 29; 39; 83; 30; 31; 41; 44; 44; 33; 5; 62; 64;
  6; 7; 8; 31; 9; 9; 9; 33; 39; 10; 10; 10; 41; 55; 56; 57; 68; 62; 64; 69; 70; 73; 74; 75;
  55; 56; 57; 68; 76; 77; 69; 70; 73; 74; 75; 79; 77; 81; 80; 76; 72; 63; 61; 49; 81; 45; 79; 37;
  34; 28; 26; 19; 16; 15; 13; 77; 11; 0; 0; 0; 0; 0; 0; 81; 86; 86; 86; 86; 86; 87; 87; 87;
  87; 87; 88; 88; 88; 88; 88; 89; 0; 0; 89; 89; 90; 90; 90; 0; 90; 91; 0; 91; 91; 91; 92; 0;
  92; 92; 93; 0; 93; 93; 93; 85; 85; 85; 85; 85; 85; 85; 85; 85; 85; 85; 85; 85; 85; 85; 85; 85;
  85; 85; 85; 85; 85; 85; 85; 85; 85; 85; 85; 85; 85; 85; 85; 85; 85; 85; 85; 85; 85; 85; 85; 85].

(** The equivalence class of a byte, ppexpr-lex.inc:792. Simplification: there are no other characters than
    bytes; a character above 255 (the code converts the string with qPrintable) is treated like a byte without a
    class of its own. *)
Definition classOf (c : N) : Z := match at_ yy_ec (Z.of_N c) with Some k => k | None => 1 end.

(** ppexpr-lex.inc:798-804, the transition of the automaton. The inner loop follows yy_def; a chain has at most
    three members (state, template, 85), so [fuel] 4 is enough. [None]: an index outside of a table, or too
    little fuel; shown not to occur. *)
Fixpoint transition (fuel : nat) (s c : Z) : option Z :=
  match fuel with
  | O => None
  | S fuel' =>
    match at_ yy_base s with
    | None => None
    | Some b =>
      match at_ yy_chk (b + c) with
      | None => None
      | Some k =>
        if k =? s then at_ yy_nxt (b + c)
        else match at_ yy_def s with
             | None => None
             | Some s' =>
               if 86 <=? s' then match at_ yy_meta c with None => None | Some c' => transition fuel' s' c' end
               else transition fuel' s' c
             end
      end
    end
  end.
Definition next (s : Z) (c : N) : option Z := transition 4 s (classOf c).

(** ppexpr-lex.inc:789-812, the match loop: the last accepting state passed and its position, as (rule, length).
    [n]: the number of bytes read so far. State 85 is the jam state. At the end of the text the scanner makes a
    transition on a zero byte into state 11 (YY_END_OF_BUFFER), goes back and takes the last match
    (ppexpr-lex.inc:1082-1180, EOB_ACT_LAST_MATCH); this is modelled as ending the loop. *)
Fixpoint matchLoop (s : Z) (n : nat) (best : option (Z * nat)) (text : list N) : option (Z * nat) :=
  let best := match at_ yy_accept s with
              | Some a => if a =? 0 then best else Some (a, n)
              | None => best
              end in
  match text with
  | [] => best
  | c :: r =>
    match next s c with
    | None => None
    | Some s' => if s' =? 85 then best else matchLoop s' (S n) best r
    end
  end.

(** The start conditions, ppexpr.l:52-55; the value of yy_start is 1 + 2 * condition (ppexpr-lex.inc:115). *)
Inductive startCond := Initial | InString | InDefined | InExist | InShell.
Definition yyStart (c : startCond) : Z :=
  match c with Initial => 1 | InString => 3 | InDefined => 5 | InExist => 7 | InShell => 9 end.

(** What is kept between two calls and also between two expressions: the start condition and the string that
    yylval.str points to. PPExprParser::parse (ppexprparser.cpp:56-69) resets neither. *)
Record lexst := Lexst { lx_cond : startCond; lx_str : qstr }.
Definition lexInit : lexst := Lexst Initial [].

(** The outside of the lexer: the macro table, the files, the shell (ppexpr.l:56-173). *)
Record lexenv := Lexenv { le_defined : qstr -> bool; le_exists : qstr -> bool; le_system : qstr -> Z }.

(** atoi. Simplification: out of range, where C leaves the result open, it is the largest int (ppexpr.l:56-173). *)
Definition digitsVal (s : qstr) : Z := fold_left (fun a c => 10 * a + (Z.of_N c - 48)) s 0.
(** ppexpr.l:56-173. *)
Definition atoi (s : qstr) : Z := Z.min intMax (digitsVal s).

(** QByteArray::trimmed: ASCII white space only (ppexpr.l:56-173). *)
Definition isSpaceA (c : N) : bool := ((c =? 32) || ((9 <=? c) && (c <=? 13)))%N.
(** ppexpr.l:56-173. *)
Fixpoint dropSpacesA (s : qstr) : qstr := match s with c :: r => if isSpaceA c then dropSpacesA r else s | [] => [] end.
(** ppexpr.l:56-173. *)
Definition trimmedA (s : qstr) : qstr := rev (dropSpacesA (rev (dropSpacesA s))).

(** ppexpr.l:100-110 and the same in 117-128, 131-142: the name between the first opening and the last closing
    parenthesis, trimmed, without a leading and a trailing quote. *)
Definition nameInParens (yytext : qstr) : qstr :=
  let s := match indexOfChar 40%N yytext with Some i => skipn (S i) yytext | None => yytext end in
  let s := match lastIndexOfChar 41%N s with Some i => qleft i s | None => s end in
  let s := trimmedA s in
  let s := if startsWith [34%N] s then skipn 1 s else s in
  if endsWith [34%N] s then qchop 1 s else s.

(** What an action does: a token, if any; the new state; the command given to the shell, if any (ppexpr.l:56-173). *)
Record effect := Effect { ef_token : option token; ef_state : lexst; ef_command : option qstr }.
(** ppexpr.l:56-173. *)
Definition tok (t : token) (st : lexst) : effect := Effect (Some t) st None.
(** ppexpr.l:56-173. *)
Definition silent (st : lexst) : effect := Effect None st None.
(** ppexpr.l:56-173. *)
Definition bool2Z (b : bool) : Z := if b then 1 else 0.

(** ppexpr.l:59-170, the actions; ppexpr-lex.inc:819-1041. *)
Definition action (env : lexenv) (rule : Z) (yytext : qstr) (st : lexst) : effect :=
  match rule with
  | 2 => tok (NUMBER (atoi yytext)) st
  | 3 => tok LINEFEED st
  | 4 => tok BOOL_AND st
  | 5 => tok BOOL_OR st
  | 6 => tok BIT_AND st
  | 7 => tok BIT_OR st
  | 8 => tok NOT_EQUAL st
  | 9 => tok EQUAL st
  | 10 => tok LESS_THAN st
  | 11 => tok GREATER_THAN st
  | 12 => tok EQUAL_OR_LESS_THAN st
  | 13 => tok EQUAL_OR_GREATER_THAN st
  | 14 => tok SHIFT_LEFT st
  | 15 => tok SHIFT_RIGHT st
  | 16 => tok PLUS st
  | 17 => tok MINUS st
  | 18 => tok MULT st
  | 19 => tok DIV st
  | 20 => tok MOD st
  | 21 => tok BIT_NOT st
  | 22 => tok BOOL_NOT st
  | 23 => tok LEFT_PAREN st
  | 24 => tok RIGHT_PAREN st
  | 25 => silent (Lexst InString [])
  | 26 => silent (Lexst InShell [])
  | 27 => silent (Lexst InDefined (lx_str st))
  | 28 => silent (Lexst InExist (lx_str st))
  | 30 => tok (NUMBER (bool2Z (le_defined env (nameInParens yytext)))) (Lexst Initial (lx_str st))
  | 32 => tok (NUMBER (bool2Z (le_exists env (nameInParens yytext)))) (Lexst Initial (lx_str st))
  | 33 => tok (NUMBER (bool2Z (le_exists env (nameInParens yytext)))) st
  | 34 | 37 => silent (Lexst (lx_cond st) (lx_str st ++ yytext))
  | 35 => silent (Lexst (lx_cond st) (lx_str st ++ [34%N]))
  | 36 => tok (STRING (lx_str st)) (Lexst Initial (lx_str st))
  | 38 => silent (Lexst (lx_cond st) (lx_str st ++ [91%N]))
  | 39 => silent (Lexst (lx_cond st) (lx_str st ++ [93%N]))
  | 40 => Effect (Some (NUMBER (le_system env (lx_str st)))) (Lexst Initial (lx_str st)) (Some (lx_str st))
  | _ => silent st
  end.

(** ppexpr-lex.inc:773-1062 yylex, called until it returns the end of the input (token 0, which is not in the
    list): all tokens, the state afterwards and the commands run. [None] does not stand for anything in the
    program and is shown not to occur. The parser asks for the tokens one by one and has asked for all of them
    when it accepts; if it stops at an error, commands behind that place are not run. *)
Fixpoint lexAll (env : lexenv) (fuel : nat) (st : lexst) (text : list N) : option (list token * lexst * list qstr) :=
  match text with
  | [] => Some ([], st, [])
  | _ =>
    match fuel with
    | O => None
    | S fuel' =>
      match matchLoop (yyStart (lx_cond st)) 0 None text with
      | Some (rule, S n) =>
        let e := action env rule (firstn (S n) text) st in
        match lexAll env fuel' (ef_state e) (skipn (S n) text) with
        | Some (ts, st', cmds) => Some (option_list (ef_token e) ++ ts, st', option_list (ef_command e) ++ cmds)
        | None => None
        end
      | _ => None
      end
    end
  end.
Definition lexText (env : lexenv) (st : lexst) (text : list N) : option (list token * lexst * list qstr) :=
  lexAll env (length text) st text.

(** ppexprparser.cpp:57-252 PPExprParser::parse on a text: the lexer and the parser together. *)
Definition parseText (env : lexenv) (st : lexst) (text : list N) : option (pres * lexst * list qstr) :=
  match lexText env st text with
  | Some (ts, st', cmds) => Some (parse ts, st', cmds)
  | None => None
  end.
