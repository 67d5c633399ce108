(** The parser for preprocessor expressions: ppexpr_grammar.cpp, ppexpr_grammar_p.h and ppexprparser.cpp.
    The tables were generated by qlalr from ppexpr.g; they are copied here number by number. *)
From stdpp Require Import prelude.
From Verif Require Import Base.
Local Open Scope Z_scope.

(** ppexpr_grammar.cpp:14-18. *)
Definition lhs : list Z := [
  25; 26; 26; 26; 26; 26; 27; 27; 29; 29; 28; 28; 28; 28; 28; 28; 28; 30; 30; 30;
  31; 31; 31; 32; 32; 32; 32; 33; 33; 33; 33; 34; 34; 35
].

(** ppexpr_grammar.cpp:20-24. *)
Definition rhs : list Z := [
  1; 1; 3; 3; 3; 3; 1; 1; 3; 3; 1; 3; 3; 3; 3; 3; 3; 1; 3; 3;
  1; 3; 3; 1; 3; 3; 3; 1; 2; 2; 2; 1; 3; 2
].

(** ppexpr_grammar.cpp:71-78. *)
Definition action_default : list Z := [
  0; 0; 0; 0; 0; 32; 0; 0; 28; 8; 1; 2; 7; 11; 18; 21; 24; 30; 31; 0;
  0; 0; 0; 0; 33; 5; 6; 3; 4; 29; 0; 0; 9; 10; 34; 0; 0; 0; 0; 0;
  0; 12; 0; 0; 19; 0; 0; 23; 0; 0; 0; 26; 27; 25; 22; 20; 17; 16; 15; 14;
  13
].

(** ppexpr_grammar.cpp:80-82. *)
Definition goto_default : list Z := [
  7; 10; 11; 12; 9; 13; 14; 15; 16; 8; 0
].

(** ppexpr_grammar.cpp:84-99. *)
Definition action_index : list Z := [
  117; 1; 2; 76; 5; (-25); 3; 0; (-25); (-25); 45; (-25); 113; 6; (-8); 18; (-25); (-25); (-25); 57;
  110; 117; 85; 141; (-25); (-25); (-25); (-25); (-25); (-25); 23; (-1); (-25); (-25); (-25); 51; 93; 69; 25; 37;
  69; 15; 69; 69; (-3); 69; 93; 18; 69; 69; 69; (-25); (-25); (-25); 18; 16; 20; 20; (-9); 4;
  8; (-11); (-9); (-7); 3; (-8); (-11); (-11); (-11); (-11); (-11); (-11); (-11); (-11); (-11); (-11); (-11); (-11); (-11); (-11);
  (-11); 1; 12; 4; 21; (-11); (-11); (-11); (-11); (-11); (-11); (-11); (-11); (-11); (-11); (-11); 10; 15; 16; 0;
  6; 7; (-11); 11; 13; (-11); 9; 17; (-11); (-1); 2; 5; (-11); (-11); (-11); (-11); (-11); (-11); (-11); (-11);
  (-11); (-11)
].

(** ppexpr_grammar.cpp:101-123. *)
Definition action_info : list Z := [
  34; 33; 5; 5; 42; 43; 5; 46; 45; 0; 30; 31; 46; 45; 0; 0; 0; 42; 43; 42;
  43; 42; 43; 3; 3; 32; 5; 3; 42; 43; 0; 46; 45; 42; 43; 50; 48; 49; 5; 0;
  0; 4; 0; 0; 0; 1; 2; 3; 22; 23; 20; 21; 5; 4; 0; 0; 0; 1; 2; 3;
  22; 23; 20; 21; 0; 0; 0; 4; 0; 0; 5; 1; 2; 3; 0; 0; 0; 5; 6; 0;
  24; 0; 0; 0; 0; 4; 5; 6; 0; 1; 2; 3; 4; 0; 5; 0; 1; 2; 3; 0;
  0; 4; 0; 0; 0; 1; 2; 3; 0; 4; 0; 5; 6; 1; 2; 3; 0; 0; 5; 6;
  35; 40; 39; 38; 37; 36; 4; 0; 0; 0; 1; 2; 3; 4; 0; 0; 0; 1; 2; 3;
  0; 0; 5; 6; 0; 0; 0; 0; 0; 0; 0; 0; 0; 0; 0; 0; 0; 4; 0; 0;
  0; 1; 2; 3; 0; 0; 17; 29; 18; 25; 19; 58; 27; 51; 0; 0; 52; 59; 60; 53;
  26; 41; 47; 44; 0; 55; 56; 57; 0; 28; 54; 0; 0; 0; 0; 0; 0; 0
].

(** ppexpr_grammar.cpp:125-147. *)
Definition action_check : list Z := [
  0; 2; 1; 1; 13; 14; 1; 15; 16; (-1); 7; 8; 15; 16; (-1); (-1); (-1); 13; 14; 13;
  14; 13; 14; 22; 22; 2; 1; 22; 13; 14; (-1); 15; 16; 13; 14; 17; 18; 19; 1; (-1);
  (-1); 16; (-1); (-1); (-1); 20; 21; 22; 3; 4; 5; 6; 1; 16; (-1); (-1); (-1); 20; 21; 22;
  3; 4; 5; 6; (-1); (-1); (-1); 16; (-1); (-1); 1; 20; 21; 22; (-1); (-1); (-1); 1; 2; (-1);
  23; (-1); (-1); (-1); (-1); 16; 1; 2; (-1); 20; 21; 22; 16; (-1); 1; (-1); 20; 21; 22; (-1);
  (-1); 16; (-1); (-1); (-1); 20; 21; 22; (-1); 16; (-1); 1; 2; 20; 21; 22; (-1); (-1); 1; 2;
  7; 8; 9; 10; 11; 12; 16; (-1); (-1); (-1); 20; 21; 22; 16; (-1); (-1); (-1); 20; 21; 22;
  (-1); (-1); 1; 2; (-1); (-1); (-1); (-1); (-1); (-1); (-1); (-1); (-1); (-1); (-1); (-1); (-1); 16; (-1); (-1);
  (-1); 20; 21; 22; (-1); (-1); 9; 9; 9; 2; 1; 5; 2; 8; (-1); (-1); 8; 5; 5; 8;
  2; 5; 7; 6; (-1); 6; 5; 5; (-1); 2; 7; (-1); (-1); (-1); (-1); (-1); (-1); (-1)
].

(** ppexpr_grammar_p.h:8-44 VariousConstants. *)
Definition acceptState : Z := 34.
Definition terminalCount : Z := 25.
Definition gotoIndexOffset : Z := 61.
Definition gotoInfoOffset : Z := 166.
Definition gotoCheckOffset : Z := 166.

(** Reading an array; [None]: outside of its bounds (ppexpr_grammar_p.h:60-80). *)
Definition at_ (l : list Z) (i : Z) : option Z := if i <? 0 then None else nth_error l (Z.to_nat i).

(** ppexpr_grammar_p.h:61-68 nt_action. *)
Definition nt_action (state nt : Z) : option Z :=
  match at_ action_index (gotoIndexOffset + state) with
  | None => None
  | Some i =>
    let yyn := i + nt in
    if yyn <? 0 then at_ goto_default nt
    else match at_ action_check (gotoCheckOffset + yyn) with
         | None => None
         | Some c => if negb (c =? nt) then at_ goto_default nt else at_ action_info (gotoInfoOffset + yyn)
         end
  end.
(** ppexpr_grammar_p.h:70-78 t_action. *)
Definition t_action (state token : Z) : option Z :=
  match at_ action_index state with
  | None => None
  | Some i =>
    let yyn := i + token in
    if yyn <? 0 then option_map Z.opp (at_ action_default state)
    else match at_ action_check yyn with
         | None => None
         | Some c => if negb (c =? token) then option_map Z.opp (at_ action_default state) else at_ action_info yyn
         end
  end.

(** The tokens returned by the lexer, ppexpr.g:32-55; numbers ppexpr_grammar_p.h:10-33. NUMBER and
    STRING come with a value. *)
Inductive token :=
| NUMBER (z : Z) | STRING (s : qstr) | BOOL_AND | BOOL_OR | BIT_AND | BIT_OR | EQUAL | NOT_EQUAL
| LESS_THAN | GREATER_THAN | EQUAL_OR_LESS_THAN | EQUAL_OR_GREATER_THAN | SHIFT_LEFT | SHIFT_RIGHT
| PLUS | MINUS | MULT | DIV | MOD | BIT_NOT | BOOL_NOT | LEFT_PAREN | RIGHT_PAREN | LINEFEED.
Definition code (t : token) : Z :=
  match t with
  | NUMBER _ => 1 | STRING _ => 2 | BOOL_AND => 3 | BOOL_OR => 4 | BIT_AND => 5 | BIT_OR => 6
  | EQUAL => 7 | NOT_EQUAL => 8 | LESS_THAN => 9 | GREATER_THAN => 10 | EQUAL_OR_LESS_THAN => 11
  | EQUAL_OR_GREATER_THAN => 12 | SHIFT_LEFT => 13 | SHIFT_RIGHT => 14 | PLUS => 15 | MINUS => 16
  | MULT => 17 | DIV => 18 | MOD => 19 | BIT_NOT => 20 | BOOL_NOT => 21 | LEFT_PAREN => 22
  | RIGHT_PAREN => 23 | LINEFEED => 24
  end.

(** ppexprparser.h:57-69 Value: a number or a pointer to a string. Tokens without a value leave whatever
    was there before; that is [VNone]. *)
Inductive value := VNum (z : Z) | VStr (s : qstr) | VNone.
Definition valueOf (t : token) : value :=
  match t with NUMBER z => VNum z | STRING s => VStr s | _ => VNone end.

(** Results: true with expressionValue(); false with "Syntax Error"; false with "division by zero";
    undefined behaviour. [PFuel] does not stand for anything in the program; it is shown not to occur (ppexprparser.cpp:57-252). *)
Inductive pres := PValue (z : Z) | PSyntax | PDivZero | PUndefined | PFuel.

(** int, 32 bits (ppexprparser.h:33-87: values are int). *)
Definition intMin : Z := -2147483648.
(** ppexprparser.h:33-87. *)
Definition intMax : Z := 2147483647.
(** ppexprparser.h:33-87. *)
Definition inInt (z : Z) : bool := (intMin <=? z) && (z <=? intMax).
(** ppexprparser.h:33-87. *)
Definition wrap32 (z : Z) : Z := (z + 2147483648) mod 4294967296 - 2147483648.

(** The result of a semantic action (ppexprparser.cpp:57-252). *)
Inductive ares := ANum (z : Z) | ADivZero | AUndefined.
(** ppexprparser.cpp:57-252. *)
Definition fit (z : Z) : ares := if inInt z then ANum z else AUndefined.
(** ppexprparser.cpp:57-252. *)
Definition ofBool (b : bool) : ares := ANum (if b then 1 else 0).

(** ppexprparser.cpp:127-238, the semantic actions; [v1], [v2], [v3] are sym(1), sym(2), sym(3).
    Undefined: overflow of a signed operation, remainder by zero, a shift by less than 0 or more than 31 bits, reading
    the member of the union that was not written. A left shift within these bounds drops the upper bits, a
    right shift keeps the sign. Rules without an action leave sym(1) alone ([None]). *)
Definition semantic (r : Z) (v1 v2 v3 : value) : option ares :=
  let num2 f := Some (match v1, v3 with VNum a, VNum b => f a b | _, _ => AUndefined end) in
  let str2 f := Some (match v1, v3 with VStr a, VStr b => f a b | _, _ => AUndefined end) in
  let num1 f := Some (match v2 with VNum a => f a | _ => AUndefined end) in
  match r with
  | 2 => num2 (fun a b => ofBool (negb (a =? 0) && negb (b =? 0)))
  | 3 => num2 (fun a b => ofBool (negb (a =? 0) || negb (b =? 0)))
  | 4 => num2 (fun a b => ANum (Z.land a b))
  | 5 => num2 (fun a b => ANum (Z.lor a b))
  | 8 => str2 (fun a b => ofBool (qeqb a b))
  | 9 => str2 (fun a b => ofBool (negb (qeqb a b)))
  | 11 => num2 (fun a b => ofBool (a =? b))
  | 12 => num2 (fun a b => ofBool (negb (a =? b)))
  | 13 => num2 (fun a b => ofBool (a <? b))
  | 14 => num2 (fun a b => ofBool (b <? a))
  | 15 => num2 (fun a b => ofBool (a <=? b))
  | 16 => num2 (fun a b => ofBool (b <=? a))
  | 18 => num2 (fun a b => if (0 <=? b) && (b <=? 31) then ANum (wrap32 (Z.shiftl a b)) else AUndefined)
  | 19 => num2 (fun a b => if (0 <=? b) && (b <=? 31) then ANum (Z.shiftr a b) else AUndefined)
  | 21 => num2 (fun a b => fit (a + b))
  | 22 => num2 (fun a b => fit (a - b))
  | 24 => num2 (fun a b => fit (a * b))
  | 25 => num2 (fun a b => if b =? 0 then ADivZero else fit (Z.quot a b))
  | 26 => num2 (fun a b => if b =? 0 then AUndefined else if inInt (Z.quot a b) then ANum (Z.rem a b) else AUndefined)
  | 28 => num1 (fun a => fit (- a))
  | 29 => num1 (fun a => ANum (Z.lnot a))
  | 30 => num1 (fun a => ofBool (a =? 0))
  | 32 => Some (match v2 with VNum a => ANum a | _ => AUndefined end)
  | _ => None
  end.

(** The two stacks (their top first; they grow together), yytoken and the tokens not yet read. The state
    at the bottom has no value (ppexprparser.cpp:46-55). *)
Definition pstack := list (Z * value).
(** ppexprparser.cpp:46-55. *)
Definition valueAt (st : pstack) (i : nat) : value := match nth_error st i with Some (_, v) => v | None => VNone end.

(** ppexprparser.cpp:104-125, 240: a reduction. [Some (inr _)] ends the parsing. *)
Definition reduce (r : Z) (st : pstack) : option (pstack + pres) :=
  match at_ rhs r, at_ lhs r with
  | Some n, Some l =>
    let n := Z.to_nat n in
    (* sym(1) is the lowest of the entries that are removed, or the place above the top if there are none *)
    let v1 := if Nat.eqb n 0 then VNone else valueAt st (n - 1) in
    let v2 := if Nat.leb 2 n then valueAt st (n - 2) else VNone in
    let v3 := if Nat.leb 3 n then valueAt st (n - 3) else VNone in
    match skipn n st with
    | [] => None
    | (s0, _) :: _ as st' =>
      match nt_action s0 (l - terminalCount) with
      | None => None
      | Some s' =>
        match semantic r v1 v2 v3 with
        | None => Some (inl ((s', v1) :: skipn n st))
        | Some (ANum z) => Some (inl ((s', VNum z) :: skipn n st))
        | Some ADivZero => Some (inr PDivZero)
        | Some AUndefined => Some (inr PUndefined)
        end
      end
    end
  | _, _ => None
  end.

(** ppexprparser.cpp:74-251, the loop. [tok]: yytoken, [None] for -1; at the end of the tokens yylex
    returns 0. Simplification: the growing of the stacks (91-98) never fails. *)
Definition tokCode (t : option token) : Z := match t with Some t => code t | None => 0 end.
Fixpoint parseLoop (fuel : nat) (st : pstack) (tok : option (option token)) (input : list token) : pres :=
  match fuel with
  | O => PFuel
  | S fuel' =>
    match st with
    | [] => PUndefined
    | (s, _) :: _ =>
      match at_ action_index s with
      | None => PUndefined
      | Some ai =>
        let '(tok1, input1) :=
          match tok with
          | None => if negb (- terminalCount =? ai)
                    then match input with t :: i => (Some (Some t), i) | [] => (Some None, []) end
                    else (None, input)
          | _ => (tok, input)
          end in
        match t_action s (match tok1 with Some t => tokCode t | None => -1 end) with
        | None => PUndefined
        | Some act =>
          if act =? acceptState then match valueAt st 0 with VNum z => PValue z | _ => PUndefined end
          else if 0 <? act then
            parseLoop fuel' ((act, match tok1 with Some (Some t) => valueOf t | _ => VNone end) :: st) None input1
          else if act <? 0 then
            match reduce (- act - 1) st with
            | None => PUndefined
            | Some (inl st') => parseLoop fuel' st' tok1 input1
            | Some (inr e) => e
            end
          else PSyntax
        end
      end
    end
  end.

(** ppexprparser.cpp:57-73. The number of steps is bounded (PPExprProofs.v). *)
Definition parse (input : list token) : pres := parseLoop (40 + 40 * length input) [(0, VNone)] None input.
