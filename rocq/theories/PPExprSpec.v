(** The expression grammar of ppexpr.g:229-415 and what its sentences mean, without tables and stacks. *)
From stdpp Require Import prelude.
From Verif Require Import Base PPExpr.
Local Open Scope Z_scope.

Inductive expr :=
| ENum (z : Z)
| EStr (equal : bool) (a b : qstr)     (* comparison of two strings *)
| EUn (op : token) (e : expr)
| EBin (op : token) (a b : expr).

(** Which level an operator of two operands belongs to; a higher level binds closer. *)
Definition level (op : token) : option nat :=
  match op with
  | BOOL_AND | BOOL_OR | BIT_AND | BIT_OR => Some 0%nat
  | EQUAL | NOT_EQUAL | LESS_THAN | GREATER_THAN | EQUAL_OR_LESS_THAN | EQUAL_OR_GREATER_THAN => Some 2%nat
  | SHIFT_LEFT | SHIFT_RIGHT => Some 3%nat
  | PLUS | MINUS => Some 4%nat
  | MULT | DIV | MOD => Some 5%nat
  | _ => None
  end.
Definition unary (op : token) : Prop := op = MINUS \/ op = BIT_NOT \/ op = BOOL_NOT.

(** [der k w e]: the tokens [w] are a term of level [k] (term0 to term6, primary is 7) with the tree [e].
    Operators of one level are grouped from the left. *)
Inductive der : nat -> list token -> expr -> Prop :=
| d_num z : der 7 [NUMBER z] (ENum z)
| d_paren w e : der 0 w e -> der 7 (LEFT_PAREN :: w ++ [RIGHT_PAREN]) e
| d_un op w e : unary op -> der 7 w e -> der 6 (op :: w) (EUn op e)
| d_bin k op w1 w2 e1 e2 : level op = Some k -> der k w1 e1 -> der (S k) w2 e2 ->
    der k (w1 ++ op :: w2) (EBin op e1 e2)
| d_streq a b : der 1 [STRING a; EQUAL; STRING b] (EStr true a b)
| d_strne a b : der 1 [STRING a; NOT_EQUAL; STRING b] (EStr false a b)
| d_up k w e : (k < 7)%nat -> der (S k) w e -> der k w e.
Definition sentence (w : list token) (e : expr) : Prop := der 0 w e.

(** The value of an expression: operands from left to right, then the operator. *)
Definition truth (P : Prop) `{Decision P} : ares := ANum (if decide P then 1 else 0).
Definition binop (op : token) (a b : Z) : ares :=
  match op with
  | BOOL_AND => truth (a <> 0 /\ b <> 0)
  | BOOL_OR => truth (a <> 0 \/ b <> 0)
  | BIT_AND => ANum (Z.land a b)
  | BIT_OR => ANum (Z.lor a b)
  | EQUAL => truth (a = b)
  | NOT_EQUAL => truth (a <> b)
  | LESS_THAN => truth (a < b)
  | GREATER_THAN => truth (a > b)
  | EQUAL_OR_LESS_THAN => truth (a <= b)
  | EQUAL_OR_GREATER_THAN => truth (a >= b)
  | SHIFT_LEFT => if decide (0 <= b < 32) then ANum (wrap32 (a * 2 ^ b)) else AUndefined
  | SHIFT_RIGHT => if decide (0 <= b < 32) then ANum (a / 2 ^ b) else AUndefined
  | PLUS => fit (a + b)
  | MINUS => fit (a - b)
  | MULT => fit (a * b)
  | DIV => if decide (b = 0) then ADivZero else fit (Z.quot a b)
  | MOD => if decide (b = 0) then AUndefined else if inInt (Z.quot a b) then ANum (Z.rem a b) else AUndefined
  | _ => AUndefined
  end.
Definition unop (op : token) (a : Z) : ares :=
  match op with
  | MINUS => fit (- a)
  | BIT_NOT => ANum (- a - 1)
  | BOOL_NOT => truth (a = 0)
  | _ => AUndefined
  end.
Definition abind (r : ares) (f : Z -> ares) : ares := match r with ANum z => f z | e => e end.
Fixpoint eval (e : expr) : ares :=
  match e with
  | ENum z => ANum z
  | EStr equal a b => truth ((a = b) <-> equal = true)
  | EUn op e => abind (eval e) (unop op)
  | EBin op a b => abind (eval a) (fun x => abind (eval b) (fun y => binop op x y))
  end.
Definition result (r : ares) : pres :=
  match r with ANum z => PValue z | ADivZero => PDivZero | AUndefined => PUndefined end.
