(** How an expression tree is written as tokens. [Writes p f t ts]: the tokens ts
    denote t where operators binding weaker than level p need brackets and the
    operator that follows ts (if any) has a level of f or more. *)
From Verif Require Import Base Expr_Spec Expr_Model.
Definition btok (o : bop) : tok :=
  match o with
  | Mul => TMul | Div => TDiv | Mod => TBin MOD | Shl => TBin SHL | Shr => TBin SHR
  | Add => TPlus | Sub => TMinus
  | Eq => TBin EQ | Ne => TBin NE | Lt => TBin LT | Le => TBin LE | Gt => TBin GT | Ge => TBin GE
  | And => TBin AND | Or => TBin OR | Xor => TBin XOR
  end.
Definition utok (o : uop) : tok :=
  match o with
  | Pos => TPlus | Neg => TMinus | Not => TUn NOT | Low => TUn LOW | High => TUn HIGH
  | LowWord => TUn LOWWORD | HighWord => TUn HIGHWORD | Low32 => TUn LOW32 | High32 => TUn HIGH32
  end.
Inductive Writes : Z -> Z -> tree -> list tok -> Prop :=
| WNum p f n : Writes p f (Num n) [TNum n 0]
| WPar p f t ts : Writes 15 15 t ts -> Writes p f t (TOpen :: ts ++ [TClose])
(* a prefix operator may stand anywhere; its operand extends as far as the operators bind stronger *)
| WUn p f o t ts : uprec o <= f -> Writes (uprec o - 1) f t ts -> Writes p f (Un o t) (utok o :: ts)
(* binary operators group from the left *)
| WBin p f o a b ta tb : prec o <= p -> prec o <= f -> Writes (prec o) (prec o) a ta -> Writes (prec o - 1) f b tb -> Writes p f (Bin o a b) (ta ++ btok o :: tb).
(** one way to write every tree, with brackets only where the levels need them *)
Definition brackets (b : bool) (ts : list tok) : list tok := if b then TOpen :: ts ++ [TClose] else ts.
Fixpoint write (p : Z) (t : tree) : list tok :=
  match t with
  | Num n => [TNum n 0]
  | Un o t => brackets (p <? uprec o) (utok o :: write (uprec o - 1) t)
  | Bin o a b => brackets (p <? prec o) (write (prec o) a ++ btok o :: write (prec o - 1) b)
  end.
(** the outcome of EvalOperand that an expression asks for *)
Definition delivers (v : value) (r : ev) : Prop :=
  match v with
  | V v => exists n, r = Done (Some {| ll := v; hl := 0; neg := n |}) []
  | Bad => r = Error
  | Trap => r = Undefined
  end.
