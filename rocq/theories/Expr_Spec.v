(** Expressions as trees, their 64-bit values, and the way they are written. *)
From Verif Require Import Base.
Inductive bop := Mul | Div | Mod | Shl | Shr | Add | Sub | Eq | Ne | Lt | Le | Gt | Ge | And | Or | Xor.
Inductive uop := Pos | Neg | Not | Low | High | LowWord | HighWord | Low32 | High32.
Inductive tree := Num (n : Z) | Un (o : uop) (t : tree) | Bin (o : bop) (a b : tree).

(** MASM 6.1 Programmer's Guide, table 1.3 *)
Definition prec (o : bop) : Z :=
  match o with
  | Mul | Div | Mod | Shl | Shr => 8
  | Add | Sub => 9
  | Eq | Ne | Lt | Le | Gt | Ge => 10
  | And => 12
  | Or | Xor => 13
  end.
Definition uprec (o : uop) : Z := match o with Pos | Neg => 7 | Not => 11 | _ => 6 end.

(** values modulo 2^64; [sg] is the two's complement reading *)
Definition sg (v : Z) : Z := if v <? 2 ^ 63 then v else v - 2 ^ 64.
Definition bits (v lo n : Z) : Z := (v / 2 ^ lo) mod 2 ^ n.
Inductive value := V (v : Z) | Bad (* an error message *) | Trap (* the quotient is not representable *).
Definition uval (o : uop) (v : Z) : Z :=
  match o with
  | Pos => v
  | Neg => (- v) mod 2 ^ 64
  | Not => 2 ^ 64 - 1 - v
  | Low => bits v 0 8
  | High => bits v 8 8
  | LowWord => bits v 0 16
  | HighWord => bits v 16 16
  | Low32 => bits v 0 32
  | High32 => bits v 32 32
  end.
Definition all_ones (b : bool) : Z := if b then 2 ^ 64 - 1 else 0.
(** a shift count: the low 32 bits, which must not be negative *)
Definition count (v : Z) : option Z := let c := v mod 2 ^ 32 in if c <? 2 ^ 31 then Some c else None.
Definition bval (o : bop) (a b : Z) : value :=
  match o with
  | Mul => V ((a * b) mod 2 ^ 64)
  | Div => if b =? 0 then Bad else if (sg a =? - 2 ^ 63) && (sg b =? -1) then Trap else V (Z.quot (sg a) (sg b) mod 2 ^ 64)
  | Mod => if b =? 0 then Bad else V (a mod b)
  | Shl => match count b with None => Bad | Some c => V ((a * 2 ^ c) mod 2 ^ 64) end
  | Shr => match count b with None => Bad | Some c => V (a / 2 ^ c) end
  | Add => V ((a + b) mod 2 ^ 64)
  | Sub => V ((a - b) mod 2 ^ 64)
  | Eq => V (all_ones (a =? b))
  | Ne => V (all_ones (negb (a =? b)))
  | Lt => V (all_ones (sg a <? sg b))
  | Le => V (all_ones (sg a <=? sg b))
  | Gt => V (all_ones (sg b <? sg a))
  | Ge => V (all_ones (sg b <=? sg a))
  | And => V (Z.land a b)
  | Or => V (Z.lor a b)
  | Xor => V (Z.lxor a b)
  end.
Fixpoint eval (t : tree) : value :=
  match t with
  | Num n => V n
  | Un o t => match eval t with V v => V (uval o v) | x => x end
  | Bin o a b =>
      match eval a with
      | V va => match eval b with V vb => bval o va vb | x => x end
      | x => x
      end
  end.
Fixpoint in_range (t : tree) : Prop :=
  match t with Num n => 0 <= n < 2 ^ 64 | Un _ t => in_range t | Bin _ a b => in_range a /\ in_range b end.
