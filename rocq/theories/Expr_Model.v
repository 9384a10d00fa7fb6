(** Model of the expression evaluator (expreval.c) for constant expressions:
    get_precedence, evaluate, calculate, the operators on constants and
    EvalOperand. Labels, registers, types, floats, [], ., :, PTR, OPATTR and
    the operators on symbols are left out; a token that is none of the
    modelled ones is TOther and an error as an operand.
    [unsigned long] (calculate, T_SHR) has 64 bits, as on Linux. *)
From Verif Require Import Base.

Inductive binop := EQ | NE | LT | LE | GT | GE | MOD | SHL | SHR | AND | OR | XOR.
Inductive unop := NOT | LOW | HIGH | LOWWORD | HIGHWORD | LOW32 | HIGH32.
Inductive tok := TNum (ll hl : Z) | TPlus | TMinus | TMul | TDiv | TBin (o : binop) | TUn (o : unop) | TOpen | TClose | TOther.

(** a constant: struct expr with kind EXPR_CONST (H/expreval.h:78-130); None = EXPR_EMPTY *)
Record expr := { ll : Z (* uint_64 *); hl : Z (* uint_64 *); neg : bool }.
Definition opnd := option expr.

(** expreval.c:731-732 *)
Definition is_operator (t : tok) : bool := match t with TNum _ _ | TOther => false | _ => true end.
Definition is_unary_op (t : tok) : bool := match t with TOpen | TPlus | TMinus | TUn _ => true | _ => false end.

(** expreval.c:4275-4325 is_expr_item, H/special.h:329-362: precedence of the reserved words *)
Definition bin_prec (o : binop) : Z :=
  match o with EQ | NE | LT | LE | GT | GE => 10 | MOD | SHL | SHR => 8 | AND => 12 | OR | XOR => 13 end.
Definition un_prec (o : unop) : Z := match o with NOT => 11 | _ => 6 end.
(** expreval.c:631-722 get_precedence; [binary]: specval has been set to BINARY_PLUSMINUS *)
Definition get_precedence (m510 binary : bool) (t : tok) : Z :=
  match t with
  | TBin o => bin_prec o
  | TUn o => un_prec o
  | TOpen => if m510 then 9 else 1
  | TMul | TDiv => 8
  | TPlus | TMinus => if binary then 9 else 7
  | _ => -1
  end.

(** results of evaluate: Fuel = the recursion bound of the model was too small *)
Inductive ev := Done (e : opnd) (rest : list tok) | Error | Undefined | Fuel.
Definition bind (x : ev) (f : opnd -> list tok -> ev) : ev := match x with Done e r => f e r | Error => Error | Undefined => Undefined | Fuel => Fuel end.

Definition s64 := swrap 64.
Definition u64 := wrap 64.
Definition set_ll (e : expr) (v : Z) : expr := {| ll := u64 v; hl := hl e; neg := neg e |}.
Definition truth (b : bool) : Z := if b then -1 else 0.
(** expreval.c:3161-3212 positive_op, negative_op; opnd1 is the initialised expr *)
Definition positive_op (e : expr) : expr := {| ll := ll e; hl := hl e; neg := false |}.
Definition negative_op (e : expr) : expr :=
  {| ll := u64 (- ll e); hl := if hl e =? 0 then 0 else u64 (- hl e - 1); neg := negb (neg e) |}.
(** expreval.c:2296-2408, and NOT in calculate (3819-3828); [value] is the low half as an int *)
Definition unary_op (o : unop) (e : expr) : expr :=
  match o with
  | NOT => set_ll e (Z.lnot (ll e))
  | LOW => set_ll e (Z.land (ll e) 0xff)
  | HIGH => (* opnd1->value = opnd1->value >> 8 keeps the high half *)
      set_ll e (Z.land (wrap 32 (Z.shiftr (swrap 32 (ll e)) 8) + ll e / 2 ^ 32 * 2 ^ 32) 0xff)
  | LOWWORD => set_ll e (Z.land (ll e) 0xffff)
  | HIGHWORD => set_ll e (Z.land (Z.shiftr (swrap 32 (ll e)) 16) 0xffff)
  | LOW32 => set_ll e (Z.land (ll e) 0xffffffff)
  | HIGH32 => set_ll e (Z.shiftr (ll e) 32)
  end.
(** a result of calculate *)
Inductive cal := Val (e : expr) | CErr | CUndef.
(** expreval.c:3725-3805 *)
Definition binary_op (m510 : bool) (o : binop) (a b : expr) : cal :=
  let count := swrap 32 (ll b) in
  match o with
  | EQ => Val (set_ll a (truth (s64 (ll a) =? s64 (ll b))))
  | NE => Val (set_ll a (truth (negb (s64 (ll a) =? s64 (ll b)))))
  | LT => Val (set_ll a (truth (s64 (ll a) <? s64 (ll b))))
  | LE => Val (set_ll a (truth (s64 (ll a) <=? s64 (ll b))))
  | GT => Val (set_ll a (truth (s64 (ll a) >? s64 (ll b))))
  | GE => Val (set_ll a (truth (s64 (ll a) >=? s64 (ll b))))
  | MOD => if ll b =? 0 then CErr else Val (set_ll a (ll a mod ll b))
  | SHL =>
      if count <? 0 then CErr
      else
        let v := if count >=? 64 then 0 else Z.shiftl (ll a) count in
        if m510 then Val {| ll := wrap 32 v; hl := 0; neg := neg a |} else Val (set_ll a v)
  | SHR => if count <? 0 then CErr else Val (set_ll a (if count >=? 64 then 0 else Z.shiftr (ll a) count))
  | AND => Val (set_ll a (Z.land (ll a) (ll b)))
  | OR => Val (set_ll a (Z.lor (ll a) (ll b)))
  | XOR => Val (set_ll a (Z.lxor (ll a) (ll b)))
  end.
(** expreval.c:3341-3962 calculate *)
Definition calculate (m510 : bool) (op : tok) (a : opnd) (b : opnd) : cal :=
  match b with
  | None => CErr
  | Some b =>
      let unary_pm := match op, a with TPlus, None | TMinus, None => true | _, _ => false end in
      if negb (hl b =? 0) && negb unary_pm then CErr (* constant value too large *)
      else match op, a with
           | TOpen, None => Val b
           | TPlus, None => Val (positive_op b)
           | TMinus, None => Val (negative_op b)
           | TUn o, None => Val (unary_op o b)
           | TOpen, Some a | TPlus, Some a => Val (set_ll a (ll a + ll b))
           | TMinus, Some a => Val (set_ll a (ll a - ll b))
           | TMul, Some a => Val (set_ll a (ll a * ll b))
           | TDiv, Some a =>
               if ll b =? 0 then CErr
               else if (s64 (ll a) =? - 2 ^ 63) && (s64 (ll b) =? -1) then CUndef
               else Val (set_ll a (Z.quot (s64 (ll a)) (s64 (ll b))))
           | TBin o, Some a => binary_op m510 o a b
           | _, _ => CErr
           end
  end.

(** expreval.c:4028-4266 evaluate. The list is tokenarray[*i ... end-1].
    [one] is EXPF_ONEOPND. *)
Definition closes (ts : list tok) : bool := match ts with [] | TClose :: _ => true | _ => false end.
Fixpoint evaluate (n : nat) (m510 one : bool) (a : opnd) (ts : list tok) {struct n} : ev :=
  match n with
  | O => Fuel
  | S n =>
      match a, ts with
      | Some _, _ => oploop n m510 one a ts
      | None, [] => Error
      | None, t :: r =>
          if is_unary_op t then oploop n m510 one None ts
          else match t with TNum l h => oploop n m510 one (Some {| ll := l; hl := h; neg := false |}) r | _ => Error end
      end
  end
(* the outer while loop *)
with oploop (n : nat) (m510 one : bool) (a : opnd) (ts : list tok) {struct n} : ev :=
  match n with
  | O => Fuel
  | S n =>
      match ts with
      | [] => Done a ts
      | TClose :: _ => Done a ts
      | op :: r =>
          let binary := match a with Some _ => true | None => false end in
          if binary && (negb (is_operator op) || match op with TUn _ => true | _ => false end) then Error
          else
            bind (operand n m510 op r) (fun b r =>
            bind (absorb n m510 (get_precedence m510 binary op) b r) (fun b r =>
            match calculate m510 op a b with
            | CErr => Error
            | CUndef => Undefined
            | Val v => if one then Done (Some v) r else oploop n m510 one (Some v) r
            end))
      end
  end
(* the operand behind the operator *)
with operand (n : nat) (m510 : bool) (op : tok) (ts : list tok) {struct n} : ev :=
  match n with
  | O => Fuel
  | S n =>
      match op with
      | TOpen =>
          bind (evaluate n m510 false None ts) (fun e r => match r with TClose :: r => Done e r | _ => Error end)
      | _ =>
          match ts with
          | [] => Error
          | t :: r =>
              if is_unary_op t then evaluate n m510 true None ts
              else match t with TNum l h => Done (Some {| ll := l; hl := h; neg := false |}) r | _ => Error end
          end
      end
  end
(* the inner while loop: operators that bind stronger *)
with absorb (n : nat) (m510 : bool) (p : Z) (b : opnd) (ts : list tok) {struct n} : ev :=
  match n with
  | O => Fuel
  | S n =>
      match ts with
      | [] => Done b ts
      | TClose :: _ => Done b ts
      | t :: r =>
          if negb (is_operator t) || match t with TUn _ => true | _ => false end then Error
          else if get_precedence m510 true t >=? p then Done b ts
          else bind (evaluate n m510 true b ts) (fun b r => absorb n m510 p b r)
      end
  end.
(** expreval.c:4339-4360 EvalOperand; the tokens are those accepted by is_expr_item *)
Definition EvalOperand (m510 : bool) (ts : list tok) : ev :=
  match ts with
  | [] => Done None []
  | _ => evaluate (8 * length ts + 8) m510 false None ts
  end.
