(** Model of the conditions of .IF, .ELSEIF, .WHILE, .UNTIL, .BREAK .IF and
    .CONTINUE .IF: hll.c (GetCOp, GetToken, GetSimpleExpression, InvertJump,
    ReplaceLabel, GetAndExpression, GetExpression, EvaluateHllExpression).

    The text buffer of generated lines is a list of lines; pointers into it are
    indices (every pointer the code keeps points to the start of a line or to
    the end of the text).  Simplifications: an assembler expression is one
    token, possibly in parentheses; floating point and SIMD operands are left
    out; labels are numbers (ReplaceLabel works on the text "@C%04X", which is
    the same as long as no number exceeds 0xFFFF and no operand contains such a
    text). *)
From Coq Require Import String Ascii List ZArith Bool Lia.
From Verif Require Import Base.
Import ListNotations.
Open Scope Z_scope.

(** operands: kind of the expression as EvalOperand reports it (expreval.h) *)
Inductive kind := KReg | KAddr | KConst (v : Z) (* value64 *).
Record operand := { k_kind : kind; k_id : nat (* the text *); k_signed : bool (* IS_SIGNED( mem_type ) *) }.

(** token array *)
Inductive tok :=
| TStr (s : string)              (* T_STRING, length 1 or 2 *)
| TId (s : string)               (* T_ID ending in '?' *)
| TOpnd (o : operand)            (* tokens of an assembler expression *)
| TOpen | TClose.

(** hll.c 165-188 *)
Inductive cop := COP_NONE | COP_EQ | COP_NE | COP_GT | COP_LT | COP_GE | COP_LE | COP_AND | COP_OR | COP_ANDB | COP_NEG
  | COP_ZERO | COP_CARRY | COP_SIGN | COP_PARITY | COP_OVERFLOW | COP_LESS | COP_GREATER | COP_ABOVE | COP_EQUAL | COP_BELOW.

Definition upper (c : ascii) : ascii :=
  let n := nat_of_ascii c in if (97 <=? n)%nat && (n <=? 122)%nat then ascii_of_nat (n - 32) else c.
Fixpoint uppers (s : string) : string := match s with EmptyString => EmptyString | String c r => String (upper c) (uppers r) end.
(** _memicmp on strings of equal length *)
Definition same (s t : string) : bool := String.eqb (uppers s) t.

(** hll.c 242-300 *)
Definition GetCOp (t : tok) : cop :=
  match t with
  | TStr s =>
      if String.eqb s "==" then COP_EQ else if String.eqb s "!=" then COP_NE else if String.eqb s ">=" then COP_GE
      else if String.eqb s "<=" then COP_LE else if String.eqb s "&&" then COP_AND else if String.eqb s "||" then COP_OR
      else if String.eqb s ">" then COP_GT else if String.eqb s "<" then COP_LT else if String.eqb s "&" then COP_ANDB
      else if String.eqb s "!" then COP_NEG else COP_NONE
  | TId s =>
      if same s "ZERO?" then COP_ZERO else if same s "CARRY?" then COP_CARRY else if same s "SIGN?" then COP_SIGN
      else if same s "PARITY?" then COP_PARITY else if same s "OVERFLOW?" then COP_OVERFLOW else if same s "LESS?" then COP_LESS
      else if same s "GREATER?" then COP_GREATER else if same s "ABOVE?" then COP_ABOVE else if same s "EQUAL?" then COP_EQUAL
      else if same s "BELOW?" then COP_BELOW else COP_NONE
  | _ => COP_NONE
  end.
Definition is_cop (t : tok) : bool := match GetCOp t with COP_NONE => false | _ => true end.
Definition head_cop (l : list tok) : cop := match l with t :: _ => GetCOp t | [] => COP_NONE end.
Definition is_not (t : tok) : bool := match t with TStr s => String.eqb s "!" | _ => false end.

(** generated lines: an instruction ("cmp a, b", "test a, b", "or a, b"; no
    second operand stands for ", 0"), a jump "j" with two more characters, a
    label; and the lines of the source between the directives *)
Inductive line :=
| LIns (m : string) (a : operand) (b : option operand)
| LJ (c1 c2 : ascii) (label : Z)
| LLab (label : Z)
| LUser (n : nat).

Definition space : ascii := " "%char.
(** hll.c 514-536 *)
Definition RenderJcc (cc : ascii) (neg : bool) (label : Z) : line :=
  if neg then LJ "n"%char cc label else LJ cc space label.
(** hll.c 191 *)
Definition flaginstr (c : cop) : option ascii :=
  match c with
  | COP_ZERO => Some "z" | COP_CARRY => Some "c" | COP_SIGN => Some "s" | COP_PARITY => Some "p" | COP_OVERFLOW => Some "o"
  | COP_LESS => Some "l" | COP_GREATER => Some "g" | COP_ABOVE => Some "a" | COP_EQUAL => Some "e" | COP_BELOW => Some "b"
  | _ => None
  end%char.
(** hll.c 194-196 *)
Definition unsigned_cjmptype (c : cop) : ascii :=
  match c with COP_EQ => "z" | COP_NE => "z" | COP_GT => "a" | COP_LT => "b" | COP_GE => "b" | _ => "a" end%char.
Definition signed_cjmptype (c : cop) : ascii :=
  match c with COP_EQ => "z" | COP_NE => "z" | COP_GT => "g" | COP_LT => "l" | COP_GE => "l" | _ => "g" end%char.
Definition neg_cjmptype (c : cop) : bool := match c with COP_NE | COP_GE | COP_LE => true | _ => false end.
Definition is_cmp (c : cop) : bool := match c with COP_EQ | COP_NE | COP_GT | COP_LT | COP_GE | COP_LE => true | _ => false end.

(** hll.c 851-897: the two characters behind 'j'; None if "jmp" is removed *)
Definition InvertJump (c1 c2 : ascii) : option (ascii * ascii) :=
  let flip c := if Ascii.eqb c "e" then space else "e"%char in
  if existsb (Ascii.eqb c1) ["e"; "z"; "c"; "s"; "p"; "o"]%char then Some ("n"%char, c1)
  else if Ascii.eqb c1 "n" then Some (c2, space)
  else if Ascii.eqb c1 "a" then Some ("b"%char, flip c2)
  else if Ascii.eqb c1 "b" then Some ("a"%char, flip c2)
  else if Ascii.eqb c1 "g" then Some ("l"%char, flip c2)
  else if Ascii.eqb c1 "l" then Some ("g"%char, flip c2)
  else if Ascii.eqb c1 "m" then None
  else Some (c1, c2).

(** the line buffer, struct hll_opnd (hll.c 155-158) and ModuleInfo.hll_label *)
Record st := { buf : list line; lastjmp : option nat; lasttrue : Z; lbl : Z }.
Definition with_buf (s : st) b := {| buf := b; lastjmp := lastjmp s; lasttrue := lasttrue s; lbl := lbl s |}.
Definition with_jmp (s : st) j := {| buf := buf s; lastjmp := j; lasttrue := lasttrue s; lbl := lbl s |}.
Definition with_true (s : st) t := {| buf := buf s; lastjmp := lastjmp s; lasttrue := t; lbl := lbl s |}.
(** hll.c 220-224 *)
Definition GetHllLabel (s : st) : Z * st := (lbl s + 1, {| buf := buf s; lastjmp := lastjmp s; lasttrue := lasttrue s; lbl := lbl s + 1 |}).
Definition append (s : st) (l : list line) : st := with_buf s (buf s ++ l).

(** hll.c 905-921: in the lines from index [k] on *)
Definition ren1 (o n x : Z) : Z := if x =? o then n else x.
Definition ren (o n : Z) (l : line) : line :=
  match l with LIns m a b => LIns m a b | LJ c1 c2 x => LJ c1 c2 (ren1 o n x) | LLab x => LLab (ren1 o n x) | LUser k => LUser k end.
Definition ReplaceLabel (k : nat) (o n : Z) (b : list line) : list line := firstn k b ++ map (ren o n) (skipn k b).

(** hll.c 945-954, 1029-1037: invert the jump at [p] and let it go to [t]; the
    text behind it is cut off; a label there is overwritten in the middle *)
Definition invert_to (p : nat) (t : Z) (b : list line) : res (list line) :=
  match nth_error b p with
  | None => if (p =? length b)%nat then Ok (b ++ [LJ "m"%char "p"%char t]) else UB
  | Some (LJ c1 c2 _) => Ok (firstn p b ++ match InvertJump c1 c2 with Some (d1, d2) => [LJ d1 d2 t] | None => [] end)
  | Some _ => UB
  end.

(** EvalOperand on an expression in parentheses *)
Fixpoint eval_operand (l : list tok) : res (operand * list tok) :=
  match l with
  | TOpnd o :: r => Ok (o, r)
  | TOpen :: r => bindr (eval_operand r) (fun '(o, r) => match r with TClose :: r => Ok (o, r) | _ => Err end)
  | _ => Err
  end.
(** hll.c 540-569; None = EXPR_EMPTY *)
Definition GetToken (l : list tok) : res (option operand * list tok) :=
  match l with
  | [] => Ok (None, l)
  | t :: _ => if is_cop t then Ok (None, l) else bindr (eval_operand l) (fun '(o, r) => Ok (Some o, r))
  end.

(** hll.c 609-623: does a C operator occur before the bracket is closed? *)
Fixpoint bracket_scan (brcnt : nat) (l : list tok) : bool :=
  match l with
  | [] => true
  | TOpen :: r => bracket_scan (S brcnt) r
  | TClose :: r => match brcnt with S (S k) => bracket_scan (S k) r | _ => false end
  | t :: r => if is_cop t then true else bracket_scan brcnt r
  end.
(** hll.c 599-602 *)
Fixpoint strip_nots (l : list tok) (is_true : bool) : list tok * bool :=
  match l with
  | t :: r => if is_not t then strip_nots r (negb is_true) else (l, is_true)
  | [] => (l, is_true)
  end.

(** hll.c 638-845: two operands, one operand or a flag *)
Definition simple (masm : bool) (L : Z) (l : list tok) (is_true : bool) (s : st) : res (list tok * st) :=
  bindr (GetToken l) (fun '(op1, l) =>
  let op := match head_cop l with COP_AND | COP_OR => COP_NONE | c => c end in
  let l := match op with COP_NONE => l | _ => tl l end in
  (* the instruction, if any, and the jump *)
  let emit (ins : list line) (cc : ascii) (neg : bool) :=
    let s := append s ins in
    Ok (append (with_jmp s (Some (length (buf s)))) [RenderJcc cc neg L]) in
  match flaginstr op with
  | Some cc => match op1 with Some _ => Err | None => bindr (emit [] cc (negb is_true)) (fun s => Ok (l, s)) end
  | None =>
    match op1 with
    | None => Err
    | Some a =>
      match op with
      | COP_NONE =>
          match k_kind a with
          | KReg => bindr (emit [LIns "test" a (Some a)] "z"%char is_true) (fun s => Ok (l, s))
          | KAddr => bindr (emit [LIns "cmp" a None] "z"%char is_true) (fun s => Ok (l, s))
          | KConst v =>
              let hvalue := Z.shiftr v 32 in
              if negb (hvalue =? 0) && negb (hvalue =? -1) then Err
              else
                let value := wrap 32 v in
                let s := with_jmp s (Some (length (buf s))) in
                if (is_true && negb (value =? 0)) || (negb is_true && (value =? 0))
                then Ok (l, append s [LJ "m"%char "p"%char L]) else Ok (l, s)
          end
      | _ =>
          bindr (GetToken l) (fun '(op2, l) =>
          match op2 with
          | None => Err
          | Some b =>
            match op with
            | COP_ANDB => bindr (emit [LIns "test" a (Some b)] "e"%char is_true) (fun s => Ok (l, s))
            | _ =>
              if is_cmp op then
                let zero := match op, k_kind a, k_kind b with
                            | (COP_EQ | COP_NE), KReg, KConst v => v =? 0 | _, _, _ => false end in
                let ins := if masm && zero then LIns "or" a (Some a) else if zero then LIns "test" a (Some a) else LIns "cmp" a (Some b) in
                let cc := if k_signed a || k_signed b then signed_cjmptype op else unsigned_cjmptype op in
                bindr (emit [ins] cc (if neg_cjmptype op then is_true else negb is_true)) (fun s => Ok (l, s))
              else Err
            end
          end)
      end
    end
  end).

(** what happens at "&&" (wanted = true) resp. "||" (wanted = false) with the
    code of the left operand; [from] is where the lasttruelabel is replaced,
    [start] where the label [L] is replaced (hll.c 943-968, 1026-1056) *)
Definition turn (rep : bool) (L : Z) (start from : nat) (truelabel : Z) (s : st) : res (Z * st) :=
  match lastjmp s with
  | None => Ok (truelabel, s)
  | Some p =>
    let '(tl, s) := if truelabel =? 0 then GetHllLabel s else (truelabel, s) in
    bindr (invert_to p tl (buf s)) (fun b =>
    let b := if negb (lasttrue s =? 0) then ReplaceLabel from (lasttrue s) tl b else b in
    let '(nl, s) := GetHllLabel s in
    let b := if rep then ReplaceLabel start L nl b ++ [LLab nl] else ReplaceLabel start L nl (b ++ [LLab L]) in
    Ok (tl, with_jmp (with_buf s b) None))
  end.

(** hll.c 582-845, 926-980, 986-1080; [n] is fuel, [rep] tells hll->cmd == HLL_REPEAT *)
Fixpoint GetSimpleExpression (n : nat) (masm rep : bool) (L : Z) (l : list tok) (is_true : bool) (s : st) : res (list tok * st) :=
  match n with
  | O => Err
  | S n =>
    let '(l, is_true) := strip_nots l is_true in
    match l with
    | TOpen :: r =>
        if bracket_scan 1 r then
          bindr (GetExpression n masm rep L r is_true s) (fun '(l, s) => match l with TClose :: r => Ok (r, s) | _ => Err end)
        else simple masm L l is_true s
    | _ => simple masm L l is_true s
    end
  end
with and_loop (n : nat) (masm rep : bool) (L : Z) (start : nat) (truelabel : Z) (l : list tok) (is_true : bool) (s : st) : res (list tok * st) :=
  match n with
  | O => Err
  | S n =>
    match head_cop l with
    | COP_AND =>
        bindr (if is_true then turn false L start start truelabel s else Ok (truelabel, s)) (fun '(truelabel, s) =>
        bindr (GetSimpleExpression n masm rep L (tl l) is_true (with_true s 0)) (fun '(l, s) =>
        and_loop n masm rep L start truelabel l is_true s))
    | _ =>
        if truelabel =? 0 then Ok (l, s)
        else Ok (l, with_jmp (append s [LLab truelabel]) None)
    end
  end
with GetAndExpression (n : nat) (masm rep : bool) (L : Z) (l : list tok) (is_true : bool) (s : st) : res (list tok * st) :=
  match n with
  | O => Err
  | S n =>
    bindr (GetSimpleExpression n masm rep L l is_true s) (fun '(l, s') =>
    and_loop n masm rep L (length (buf s)) 0 l is_true s')
  end
with or_loop (n : nat) (masm rep : bool) (L : Z) (start ptr : nat) (truelabel : Z) (l : list tok) (is_true : bool) (s : st) : res (list tok * st) :=
  match n with
  | O => Err
  | S n =>
    match head_cop l with
    | COP_OR =>
        bindr (if negb is_true then turn rep L start ptr truelabel s else Ok (truelabel, s)) (fun '(truelabel, s) =>
        let ptr := length (buf s) in
        bindr (GetAndExpression n masm rep L (tl l) is_true (with_true s 0)) (fun '(l, s) =>
        or_loop n masm rep L start ptr truelabel l is_true s))
    | _ =>
        if truelabel =? 0 then Ok (l, s)
        else
          bindr (match lastjmp s with
                 | Some p => if lasttrue s =? 0 then Ok s
                             else let b := ReplaceLabel ptr (lasttrue s) truelabel (buf s) in
                                  if (p <? length b)%nat then Ok (with_buf s (firstn (S p) b)) else UB
                 | None => Ok s
                 end) (fun s =>
          Ok (l, with_true (append s [LLab truelabel]) truelabel))
    end
  end
with GetExpression (n : nat) (masm rep : bool) (L : Z) (l : list tok) (is_true : bool) (s : st) : res (list tok * st) :=
  match n with
  | O => Err
  | S n =>
    bindr (GetAndExpression n masm rep L l is_true s) (fun '(l, s') =>
    or_loop n masm rep L (length (buf s)) (length (buf s)) 0 l is_true s')
  end.

(** hll.c 1121-1140; the condition's lines and the label counter *)
Definition EvaluateHllExpression (masm rep : bool) (L : Z) (is_true : bool) (counter : Z) (l : list tok) : res (list line * Z) :=
  bindr (GetExpression (4 * length l + 4) masm rep L l is_true {| buf := []; lastjmp := None; lasttrue := 0; lbl := counter |}) (fun '(l, s) =>
  match l with [] => Ok (buf s, lbl s) | _ => Err end).
