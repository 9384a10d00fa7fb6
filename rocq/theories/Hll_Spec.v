(** What a condition means, and a machine that executes the generated lines. *)
From Coq Require Import String Ascii List ZArith Bool Lia.
From Verif Require Import Base Hll_Model.
Import ListNotations.
Open Scope Z_scope.

(** * The machine *)
Record flags := { fC : bool; fZ : bool; fS : bool; fO : bool; fP : bool }.

(** contents of operand number n, and its size in bits *)
Record memory := { content : nat -> Z; size : nat -> Z }.
Definition sized (m : memory) := forall n, 0 < size m n.
(** operand as a bit pattern of width W *)
Definition bits (m : memory) (W : Z) (o : operand) : Z :=
  match k_kind o with KConst v => wrap W v | _ => wrap W (content m (k_id o)) end.
Definition even_ones (r : Z) : bool :=
  negb (fold_right xorb false (map (Z.testbit r) [0; 1; 2; 3; 4; 5; 6; 7])).
(** flags after a subtraction x - y resp. a logical operation with result r *)
Definition cmp_flags (W x y : Z) : flags :=
  let d := swrap W x - swrap W y in
  {| fC := x <? y; fZ := x =? y; fS := Z.testbit (wrap W (x - y)) (W - 1);
     fO := negb ((- 2 ^ (W - 1) <=? d) && (d <? 2 ^ (W - 1))); fP := even_ones (wrap W (x - y)) |}.
Definition log_flags (W r : Z) : flags :=
  {| fC := false; fZ := r =? 0; fS := Z.testbit r (W - 1); fO := false; fP := even_ones r |}.

(** instructions; "or" is only executed with two equal operands (it then leaves
    them unchanged) *)
Definition width (m : memory) (a : operand) : Z := size m (k_id a).
Definition effect (m : memory) (mn : string) (a : operand) (b : option operand) (f : flags) : option flags :=
  let W := width m a in
  let x := bits m W a in
  let y := match b with Some b => bits m W b | None => 0 end in
  if String.eqb mn "cmp" then Some (cmp_flags W x y)
  else if String.eqb mn "test" then Some (log_flags W (Z.land x y))
  else if String.eqb mn "or" then (if x =? y then Some (log_flags W (Z.lor x y)) else None)
  else None.

(** conditional jumps by name, padded to two letters *)
Definition jump_table : list (string * (flags -> bool)) :=
  [("mp", fun _ => true);
   ("o ", fO); ("no", fun f => negb (fO f)); ("s ", fS); ("ns", fun f => negb (fS f)); ("p ", fP); ("np", fun f => negb (fP f));
   ("c ", fC); ("b ", fC); ("nc", fun f => negb (fC f)); ("nb", fun f => negb (fC f)); ("ae", fun f => negb (fC f));
   ("z ", fZ); ("e ", fZ); ("nz", fun f => negb (fZ f)); ("ne", fun f => negb (fZ f));
   ("a ", fun f => negb (fC f) && negb (fZ f)); ("na", fun f => fC f || fZ f); ("be", fun f => fC f || fZ f);
   ("l ", fun f => xorb (fS f) (fO f)); ("nl", fun f => negb (xorb (fS f) (fO f))); ("ge", fun f => negb (xorb (fS f) (fO f)));
   ("g ", fun f => negb (fZ f) && negb (xorb (fS f) (fO f)));
   ("ng", fun f => fZ f || xorb (fS f) (fO f)); ("le", fun f => fZ f || xorb (fS f) (fO f))]%string.
Definition taken (c1 c2 : ascii) : option (flags -> bool) :=
  match find (fun e => String.eqb (fst e) (String c1 (String c2 EmptyString))) jump_table with
  | Some e => Some (snd e) | None => None end.

(** a program is a list of lines; the program counter is the number of a line *)
Definition is_label (x : Z) (l : line) : bool := match l with LLab y => x =? y | _ => false end.
Fixpoint place (x : Z) (p : list line) : option nat :=
  match p with [] => None | l :: r => if is_label x l then Some O else option_map S (place x r) end.
Definition state : Type := memory * flags.
(** [user]: what the source lines between the directives do *)
Definition step (user : nat -> state -> state) (p : list line) (c : nat * state) : option (nat * state) :=
  let '(pc, (m, f)) := c in
  match nth_error p pc with
  | None => None
  | Some (LIns mn a b) => match effect m mn a b f with Some f => Some (S pc, (m, f)) | None => None end
  | Some (LLab _) => Some (S pc, (m, f))
  | Some (LUser k) => Some (S pc, user k (m, f))
  | Some (LJ c1 c2 x) =>
      match taken c1 c2 with
      | None => None
      | Some t => if t f then match place x p with Some q => Some (q, (m, f)) | None => None end else Some (S pc, (m, f))
      end
  end.
Inductive steps (user : nat -> state -> state) (p : list line) : nat * state -> nat * state -> Prop :=
| steps_refl c : steps user p c c
| steps_step c c' c'' : step user p c = Some c' -> steps user p c' c'' -> steps user p c c''.

Definition labels (p : list line) : list Z := flat_map (fun l => match l with LLab x => [x] | _ => [] end) p.

(** * Conditions *)
(** an operand with a number of parentheses around it *)
Record popnd := { parens : nat; opnd : operand }.
Inductive flag := FZero | FCarry | FSign | FParity | FOverflow | FLess | FGreater | FAbove | FEqual | FBelow.
Inductive rel := REq | RNe | RGt | RLt | RGe | RLe.
Inductive cond :=
| CFlag (g : flag) (s : string)       (* CARRY? ... *)
| COne (a : popnd)                    (* a: not zero *)
| CBits (a b : popnd)                 (* a & b *)
| CCmp (r : rel) (a b : popnd)
| CNot (e : cond)
| CPar (e : cond)
| CAnd (e1 e2 : cond)
| COr (e1 e2 : cond).

Definition flag_names (g : flag) : list string :=
  match g with
  | FZero => ["ZERO?"; "zero?"; "Zero?"] | FCarry => ["CARRY?"; "carry?"; "Carry?"] | FSign => ["SIGN?"; "sign?"; "Sign?"]
  | FParity => ["PARITY?"; "parity?"; "Parity?"] | FOverflow => ["OVERFLOW?"; "overflow?"; "Overflow?"]
  | FLess => ["LESS?"; "less?"; "Less?"] | FGreater => ["GREATER?"; "greater?"; "Greater?"]
  | FAbove => ["ABOVE?"; "above?"; "Above?"] | FEqual => ["EQUAL?"; "equal?"; "Equal?"] | FBelow => ["BELOW?"; "below?"; "Below?"]
  end%string.
Definition rel_name (r : rel) : string :=
  match r with REq => "==" | RNe => "!=" | RGt => ">" | RLt => "<" | RGe => ">=" | RLe => "<=" end.

Definition print_opnd (a : popnd) : list tok := repeat TOpen (parens a) ++ [TOpnd (opnd a)] ++ repeat TClose (parens a).
Fixpoint print (e : cond) : list tok :=
  match e with
  | CFlag g s => [TId s]
  | COne a => print_opnd a
  | CBits a b => print_opnd a ++ [TStr "&"] ++ print_opnd b
  | CCmp r a b => print_opnd a ++ [TStr (rel_name r)] ++ print_opnd b
  | CNot e => TStr "!" :: print e
  | CPar e => TOpen :: print e ++ [TClose]
  | CAnd e1 e2 => print e1 ++ [TStr "&&"] ++ print e2
  | COr e1 e2 => print e1 ++ [TStr "||"] ++ print e2
  end.

(** the grammar: "!" binds strongest, then "&&", then "||"; brackets around a
    mere operand belong to the operand; constants that serve as a condition have
    33 bits at most *)
Definition has_operator (e : cond) : bool := match e with COne _ => false | _ => true end.
Fixpoint wf (level : nat) (e : cond) : Prop :=
  match e with
  | CFlag g s => In s (flag_names g)
  | COne a => match k_kind (opnd a) with KConst v => - 2 ^ 32 < v < 2 ^ 32 | _ => True end
  | CBits _ _ | CCmp _ _ _ => True
  | CNot e => wf 0 e
  | CPar e => has_operator e = true /\ wf 2 e
  | CAnd e1 e2 => (1 <= level)%nat /\ wf 1 e1 /\ wf 0 e2
  | COr e1 e2 => (2 <= level)%nat /\ wf 2 e1 /\ wf 1 e2
  end.

(** meaning, from left to right with short evaluation; a comparison leaves the
    flags of CMP behind, "a & b" those of TEST *)
Definition flag_value (g : flag) (f : flags) : bool :=
  match g with
  | FZero | FEqual => fZ f | FCarry | FBelow => fC f | FSign => fS f | FParity => fP f | FOverflow => fO f
  | FLess => negb (Bool.eqb (fS f) (fO f))
  | FGreater => Bool.eqb (fS f) (fO f) && negb (fZ f)
  | FAbove => negb (fC f || fZ f)
  end.
Definition rel_value (r : rel) (x y : Z) : bool :=
  match r with REq => x =? y | RNe => negb (x =? y) | RGt => y <? x | RLt => x <? y | RGe => y <=? x | RLe => x <=? y end.
(** the number an operand stands for *)
Definition number (m : memory) (sg : bool) (W : Z) (o : operand) : Z := if sg then swrap W (bits m W o) else bits m W o.
Fixpoint eval (m : memory) (e : cond) (f : flags) : bool * flags :=
  match e with
  | CFlag g _ => (flag_value g f, f)
  | COne a =>
      match k_kind (opnd a) with
      | KConst v => (negb (v =? 0), f)
      | _ => let W := width m (opnd a) in
             (negb (bits m W (opnd a) =? 0), cmp_flags W (bits m W (opnd a)) 0)
      end
  | CBits a b =>
      let W := width m (opnd a) in
      let r := Z.land (bits m W (opnd a)) (bits m W (opnd b)) in (negb (r =? 0), log_flags W r)
  | CCmp r a b =>
      let W := width m (opnd a) in
      let sg := k_signed (opnd a) || k_signed (opnd b) in
      (rel_value r (number m sg W (opnd a)) (number m sg W (opnd b)), cmp_flags W (bits m W (opnd a)) (bits m W (opnd b)))
  | CNot e => let '(v, f) := eval m e f in (negb v, f)
  | CPar e => eval m e f
  | CAnd e1 e2 => let '(v, f) := eval m e1 f in if v then eval m e2 f else (false, f)
  | COr e1 e2 => let '(v, f) := eval m e1 f in if v then (true, f) else eval m e2 f
  end.

(** * The conditions that are translated correctly
    The translator turns an operand of "&&" (if the code is to jump when the
    condition holds) or of "||" (if it is to jump when the condition fails) by
    inverting its last jump.  [ending b e]: what the code for [e] ends with if
    it jumps when [e] is [b]. *)
Inductive ending_t := EndJump | EndEmpty (* a constant that needs no jump *) | EndLabel (* no jump known *) | EndBad (* a constant and a label *).
Fixpoint ending (b : bool) (e : cond) : ending_t :=
  match e with
  | CFlag _ _ | CBits _ _ | CCmp _ _ _ => EndJump
  | COne a => match k_kind (opnd a) with KConst v => if Bool.eqb (negb (v =? 0)) b then EndJump else EndEmpty | _ => EndJump end
  | CNot e => ending (negb b) e
  | CPar e => ending b e
  | CAnd _ e2 => if b then EndLabel else ending b e2
  | COr _ e2 => if b then ending b e2 else match ending b e2 with EndEmpty => EndBad | x => x end
  end.
Definition can_turn (x : ending_t) : bool := match x with EndJump | EndEmpty => true | _ => false end.
Definition last_and (e : cond) : cond := match e with CAnd _ e2 => e2 | _ => e end.
Definition last_or (e : cond) : cond := match e with COr _ e2 => e2 | _ => e end.
Fixpoint fine (b : bool) (e : cond) : bool :=
  match e with
  | CNot e => fine (negb b) e
  | CPar e => fine b e
  | CAnd e1 e2 => fine b e1 && fine b e2 && (negb b || can_turn (ending b (last_and e1)))
  | COr e1 e2 => fine b e1 && fine b e2 &&
                 (b || (can_turn (ending b (last_or e1)) && match ending b e2 with EndBad => false | _ => true end))
  | _ => true
  end.

(** no constant as a condition *)
Fixpoint noconst (e : cond) : bool :=
  match e with
  | COne a => match k_kind (opnd a) with KConst _ => false | _ => true end
  | CNot e => noconst e
  | CPar e => noconst e
  | CAnd e1 e2 | COr e1 e2 => noconst e1 && noconst e2
  | _ => true
  end.
(** conditions without constants and without a negated bracket *)
Fixpoint plain (e : cond) : bool :=
  match e with
  | COne a => match k_kind (opnd a) with KConst _ => false | _ => true end
  | CNot (CPar _) => false
  | CNot e => plain e
  | CPar e => plain e
  | CAnd e1 e2 | COr e1 e2 => plain e1 && plain e2
  | _ => true
  end.
(** conditions without constants and without brackets around operators *)
Fixpoint flat (e : cond) : bool :=
  match e with
  | COne a => match k_kind (opnd a) with KConst _ => false | _ => true end
  | CNot e => flat e
  | CPar _ => false
  | CAnd e1 e2 | COr e1 e2 => flat e1 && flat e2
  | _ => true
  end.

(** What is accepted at all: the grammar, with names of flags in any mixture of
    upper and lower case *)
Definition flag_name (g : flag) : string :=
  match g with
  | FZero => "ZERO?" | FCarry => "CARRY?" | FSign => "SIGN?" | FParity => "PARITY?" | FOverflow => "OVERFLOW?"
  | FLess => "LESS?" | FGreater => "GREATER?" | FAbove => "ABOVE?" | FEqual => "EQUAL?" | FBelow => "BELOW?"
  end.
Fixpoint reads (level : nat) (e : cond) : Prop :=
  match e with
  | CFlag g s => uppers s = flag_name g
  | COne a => match k_kind (opnd a) with KConst v => - 2 ^ 32 <= v < 2 ^ 32 | _ => True end
  | CBits _ _ | CCmp _ _ _ => True
  | CNot e => reads 0 e
  | CPar e => has_operator e = true /\ reads 2 e
  | CAnd e1 e2 => (1 <= level)%nat /\ reads 1 e1 /\ reads 0 e2
  | COr e1 e2 => (2 <= level)%nat /\ reads 2 e1 /\ reads 1 e2
  end.
