(** What .SWITCH has to do, without regard to how hll.c does it. *)
From Coq Require Import ZArith List Bool Lia Permutation.
From Verif Require Import Base Switch_Model.
Import ListNotations.
Open Scope Z_scope.

(** ** The dispatch *)

(** The number of bits which are compared. *)
Definition bits (c8 : bool) : Z := if c8 then 64 else 32.

(** The label for the value [v]: the one of the case with this value, or the
    other one. *)
Fixpoint pick (other : Z) (cases : list (Z * Z)) (v : Z) : Z :=
  match cases with
  | [] => other
  | (x, l) :: r => if x =? v then l else pick other r v
  end.

(** The smallest and the largest value, and their distance. *)
Definition least (cases : list (Z * Z)) : Z :=
  match cases with
  | [] => 0
  | (x, _) :: r => fold_right (fun c m => Z.min (fst c) m) x r
  end.
Definition greatest (cases : list (Z * Z)) : Z :=
  match cases with
  | [] => 0
  | (x, _) :: r => fold_right (fun c m => Z.max (fst c) m) x r
  end.
Definition span (cases : list (Z * Z)) : Z := greatest cases - least cases.

(** The cases are different numbers of 32 bits with sign; their labels have
    numbers from 1 to 0FFFFh. *)
Definition proper (cases : list (Z * Z)) : Prop :=
  NoDup (map fst cases) /\
  Forall (fun c => - 2 ^ 31 <= fst c < 2 ^ 31 /\ 0 < snd c < 65536) cases.

(** ** The body, style of C: a case runs up to the next .BREAK *)

Definition has (c8 : bool) (v : Z) (vs : list Z) : bool :=
  existsb (fun x => (x - v) mod 2 ^ bits c8 =? 0) vs.

Fixpoint after_case (c8 : bool) (v : Z) (l : list item) : option (list item) :=
  match l with
  | [] => None
  | ICase vs :: r => if has c8 v vs then Some r else after_case c8 v r
  | _ :: r => after_case c8 v r
  end.

Fixpoint after_default (l : list item) : option (list item) :=
  match l with
  | [] => None
  | IDefault :: r => Some r
  | _ :: r => after_default r
  end.

(** The lines to be executed for the value [v]. *)
Definition selected (c8 : bool) (v : Z) (l : list item) : option (list item) :=
  match after_case c8 v l with
  | Some r => Some r
  | None => after_default l
  end.

Fixpoint until_break (cond : Z -> bool) (l : list item) : list event :=
  match l with
  | [] => []
  | ICode id _ :: r => EvCode id :: until_break cond r
  | IBreak :: _ => []
  | IBreakIf id :: r => EvTest id :: (if cond id then [] else until_break cond r)
  | _ :: r => until_break cond r
  end.

Definition c_trace (cond : Z -> bool) (c8 : bool) (v : Z) (l : list item) : list event :=
  match selected c8 v l with
  | Some r => until_break cond r
  | None => []
  end.

(** ** The body, style of assembler: a case runs up to the next case *)

Fixpoint until_case (cond : Z -> bool) (l : list item) : list event :=
  match l with
  | [] => []
  | ICode id _ :: r => EvCode id :: until_case cond r
  | IBreakIf id :: r => EvTest id :: (if cond id then [] else until_case cond r)
  | _ => []
  end.

(** .CASE lines in sequence have the same block. *)
Fixpoint skip_cases (l : list item) : list item :=
  match l with
  | ICase _ :: r => skip_cases r
  | _ => l
  end.

Definition asm_trace (cond : Z -> bool) (c8 : bool) (v : Z) (l : list item) : list event :=
  match after_case c8 v l with
  | Some r => until_case cond (skip_cases r)
  | None => match after_default l with
            | Some r => until_case cond r
            | None => []
            end
  end.

(** ** What the style of C needs here *)

(** Between a .CASE line, a block and the next .CASE line there is a .BREAK
    ([seen]: a .CASE occurred since; [dirty]: and a block behind it). *)
Fixpoint separated (seen dirty : bool) (l : list item) : bool :=
  match l with
  | [] => true
  | ICase _ :: r => negb dirty && separated true false r
  | IDefault :: r => separated seen dirty r
  | IBreak :: r => separated false false r
  | IBreakIf _ :: r => separated false false r
  | ICode _ _ :: r => separated seen seen r
  end.

(** The last line is a .BREAK. *)
Definition closed (l : list item) : Prop := exists p, l = p ++ [IBreak].

(** ** The numbers of cases and gaps for which the tables are complete *)

(** Labels of the sorted cases, equal neighbours once, as [lab_table] wants to
    write them. *)
Definition row_start_fresh (ls : list Z) : Prop :=
  forall j a b, 0 < j -> j mod 75 = 0 ->
    nth_error ls (Z.to_nat (j - 1)) = Some a -> nth_error ls (Z.to_nat j) = Some b -> a <> b.

(** The numbers between the least and the greatest case that are no cases. *)
Definition gaps (cases : list (Z * Z)) : Z := span cases + 1 - zlen cases.

(** A machine before the dispatch: all registers have values of [w] bits. *)
Definition regs_ok (w : Z) (s : mst) : Prop := forall r, 0 <= m_reg s r < 2 ^ w.

(** Where the tables are: apart from each other, and not wrapping around. *)
Definition placed (e : env) : Prop :=
  0 <= e_b1 e /\ 0 <= e_b2 e /\
  e_b1 e + e_w e / 8 * zlen (o_t1 (e_o e)) <= 2 ^ e_w e /\
  e_b2 e + o_es (e_o e) * zlen (o_t2 (e_o e)) <= 2 ^ e_w e /\
  (e_b1 e + e_w e / 8 * zlen (o_t1 (e_o e)) <= e_b2 e \/
   e_b2 e + o_es (e_o e) * zlen (o_t2 (e_o e)) <= e_b1 e).

(** The dispatch of the value in RA arrives at the label [l]; the stack and the
    other registers are as before, and RA as well if [keep]. *)
Definition arrives (e : env) (exit : Z) (keep : bool) (s : mst) (l : Z) : Prop :=
  exists f s', (forall g, (f <= g)%nat -> run g e exit 0 s = Reach l s') /\
    m_stk s' = m_stk s /\
    (forall r, r <> RA \/ keep = true -> m_reg s' r = m_reg s r).

(** The four ways to dispatch. *)
Inductive way := Chain | Dense | Counted | Search.

(** At most three cases are compared one after the other.  If two thirds of
    the numbers from the least to the greatest are cases (with values of 64
    bits: four fifths), there is a table with a label for each number.  Else,
    if the distance is small, there is a table with a count for each number,
    and a table of the labels.  Else the values are searched. *)
Definition way_of (c8 : bool) (size : Z) (cases : list (Z * Z)) : way :=
  let n := zlen cases in
  if n <=? 3 then Chain
  else if (if c8 then span cases * 8 <=? n * 10 else span cases * 4 <=? n * 6) then Dense
  else if (span cases <? 256) || (span cases <? size) then Counted
  else Search.

(** Ascending, by value. *)
Definition ascending (cs : list (Z * Z)) : Prop :=
  forall i j a b, (i < j)%nat -> nth_error cs i = Some a -> nth_error cs j = Some b -> fst a < fst b.

(** What the tables need in order to be complete. *)
Definition fits (is64 c8 : bool) (size : Z) (cases : list (Z * Z)) : Prop :=
  match way_of c8 size cases with
  | Chain | Search => True
  | Dense => gaps cases = 0 \/ span cases + (if is64 then gaps cases else 0) <= 74
  | Counted =>
      zlen cases mod 75 <> 0 /\
      forall cs, Permutation cases cs -> ascending cs -> row_start_fresh (map snd cs)
  end.

(** The ways which leave RA as it is. *)
Definition kept (wy : way) : bool :=
  match wy with Chain | Search => true | _ => false end.

(** The rest: at least one case, fewer than 65536; with values of 32 bits the
    distance is small enough for a table of 2^31 bytes; numbers are decimal. *)
Record plain (w : swi) (cases : list (Z * Z)) : Prop := {
  pl_some : 0 < zlen cases < 65536;
  pl_8 : s_8 w = true -> s_64 w = true;
  pl_span : s_8 w = false -> span cases < 2 ^ 29;
  pl_size : s_size w <= 65536;
  pl_radix : s_radix w = 10
}.

(** ** Which bodies are accepted *)

Fixpoint all_values (l : list item) : list Z :=
  match l with
  | [] => []
  | ICase vs :: r => vs ++ all_values r
  | _ :: r => all_values r
  end.

Fixpoint defaults (l : list item) : Z :=
  match l with
  | [] => 0
  | IDefault :: r => 1 + defaults r
  | _ :: r => defaults r
  end.

(** No value twice, no .CASE without a value, at most one .DEFAULT. *)
Definition well_formed (c8 : bool) (l : list item) : Prop :=
  NoDup (map (fun v => v mod 2 ^ bits c8) (all_values l)) /\
  ~ In (ICase []) l /\ defaults l <= 1.

(** Blocks use up no negative number of labels; and how many labels a body
    uses at most. *)
Definition counts (l : list item) : Prop :=
  Forall (fun i => match i with ICode _ k => 0 <= k | _ => True end) l.

Fixpoint uses (l : list item) : Z :=
  match l with
  | [] => 0
  | ICode _ k :: r => k + uses r
  | ICase _ :: r => 1 + uses r
  | IDefault :: r => 1 + uses r
  | _ :: r => uses r
  end.

(** The labels that the body defines. *)
Definition labels_set (o : list bline) : list Z := flat_map (fun b => match b with BLabel n => [n] | _ => [] end) o.
