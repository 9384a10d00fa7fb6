(** Model of .SWITCH / .CASE / .DEFAULT / .BREAK / .ENDSWITCH (hll.c).

    [compile] follows the directives between .SWITCH and .ENDSWITCH and gives
    the lines of the body, the list of case values with their labels and the
    labels of .DEFAULT and of the exit.  [gen] is .ENDSWITCH: it sorts the
    cases, chooses how to dispatch and writes the tables (as lines of text,
    with their commas) and the instructions.  [run] executes these
    instructions.

    Simplifications.  The labels LTOP, LJUMP, LSKIP and LCONT are constructors,
    not numbers.  Texts of labels have four hexadecimal digits (numbers below
    10000h).  Instructions are data, not text; what the assembler does with
    the numbers in them is [imm64].  Only the last pass is modelled (the
    instructions left out while Parse_Pass is 0 are there).  The value of the
    switch is in EAX/RAX already (hll.c 1563-1612 load it).  int arithmetic
    which overflows wraps. *)
From Coq Require Import ZArith List Bool Lia.
From Verif Require Import Base.
Import ListNotations.
Open Scope Z_scope.

(** ** The body: hll.c 2880-3035 (HllExitDir) *)

(** A line between .SWITCH and .ENDSWITCH: [ICode id k] is a block of other
    lines that uses up [k] label numbers; [IBreakIf id] is ".BREAK .IF cond". *)
Inductive item :=
| ICase (vs : list Z)
| IDefault
| IBreak
| IBreakIf (id : Z)
| ICode (id : Z) (k : Z).

(** What is written for it: a label, a jump to the exit label (conditional or
    not), or the block itself. *)
Inductive bline :=
| BLabel (n : Z)
| BExit
| BExitIf (id : Z)
| BCode (id : Z).

(** The fields of struct hll_item used by .CASE (hll.c 124-153) and
    ModuleInfo.hll_label. *)
Record bst := {
  b_cnt : Z;               (* ModuleInfo.hll_label *)
  b_brk : bool;            (* breakoccured *)
  b_saved : Z;             (* savedlab, uint_16 *)
  b_multi : Z;             (* multicase *)
  b_cases : list (Z * Z);  (* pcases / plabels, in the order of the source *)
  b_def : option Z;        (* labels[LDEF], HLLF_DEFAULTOCCURED *)
  b_out : list bline
}.

(** .SWITCH, hll.c 1538-1556: eight labels, the third of them is the exit. *)
Definition start (cnt : Z) : bst :=
  {| b_cnt := cnt + 8; b_brk := true; b_saved := 0; b_multi := 0;
     b_cases := []; b_def := None; b_out := [] |}.

Definition exit_label (cnt : Z) : Z := cnt + 3.

(** The value stored: opndx.value (an int) or opndx.value64, hll.c 3009-3024. *)
Definition case_value (c8 : bool) (v : Z) : Z :=
  if c8 then swrap 64 v else swrap 32 v.

(** hll.c 2942-2947: a new label, unless no .BREAK occurred since the last. *)
Definition new_label (s : bst) : bst :=
  if b_brk s then
    {| b_cnt := b_cnt s + 1; b_brk := false; b_saved := (b_cnt s + 1) mod 65536;
       b_multi := b_multi s; b_cases := b_cases s; b_def := b_def s;
       b_out := b_out s ++ [BLabel (b_cnt s + 1)] |}
  else s.

(** One value of .CASE, hll.c 2941-3030. *)
Definition one_case (c8 : bool) (s : bst) (v : Z) : res bst :=
  let s := new_label s in
  let x := case_value c8 v in
  if existsb (fun c => fst c =? x) (b_cases s) then Err
  else Ok {| b_cnt := b_cnt s; b_brk := b_brk s; b_saved := b_saved s;
             b_multi := b_multi s; b_cases := b_cases s ++ [(x, b_saved s)];
             b_def := b_def s; b_out := b_out s |}.

Fixpoint case_values (c8 : bool) (s : bst) (vs : list Z) : res bst :=
  match vs with
  | [] => Ok s
  | v :: r => match one_case c8 s v with
              | Ok s' => case_values c8 s' r
              | e => e
              end
  end.

(** OPTION SWITCHSTYLE:ASMSTYLE, hll.c 2910-2939: .CASE first leaves the
    previous case, unless it continues a group of .CASE lines.  [next] tells
    whether the next line is a .CASE as well. *)
Definition asm_case (next : bool) (s : bst) : bst :=
  let mk brk multi out :=
    {| b_cnt := b_cnt s; b_brk := brk; b_saved := b_saved s; b_multi := multi;
       b_cases := b_cases s; b_def := b_def s; b_out := out |} in
  if next then
    if b_multi s =? 0 then mk true (b_multi s + 1) (b_out s ++ [BExit])
    else mk false (b_multi s + 1) (b_out s)
  else
    if 1 <=? b_multi s then mk true 0 (b_out s)
    else mk true (b_multi s) (b_out s ++ [BExit]).

(** .DEFAULT, hll.c 2883-2902. *)
Definition default (asm : bool) (s : bst) : res bst :=
  match b_def s with
  | Some _ => Err
  | None =>
      let leave := asm && negb (match b_cases s with [] => true | _ => false end) in
      Ok {| b_cnt := b_cnt s + 1; b_brk := b_brk s || leave; b_saved := b_saved s;
            b_multi := b_multi s; b_cases := b_cases s;
            b_def := Some (b_cnt s + 1);
            b_out := b_out s ++ (if leave then [BExit] else [])
                             ++ [BLabel (b_cnt s + 1)] |}
  end.

Definition is_case (i : item) : bool := match i with ICase _ => true | _ => false end.

Definition one_item (asm c8 : bool) (s : bst) (i : item) (next : bool) : res bst :=
  match i with
  | ICase [] => Err                      (* MISSING_OPERATOR_IN_EXPRESSION, hll.c 2969 *)
  | ICase vs => case_values c8 (if asm then asm_case next s else s) vs
  | IDefault => default asm s
  | IBreak =>                            (* hll.c 3066-3112 *)
      Ok {| b_cnt := b_cnt s; b_brk := true; b_saved := b_saved s;
            b_multi := b_multi s; b_cases := b_cases s; b_def := b_def s;
            b_out := b_out s ++ [BExit] |}
  | IBreakIf id =>                       (* hll.c 3097-3108 *)
      Ok {| b_cnt := b_cnt s; b_brk := true; b_saved := b_saved s;
            b_multi := b_multi s; b_cases := b_cases s; b_def := b_def s;
            b_out := b_out s ++ [BExitIf id] |}
  | ICode id k =>
      Ok {| b_cnt := b_cnt s + k; b_brk := b_brk s; b_saved := b_saved s;
            b_multi := b_multi s; b_cases := b_cases s; b_def := b_def s;
            b_out := b_out s ++ [BCode id] |}
  end.

Fixpoint items (asm c8 : bool) (s : bst) (l : list item) : res bst :=
  match l with
  | [] => Ok s
  | i :: r =>
      match one_item asm c8 s i (match r with j :: _ => is_case j | [] => false end) with
      | Ok s' => items asm c8 s' r
      | e => e
      end
  end.

(** .ENDSWITCH, hll.c 1887-1895: in the assembler style the last case is left;
    a label is written if there was no .DEFAULT. *)
Definition finish (asm : bool) (s : bst) : list bline :=
  b_out s ++ (if asm then [BExit] else [])
          ++ (match b_def s with Some _ => [] | None => [BLabel (b_cnt s + 1)] end).

(** Where to go if no case matches (hll.c 1963-1966 and at all other places). *)
Definition otherwise (cnt : Z) (s : bst) : Z :=
  match b_def s with Some d => d | None => exit_label cnt end.

(** ** Sorting and choosing: hll.c 326-381, 1896-1932 *)

(** The inner loop of bubblesort: [x] is src[i], the list src[i+1..n-1]. *)
Fixpoint sink (x : Z * Z) (l : list (Z * Z)) : (Z * Z) * list (Z * Z) :=
  match l with
  | [] => (x, [])
  | y :: r =>
      if fst y <? fst x then let (m, r') := sink y r in (m, x :: r')
      else let (m, r') := sink x r in (m, y :: r')
  end.

(** bubblesort / bubblesort64; the fuel is the number of elements. *)
Fixpoint xsort (n : nat) (l : list (Z * Z)) : list (Z * Z) :=
  match n, l with
  | S k, x :: r => let (m, r') := sink x r in m :: xsort k r'
  | _, _ => l
  end.

Record swi := {
  s_64 : bool;            (* ModuleInfo.Ofssize == USE64 *)
  s_8 : bool;             (* csize == 8 *)
  s_size : Z;             (* swsize, hll.c 1861-1864 *)
  s_radix : Z;            (* ModuleInfo.radix *)
  s_stale : bool;         (* the item was used by an earlier .SWITCH *)
  s_def : Z               (* labels[LDEF] or labels[LEXIT] *)
}.

Definition mincase (l : list (Z * Z)) : Z := match l with c :: _ => fst c | [] => 0 end.
Definition maxcase (l : list (Z * Z)) : Z := fst (last l (0, 0)).

(** hll.c 1899-1931; [l] is sorted if there are more than three cases. *)
Definition choose (w : swi) (l : list (Z * Z)) : Z :=
  let n := zlen l in
  if n <=? 3 then n
  else if negb (s_64 w) || negb (s_8 w) then
    let delta := swrap 32 (maxcase l - mincase l) in
    if swrap 32 (delta * 4) <=? n * 4 + n * 2 then 6
    else if delta <? 256 then 4
    else if delta <? s_size w then 7
    else 5
  else
    let delta := (maxcase l - mincase l) mod 2 ^ 64 in
    if (delta * 8) mod 2 ^ 64 <=? n * 8 + n * 2 then 6
    else if delta <? 256 then 4
    else if delta <? s_size w then 7
    else 5.

(** ** The tables: hll.c 1934-2334 *)

(** The text behind dd/dq/db/dw, as commas, labels and numbers. *)
Inductive tok := TC | TL (l : Z) | TN (n : Z).

(** The buffer: whether it begins with the name of the table, and the text. *)
Record buf := { u_first : bool; u_txt : list tok; u_lines : list (list tok) }.

Definition put (u : buf) (t : list tok) : buf :=
  {| u_first := u_first u; u_txt := u_txt u ++ t; u_lines := u_lines u |}.

(** "if (buffer[4] == ',') buffer[4] = ' '": buffer[4] is the begin of the text
    behind " dd " in all lines but the first. *)
Definition fix4 (u : buf) : buf :=
  {| u_first := u_first u;
     u_txt := match u_first u, u_txt u with
              | false, TC :: r => r
              | _, t => t
              end;
     u_lines := u_lines u |}.

(** "... else if (buffer[10] == ',') buffer[10] = ' '": the begin of the text
    behind "@C0006 dd " in the first line; in the others the place behind a
    label at the begin. *)
Definition fix10 (u : buf) : buf :=
  {| u_first := u_first u;
     u_txt := match u_first u, u_txt u with
              | _, TC :: r => r
              | false, TL l :: TC :: r => TL l :: r
              | _, t => t
              end;
     u_lines := u_lines u |}.

(** AddLineQueue(buffer); memset; strcpy( buffer, " dd " ). *)
Definition flush (u : buf) : buf :=
  {| u_first := false; u_txt := []; u_lines := u_lines u ++ [u_txt u] |}.

Definition fresh : buf := {| u_first := true; u_txt := []; u_lines := [] |}.

(** The jump table for the methods 4 and 7, hll.c 1948-1964: equal labels in
    sequence are written once; [acnt] counts those written. *)
Fixpoint lab_loop (ls : list Z) (dcnt lbl acnt : Z) (u : buf) : Z * Z * buf :=
  match ls with
  | [] => (dcnt, acnt, u)
  | l :: r =>
      let '(dcnt, u) := if 75 <=? dcnt then (0, flush u) else (dcnt, u) in
      if l =? lbl then lab_loop r (dcnt + 1) l acnt u
      else lab_loop r (dcnt + 1) l (acnt + 1)
             (put u ((if dcnt =? 0 then [] else [TC]) ++ [TL l]))
  end.

(** hll.c 1937-1975. *)
Definition lab_table (def : Z) (ls : list Z) : Z * list (list tok) :=
  let '(dcnt, acnt, u) := lab_loop ls 0 0 0 fresh in
  let u := if negb (dcnt =? 0) && (dcnt <? 75) then put u [TC; TL def] else u in
  (acnt, u_lines u ++ [u_txt u]).

(** The gap before a case, hll.c 1999-2016 and 2116-2133: [k] numbers. *)
Fixpoint gap (k : nat) (acnt dcnt : Z) (u : buf) : Z * buf :=
  match k with
  | O => (dcnt, u)
  | S k =>
      let u := put u (if dcnt =? 0 then [TN acnt] else [TC; TN acnt]) in
      let dcnt := dcnt + 1 in
      if 75 <=? dcnt then gap k acnt 0 (flush (fix4 u)) else gap k acnt dcnt u
  end.

(** temp, the place of a case in the table: hll.c 1991-1997 and 2109-2115. *)
Definition place (w : swi) (byte : bool) (min v : Z) : Z :=
  if negb (s_64 w) || negb (s_8 w) then swrap 32 (v - min)
  else if byte then swrap 64 (swrap 32 v - min) else swrap 64 (v - min).

(** The count table for the methods 4 and 7, hll.c 1983-2027 and 2100-2144. *)
Fixpoint num_loop (w : swi) (byte : bool) (min : Z) (cs : list (Z * Z))
         (n dcnt acnt bcnt : Z) (u : buf) : Z * buf :=
  match cs with
  | [] => (bcnt, u)
  | (v, l) :: r =>
      let '(dcnt, u) := if 75 <=? dcnt then (0, flush (fix4 u)) else (dcnt, u) in
      let temp := place w byte min v in
      let k := Z.to_nat (temp - n) in
      let '(dcnt, u) := gap k acnt dcnt u in
      let n := n + Z.of_nat k in
      let u := put u (if n =? 0 then [TN bcnt] else [TC; TN bcnt]) in
      let next := match r with (_, m) :: _ => if l =? m then bcnt else bcnt + 1 | [] => bcnt end in
      num_loop w byte min r (n + 1) (dcnt + 1) acnt next u
  end.

(** Method 7 writes the last number twice, hll.c 2146. *)
Definition num_table (w : swi) (byte : bool) (acnt : Z) (cs : list (Z * Z)) : list (list tok) :=
  let '(bcnt, u) := num_loop w byte (mincase cs) cs 0 0 acnt 0 fresh in
  let u := fix4 u in
  let u := if byte then u else put u [TC; TN bcnt] in
  u_lines u ++ [u_txt u].

(** Method 5, hll.c 2030-2063 (labels, 15 in a line) and 2069-2096 (values,
    30 in a line). *)
Fixpoint row_loop (max : Z) (ts : list tok) (dcnt : Z) (u : buf) : buf :=
  match ts with
  | [] => u
  | t :: r =>
      let '(dcnt, u) := if max <=? dcnt then (0, flush (fix4 u)) else (dcnt, u) in
      row_loop max r (dcnt + 1) (put u (if dcnt =? 0 then [t] else [TC; t]))
  end.

Definition row_table (max : Z) (ts : list tok) : list (list tok) :=
  let u := fix4 (row_loop max ts 0 fresh) in u_lines u ++ [u_txt u].

(** "%d" shows the low 32 bits of a value of 64 bits, hll.c 2089-2091. *)
Definition shown (w : swi) (v : Z) : Z :=
  if s_64 w && s_8 w then swrap 32 v else v.

(** Method 6, hll.c 2159-2237 (USE32) and 2240-2329 (USE64): the gap *)
Fixpoint gap6 (is64 : bool) (k : nat) (def dcnt : Z) (u : buf) : Z * buf :=
  match k with
  | O => (dcnt, u)
  | S k =>
      let u := put u [TC; TL def] in
      if is64 then
        if dcnt <=? 75 then gap6 is64 k def (dcnt + 2) u
        else gap6 is64 k def 1 (flush (fix10 u))
      else
        if dcnt <? 75 then gap6 is64 k def (dcnt + 1) u
        else gap6 is64 k def 1 (flush (fix10 u))
  end.

Definition room6 (is64 : bool) (dcnt : Z) : bool :=
  if is64 then dcnt <=? 75 else dcnt <? 75.

(** ... and the cases. *)
Fixpoint jump_loop (w : swi) (min : Z) (cs : list (Z * Z)) (n dcnt : Z) (u : buf) : Z * buf :=
  match cs with
  | [] => (dcnt, u)
  | (v, l) :: r =>
      let '(dcnt, u) := if 75 <=? dcnt then (0, flush (fix10 u)) else (dcnt, u) in
      let temp := place w false min v in
      let k := Z.to_nat (temp - n) in
      let '(dcnt, u) := gap6 (s_64 w) k (s_def w) dcnt u in
      let n := n + Z.of_nat k in
      if room6 (s_64 w) dcnt then
        jump_loop w min r (n + 1) (dcnt + 1) (put u [TC; TL l])
      else jump_loop w min r (n + 1) 1 (flush (fix10 u))
  end.

(** hll.c 2211-2237 and 2303-2328. *)
Definition jump_table (w : swi) (cs : list (Z * Z)) : list (list tok) :=
  let '(dcnt, u) := jump_loop w (mincase cs) cs 0 0 fresh in
  let u := put u [TC; TL (s_def w)] in
  let u := if room6 (s_64 w) dcnt then u else flush (fix10 u) in
  let u := fix10 u in
  if negb (s_64 w) && negb (u_first u) && (match u_txt u with [] => true | _ => false end)
  then u_lines u
  else u_lines u ++ [u_txt u].

(** ** How the assembler reads the lines *)

(** Values separated by commas; a dd without a value or with a comma in the
    wrong place is an error. *)
Fixpoint read_line (need : bool) (t : list tok) : res (list tok) :=
  match t with
  | [] => if need then Err else Ok []
  | TC :: r => if need then Err else read_line true r
  | x :: r => if need then bindr (read_line false r) (fun l => Ok (x :: l)) else Err
  end.

Fixpoint read_lines (ls : list (list tok)) : res (list tok) :=
  match ls with
  | [] => Ok []
  | l :: r => bindr (read_line true l) (fun a => bindr (read_lines r) (fun b => Ok (a ++ b)))
  end.

(** A number without suffix is read with the current radix (tokenize.c
    882-908); sprintf has written it with base 10. *)
Fixpoint digits (fuel : nat) (radix n : Z) : res Z :=
  match fuel with
  | O => Err
  | S k =>
      if radix <=? n mod 10 then Err
      else if n <? 10 then Ok n
      else bindr (digits k radix (n / 10)) (fun h => Ok (h * radix + n mod 10))
  end.

Definition read_num (radix n : Z) : res Z :=
  if n <? 0 then bindr (digits 20 radix (- n)) (fun m => Ok (- m))
  else digits 20 radix n.

(** A table of labels, and a table of numbers with [es] bytes each (a number
    which does not fit is refused). *)
Fixpoint as_labels (ts : list tok) : res (list Z) :=
  match ts with
  | [] => Ok []
  | TL l :: r => bindr (as_labels r) (fun t => Ok (l :: t))
  | _ => Err
  end.

Fixpoint as_numbers (radix es : Z) (ts : list tok) : res (list Z) :=
  match ts with
  | [] => Ok []
  | TN n :: r =>
      bindr (read_num radix n) (fun m =>
      if (- 2 ^ (8 * es - 1) <=? m) && (m <? 2 ^ (8 * es))
      then bindr (as_numbers radix es r) (fun t => Ok (m mod 2 ^ (8 * es) :: t))
      else Err)
  | _ => Err
  end.

(** ** The instructions *)

Inductive reg := RA | RB | RC | RD | RSI | RDI | R10.

Inductive tgt := Lb (n : Z) | LTop | LJump | LSkip | LCont.

Inductive cc := CE | CL | CG | CGE | CLE | CS.

(** An address: a table (1: LDATA1, 2: LDATA2), a base, a scaled index and a
    displacement. *)
Record adr := {
  a_tab : Z;
  a_base : option reg;
  a_idx : option (reg * Z);
  a_disp : Z
}.

Inductive ins :=
| ICmpI (sz : Z) (r : reg) (v : Z)
| ICmpR (sz : Z) (r q : reg)
| ICmpM (sz : Z) (a : adr) (r : reg)
| IJcc (c : cc) (t : tgt)
| IJmp (t : tgt)
| IJmpM (sz : Z) (a : adr)
| IJmpR (r : reg)
| IMovR (sz : Z) (r q : reg)
| IMovI (sz : Z) (r : reg) (v : Z)
| IMovM (sz : Z) (r : reg) (a : adr)
| IMovzx (r : reg) (sz : Z) (a : adr)
| IXor (r : reg)
| ISubI (sz : Z) (r : reg) (v : Z)
| ISubR (sz : Z) (r q : reg)
| ISar (sz : Z) (r : reg)
| ILea (sz : Z) (r : reg) (a : adr)
| ICdq
| ICdqe
| IPush (r : reg)
| IPop (r : reg)
| IXchgSp (r : reg)
| IRet
| ILabel (t : tgt).

(** The number of cmp/sub with a register of 64 bits: parser.c 974-984 refuses
    what is above 0FFFFFFFFh and keeps the low 32 bits, which the processor
    extends with their sign. *)
Definition imm64 (v : Z) : res Z := if 2 ^ 32 <=? v then Err else Ok (swrap 32 v).

Definition at_tab (t : Z) (i : option (reg * Z)) : adr :=
  {| a_tab := t; a_base := None; a_idx := i; a_disp := 0 |}.
Definition at_reg (b : reg) (i : option (reg * Z)) (d : Z) : adr :=
  {| a_tab := 0; a_base := Some b; a_idx := i; a_disp := d |}.

(** Methods 1-3, hll.c 2335-2406. *)
Fixpoint chain (w : swi) (cs : list (Z * Z)) : res (list ins) :=
  match cs with
  | [] => Ok [IJmp (Lb (s_def w))]
  | (v, l) :: r =>
      bindr (if s_8 w then imm64 v else Ok v) (fun v' =>
      bindr (chain w r) (fun t =>
      Ok (ICmpI (if s_8 w then 64 else 32) RA v' :: IJcc CE (Lb l) :: t)))
  end.

(** The test of the range, hll.c 2414-2427, 2464-2477 and 2513-2526. *)
Definition range (w : swi) (min max : Z) : res (list ins) :=
  let sz := if s_8 w then 64 else 32 in
  bindr (if s_8 w then imm64 min else Ok min) (fun lo =>
  bindr (if s_8 w then imm64 max else Ok max) (fun hi =>
  Ok [ICmpI sz RA lo; IJcc CL (Lb (s_def w)); ICmpI sz RA hi; IJcc CG (Lb (s_def w))])).

(** "if (hll->mincase) sub eax,mincase" *)
Definition sub_min (w : swi) (min : Z) : res (list ins) :=
  if min =? 0 then Ok []
  else if s_8 w then bindr (imm64 min) (fun m => Ok [ISubI 64 RA m])
  else Ok [ISubI 32 RA min].

(** Method 4, hll.c 2428-2457. *)
Definition code4 (w : swi) (min : Z) : res (list ins) :=
  if s_64 w then
    Ok ([IPush R10; ILea 64 R10 (at_tab 2 None)]
        ++ (if s_8 w then [] else [ICdqe])
        ++ [IMovzx R10 8 (at_reg R10 (Some (RA, 1)) (- min));
            ILea 64 RA (at_tab 1 None);
            IMovM 64 RA (at_reg RA (Some (R10, 8)) 0);
            IPop R10; IJmpR RA])
  else
    Ok [IMovzx RA 8 {| a_tab := 2; a_base := Some RA; a_idx := None; a_disp := - min |};
        IJmpM 32 (at_tab 1 (Some (RA, 4)))].

(** Method 7, hll.c 2478-2506. *)
Definition code7 (w : swi) (min : Z) : res (list ins) :=
  bindr (sub_min w min) (fun sub =>
  if s_64 w then
    Ok ([IPush R10; ILea 64 R10 (at_tab 2 None)] ++ sub
        ++ [IMovzx R10 16 (at_reg R10 (Some (RA, 2)) 0);
            ILea 64 RA (at_tab 1 None);
            IMovM 64 RA (at_reg RA (Some (R10, 8)) 0);
            IPop R10; IJmpR RA])
  else
    Ok (sub ++ [IMovzx RA 16 (at_tab 2 (Some (RA, 2)));
                IJmpM 32 (at_tab 1 (Some (RA, 4)))])).

(** Method 6, hll.c 2527-2557. *)
Definition code6 (w : swi) (min : Z) : res (list ins) :=
  bindr (sub_min w min) (fun sub =>
  if s_64 w then
    Ok (sub ++ [IPush R10; ILea 64 R10 (at_tab 1 None);
                IMovM 64 RA (at_reg R10 (Some (RA, 8)) 0);
                IPop R10; IJmpR RA])
  else Ok (sub ++ [IJmpM 32 (at_tab 1 (Some (RA, 4)))])).

(** Method 5, hll.c 2568-2724. *)
Definition code5 (w : swi) (n : Z) : list ins :=
  let def := Lb (s_def w) in
  if s_64 w then
    let sz := if s_8 w then 64 else 32 in
    [IPush RA; IPush RC; IPush RB; IPush RSI; IPush RDI;
     IMovR sz RSI RA; IMovI sz RB (n - 1); IXor RC; ILea 64 RDI (at_tab 2 None);
     IJcc CS def;
     ILabel LTop;
     ILea sz RA (at_reg RC (Some (RB, 1)) 0);
     ISar 64 RA;
     ICmpM sz (at_reg RDI (Some (RA, if s_8 w then 8 else 4)) 0) RSI;
     IJcc CE LJump; IJcc CGE LSkip;
     ILea sz RC (at_reg RA None 1);
     IJmp LCont;
     ILabel LJump;
     IPop RDI; IPop RSI; IPop RB;
     ILea 64 RC (at_tab 1 None);
     IMovM 64 RA (at_reg RC (Some (RA, 8)) 0);
     IPop RC; IXchgSp RA; IRet;
     ILabel LSkip;
     ILea sz RB (at_reg RA None (-1));
     ILabel LCont;
     ICmpR sz RC RB; IJcc CLE LTop;
     IPop RDI; IPop RSI; IPop RB; IPop RC; IPop RA;
     IJmp def]
  else
    [IPush RA; IPush RD; IPush RC; IPush RB; IPush RSI; IPush RDI;
     IMovR 32 RSI RA; IMovI 32 RB (n - 1); IXor RC; ILea 32 RDI (at_tab 2 None);
     IJcc CS def;
     ILabel LTop;
     ILea 32 RA (at_reg RC (Some (RB, 1)) 0);
     ICdq; ISubR 32 RA RD; ISar 32 RA;
     ICmpM 32 (at_reg RDI (Some (RA, 4)) 0) RSI;
     IJcc CE LJump; IJcc CGE LSkip;
     ILea 32 RC (at_reg RA None 1);
     IJmp LCont;
     ILabel LJump;
     IPop RDI; IPop RSI; IPop RB; IPop RC; IPop RD;
     IMovM 32 RA (at_tab 1 (Some (RA, 4)));
     IXchgSp RA; IRet;
     ILabel LSkip;
     ILea 32 RB (at_reg RA None (-1));
     ILabel LCont;
     ICmpR 32 RC RB; IJcc CLE LTop;
     IPop RDI; IPop RSI; IPop RB; IPop RC; IPop RD; IPop RA;
     IJmp def].

(** What .ENDSWITCH leaves: the instructions, the table LDATA1, the table
    LDATA2 and the size of its elements. *)
Record out := { o_code : list ins; o_t1 : list Z; o_t2 : list Z; o_es : Z }.

Definition labels_of (ls : list (list tok)) : res (list Z) :=
  bindr (read_lines ls) as_labels.
Definition numbers_of (w : swi) (es : Z) (ls : list (list tok)) : res (list Z) :=
  bindr (read_lines ls) (as_numbers (s_radix w) es).

(** .ENDSWITCH, hll.c 1876-2739.  Without a case nothing is written; but an
    item that was used before still has plabels and cflag (hll.c 1554 does not
    reset them), and src[-1] is read (hll.c 350). *)
Definition gen (w : swi) (cases : list (Z * Z)) : res out :=
  match cases with
  | [] => if s_stale w then UB else Ok {| o_code := []; o_t1 := []; o_t2 := []; o_es := 1 |}
  | _ =>
      let n := zlen cases in
      let cs := if n <=? 3 then cases else xsort (length cases) cases in
      let min := mincase cs in
      let max := maxcase cs in
      let m := choose w cs in
      if m <=? 3 then
        bindr (chain w cs) (fun c =>
        Ok {| o_code := c; o_t1 := []; o_t2 := []; o_es := 1 |})
      else if m =? 5 then
        let es := if s_64 w && s_8 w then 8 else 4 in
        bindr (labels_of (row_table 15 (map (fun c => TL (snd c)) cs))) (fun t1 =>
        bindr (numbers_of w es (row_table 30 (map (fun c => TN (shown w (fst c))) cs))) (fun t2 =>
        Ok {| o_code := code5 w n; o_t1 := t1; o_t2 := t2; o_es := es |}))
      else
        bindr (range w min max) (fun rg =>
        if m =? 6 then
          bindr (labels_of (jump_table w cs)) (fun t1 =>
          bindr (code6 w min) (fun c =>
          Ok {| o_code := rg ++ c; o_t1 := t1; o_t2 := []; o_es := 1 |}))
        else
          let byte := m =? 4 in
          let '(acnt, ls) := lab_table (s_def w) (map snd cs) in
          let es := if byte then 1 else 2 in
          bindr (labels_of ls) (fun t1 =>
          bindr (numbers_of w es (num_table w byte acnt cs)) (fun t2 =>
          bindr (if byte then code4 w min else code7 w min) (fun c =>
          Ok {| o_code := rg ++ c; o_t1 := t1; o_t2 := t2; o_es := es |}))))
  end.

(** ** Executing the instructions *)

(** Registers, stack and flags: [f_e] ZF, [f_l] SF<>OF, [f_s] SF. *)
Record mst := { m_reg : reg -> Z; m_stk : list Z; f_e : bool; f_l : bool; f_s : bool }.

Definition reg_eqb (a b : reg) : bool :=
  match a, b with
  | RA, RA | RB, RB | RC, RC | RD, RD | RSI, RSI | RDI, RDI | R10, R10 => true
  | _, _ => false
  end.

Definition setr (s : mst) (r : reg) (v : Z) : mst :=
  {| m_reg := fun q => if reg_eqb q r then v else m_reg s q;
     m_stk := m_stk s; f_e := f_e s; f_l := f_l s; f_s := f_s s |}.
Definition sets (s : mst) (k : list Z) : mst :=
  {| m_reg := m_reg s; m_stk := k; f_e := f_e s; f_l := f_l s; f_s := f_s s |}.
Definition setf (s : mst) (e l g : bool) : mst :=
  {| m_reg := m_reg s; m_stk := m_stk s; f_e := e; f_l := l; f_s := g |}.

(** The flags of x - y. *)
Definition flags (sz : Z) (s : mst) (x y : Z) : mst :=
  setf s (x mod 2 ^ sz =? y mod 2 ^ sz) (swrap sz x <? swrap sz y)
       (swrap sz (x - y) <? 0).

Record env := {
  e_w : Z;               (* 32 or 64: addresses, pushes *)
  e_b1 : Z; e_b2 : Z;    (* where LDATA1 and LDATA2 are *)
  e_o : out
}.

(** A read from the table at [b] with elements of [es] bytes. *)
Definition look (b es : Z) (t : list Z) (a sz : Z) : option Z :=
  if (b <=? a) && (a <? b + es * zlen t) && ((a - b) mod es =? 0) && (sz =? 8 * es)
  then nth_error t (Z.to_nat ((a - b) / es)) else None.

Definition rd (e : env) (a sz : Z) : option Z :=
  match look (e_b1 e) (e_w e / 8) (o_t1 (e_o e)) a sz with
  | Some v => Some v
  | None => look (e_b2 e) (o_es (e_o e)) (o_t2 (e_o e)) a sz
  end.

Definition ea (e : env) (s : mst) (a : adr) : Z :=
  ((if a_tab a =? 1 then e_b1 e else if a_tab a =? 2 then e_b2 e else 0)
   + (match a_base a with Some r => m_reg s r | None => 0 end)
   + (match a_idx a with Some (r, k) => m_reg s r * k | None => 0 end)
   + a_disp a) mod 2 ^ e_w e.

Inductive act := Next (s : mst) | Go (t : tgt) (s : mst) | Bad.

Definition holds (c : cc) (s : mst) : bool :=
  match c with
  | CE => f_e s
  | CL => f_l s
  | CG => negb (f_l s || f_e s)
  | CGE => negb (f_l s)
  | CLE => f_l s || f_e s
  | CS => f_s s
  end.

Definition step (e : env) (i : ins) (s : mst) : act :=
  match i with
  | ICmpI sz r v => Next (flags sz s (m_reg s r) v)
  | ICmpR sz r q => Next (flags sz s (m_reg s r) (m_reg s q))
  | ICmpM sz a r =>
      match rd e (ea e s a) sz with
      | Some v => Next (flags sz s v (m_reg s r))
      | None => Bad
      end
  | IJcc c t => if holds c s then Go t s else Next s
  | IJmp t => Go t s
  | IJmpM sz a => match rd e (ea e s a) sz with Some v => Go (Lb v) s | None => Bad end
  | IJmpR r => Go (Lb (m_reg s r)) s
  | IMovR sz r q => Next (setr s r (m_reg s q mod 2 ^ sz))
  | IMovI sz r v => Next (setr s r (v mod 2 ^ sz))
  | IMovM sz r a => match rd e (ea e s a) sz with Some v => Next (setr s r v) | None => Bad end
  | IMovzx r sz a => match rd e (ea e s a) sz with Some v => Next (setr s r v) | None => Bad end
  | IXor r => Next (setf (setr s r 0) true false false)
  | ISubI sz r v => Next (setr (flags sz s (m_reg s r) v) r ((m_reg s r - v) mod 2 ^ sz))
  | ISubR sz r q =>
      Next (setr (flags sz s (m_reg s r) (m_reg s q)) r ((m_reg s r - m_reg s q) mod 2 ^ sz))
  | ISar sz r =>
      let v := (swrap sz (m_reg s r) / 2) mod 2 ^ sz in
      Next (setr (setf s (v =? 0) (swrap sz v <? 0) (swrap sz v <? 0)) r v)
  | ILea sz r a => Next (setr s r (ea e s a mod 2 ^ sz))
  | ICdq => Next (setr s RD (if swrap 32 (m_reg s RA) <? 0 then 2 ^ 32 - 1 else 0))
  | ICdqe => Next (setr s RA (swrap 32 (m_reg s RA) mod 2 ^ 64))
  | IPush r => Next (sets s (m_reg s r :: m_stk s))
  | IPop r => match m_stk s with v :: k => Next (setr (sets s k) r v) | [] => Bad end
  | IXchgSp r =>
      match m_stk s with v :: k => Next (setr (sets s (m_reg s r :: k)) r v) | [] => Bad end
  | IRet => match m_stk s with v :: k => Go (Lb v) (sets s k) | [] => Bad end
  | ILabel _ => Next s
  end.

Definition tgt_eqb (a b : tgt) : bool :=
  match a, b with
  | LTop, LTop | LJump, LJump | LSkip, LSkip | LCont, LCont => true
  | _, _ => false
  end.

(** The place of one of the four labels inside the code. *)
Fixpoint find (t : tgt) (p : list ins) : option nat :=
  match p with
  | [] => None
  | ILabel u :: r => if tgt_eqb t u then Some O else option_map S (find t r)
  | _ :: r => option_map S (find t r)
  end.

Inductive fin :=
| Reach (t : Z) (s : mst)   (* a label of the body, or the exit label *)
| Wild                      (* a read or a jump outside of the tables *)
| Tired.

(** The exit label is behind the last instruction (hll.c 2823-2825). *)
Fixpoint run (fuel : nat) (e : env) (exit : Z) (pc : nat) (s : mst) : fin :=
  match fuel with
  | O => Tired
  | S k =>
      match nth_error (o_code (e_o e)) pc with
      | None => Reach exit s
      | Some i =>
          match step e i s with
          | Next s' => run k e exit (S pc) s'
          | Bad => Wild
          | Go (Lb l) s' => Reach l s'
          | Go t s' =>
              match find t (o_code (e_o e)) with
              | Some pc' => run k e exit pc' s'
              | None => Wild
              end
          end
      end
  end.

(** ** Executing the body *)

(** What can be observed: a block, or a condition of .BREAK .IF. *)
Inductive event := EvCode (id : Z) | EvTest (id : Z).

(** The end of a run through the body: the exit label, or the code of the
    dispatch, which stands behind the body. *)
Inductive stop := AtExit (t : list event) | AtDispatch (t : list event).

Definition before (e : event) (s : stop) : stop :=
  match s with AtExit t => AtExit (e :: t) | AtDispatch t => AtDispatch (e :: t) end.

Fixpoint body (cond : Z -> bool) (b : list bline) : stop :=
  match b with
  | [] => AtDispatch []
  | BLabel _ :: r => body cond r
  | BExit :: _ => AtExit []
  | BExitIf id :: r => before (EvTest id) (if cond id then AtExit [] else body cond r)
  | BCode id :: r => before (EvCode id) (body cond r)
  end.

(** A jump to a label of the body. *)
Fixpoint from (l : Z) (b : list bline) : option (list bline) :=
  match b with
  | [] => None
  | BLabel n :: r => if n =? l then Some r else from l r
  | _ :: r => from l r
  end.

(** A switch in a program: what [compile] gives. *)
Record prog := { p_body : list bline; p_cases : list (Z * Z); p_other : Z; p_exit : Z }.

Definition compile (asm c8 : bool) (cnt : Z) (l : list item) : res prog :=
  bindr (items asm c8 (start cnt) l) (fun s =>
  Ok {| p_body := finish asm s; p_cases := b_cases s;
        p_other := otherwise cnt s; p_exit := exit_label cnt |}).

(** What happens behind the dispatch. *)
Definition land (cond : Z -> bool) (p : prog) (l : Z) : option stop :=
  if l =? p_exit p then Some (AtExit [])
  else option_map (body cond) (from l (p_body p)).
