(** What branch instructions do, from the processor manual (Intel SDM vol. 2:
    CALL, JMP, Jcc, JCXZ, LOOPcc), and what the mnemonics promise.  Nothing
    here refers to how the assembler chooses an encoding. *)
From Verif Require Import Base.
From Verif Require Import Mem_Model.
From Verif Require Import Branch_Model.

Record machine := { CF : bool; ZF : bool; SF : bool; OF : bool; PF : bool; rcx : Z }.

Definition bits (m : ofssize) : Z := match m with USE16 => 16 | USE32 => 32 | USE64 => 64 end.

(** * The mnemonics *)
Definition cond (c : cc) (m : machine) : bool :=
  match c with
  | jA | jNBE => negb (CF m) && negb (ZF m)
  | jAE | jNB | jNC => negb (CF m)
  | jB | jNAE | jC => CF m
  | jBE | jNA => CF m || ZF m
  | jE | jZ => ZF m
  | jNE | jNZ => negb (ZF m)
  | jG | jNLE => negb (ZF m) && Bool.eqb (SF m) (OF m)
  | jGE | jNL => Bool.eqb (SF m) (OF m)
  | jL | jNGE => negb (Bool.eqb (SF m) (OF m))
  | jLE | jNG => ZF m || negb (Bool.eqb (SF m) (OF m))
  | jNO => negb (OF m)
  | jO => OF m
  | jNP | jPO => negb (PF m)
  | jP | jPE => PF m
  | jNS => negb (SF m)
  | jS => SF m
  end.
(** the counter is CX, ECX or RCX; writing ECX clears the upper half *)
Definition counter (w v : Z) : Z := v mod 2 ^ w.
Definition decrement (w v : Z) : Z :=
  if w =? 16 then v - v mod 2 ^ 16 + (v - 1) mod 2 ^ 16 else (v - 1) mod 2 ^ w.

Record result := { dest : Z; ret : option Z; pushed_cs : bool; count : Z }.

(** the width of the counter a mnemonic names *)
Definition width (mode : ofssize) (t : token) : Z :=
  match t with
  | JCXZ | LOOPW | LOOPEW | LOOPZW | LOOPNEW | LOOPNZW => 16
  | JECXZ | LOOPD | LOOPED | LOOPZD | LOOPNED | LOOPNZD => 32
  | JRCXZ => 64
  | _ => bits mode
  end.
(** what the source line promises: control reaches [target], or the next
    instruction at [next]; a far routine finds CS on the stack *)
Definition means (mode : ofssize) (t : token) (push_cs : bool) (m : machine) (target next : Z) : result :=
  let w := width mode t in
  let go (b : bool) (v : Z) := {| dest := if b then target else next; ret := None; pushed_cs := false; count := v |} in
  let again := negb (counter w (decrement w (rcx m)) =? 0) in
  match t with
  | JMP => go true (rcx m)
  | CALL => {| dest := target; ret := Some next; pushed_cs := push_cs; count := rcx m |}
  | JCC c => go (cond c m) (rcx m)
  | JCXZ | JECXZ | JRCXZ => go (counter w (rcx m) =? 0) (rcx m)
  | LOOP | LOOPD | LOOPW => go again (decrement w (rcx m))
  | LOOPE | LOOPZ | LOOPED | LOOPZD | LOOPEW | LOOPZW => go (again && ZF m) (decrement w (rcx m))
  | LOOPNE | LOOPNZ | LOOPNED | LOOPNZD | LOOPNEW | LOOPNZW => go (again && negb (ZF m)) (decrement w (rcx m))
  end.

(** * The processor *)
Inductive insn :=
| IPushCS
| IJmp (disp o : Z)
| ICall (disp o : Z)
| IJcc (n disp o : Z)
| ILoop (n a disp o : Z)          (* 0 LOOPNE, 1 LOOPE, 2 LOOP *)
| IJcxz (a disp o : Z)
| IFarJmp (sel off : Z)
| IFarCall (sel off : Z).

(** condition codes of opcodes 7x and 0F 8x *)
Definition cc_holds (n : Z) (m : machine) : bool :=
  let b := match n / 2 with
           | 0 => OF m | 1 => CF m | 2 => ZF m | 3 => CF m || ZF m | 4 => SF m | 5 => PF m
           | 6 => xorb (SF m) (OF m) | _ => ZF m || xorb (SF m) (OF m) end in
  if n mod 2 =? 0 then b else negb b.

(** operand size; a near branch with prefix 66 in 64-bit code is not portable
    between processors, so it has no meaning here *)
Definition opsize (mode : ofssize) (p66 : bool) : option Z :=
  match mode, p66 with USE16, false => Some 16 | USE16, true => Some 32 | USE32, false => Some 32 | USE32, true => Some 16
  | USE64, false => Some 64 | USE64, true => None end.
Definition addrsize (mode : ofssize) (p67 : bool) : Z :=
  match mode, p67 with USE16, false => 16 | USE16, true => 32 | USE32, false => 32 | USE32, true => 16 | USE64, false => 64 | USE64, true => 32 end.

(** a signed displacement of [n] bytes *)
Definition field (n : nat) (bs : list Z) : option (Z * list Z) :=
  if (length bs <? n)%nat then None else Some (swrap (8 * Z.of_nat n) (le_val (firstn n bs)), skipn n bs).
(** an unsigned number of [n] bytes *)
Definition number (n : nat) (bs : list Z) : option (Z * list Z) :=
  if (length bs <? n)%nat then None else Some (le_val (firstn n bs), skipn n bs).
Definition rel8 (f : Z -> Z -> insn) (o : option Z) (bs : list Z) : option (insn * list Z) :=
  match o, field 1 bs with Some o, Some (d, r) => Some (f d o, r) | _, _ => None end.
Definition rel (f : Z -> Z -> insn) (o : option Z) (bs : list Z) : option (insn * list Z) :=
  match o with
  | None => None
  | Some o => match field (if o =? 16 then 2 else 4) bs with Some (d, r) => Some (f d o, r) | None => None end
  end.
Definition far (f : Z -> Z -> insn) (mode : ofssize) (o : option Z) (bs : list Z) : option (insn * list Z) :=
  match mode, o with
  | USE64, _ | _, None => None
  | _, Some o =>
    match number (if o =? 16 then 2 else 4) bs with
    | Some (off, r) => match number 2 r with Some (sel, r) => Some (f sel off, r) | None => None end
    | None => None
    end
  end.
Fixpoint decode (mode : ofssize) (p66 p67 : bool) (bs : list Z) : option (insn * list Z) :=
  match bs with
  | [] => None
  | b :: r =>
    let o := opsize mode p66 in
    let a := addrsize mode p67 in
    if b =? 0x66 then decode mode true p67 r
    else if b =? 0x67 then decode mode p66 true r
    else if b =? 0xF2 then decode mode p66 p67 r
    else if b =? 0x0E then match mode with USE64 => None | _ => Some (IPushCS, r) end
    else if b =? 0x0F then
      match r with
      | c :: r => if (0x80 <=? c) && (c <? 0x90) then rel (IJcc (c - 0x80)) o r else None
      | [] => None
      end
    else if (0x70 <=? b) && (b <? 0x80) then rel8 (IJcc (b - 0x70)) o r
    else if (0xE0 <=? b) && (b <? 0xE3) then rel8 (ILoop (b - 0xE0) a) o r
    else if b =? 0xE3 then rel8 (IJcxz a) o r
    else if b =? 0xE8 then rel ICall o r
    else if b =? 0xE9 then rel IJmp o r
    else if b =? 0xEB then rel8 IJmp o r
    else if b =? 0xEA then far IFarJmp mode o r
    else if b =? 0x9A then far IFarCall mode o r
    else None
  end.

(** execute the bytes [code] at address [ip] until control leaves them by a
    jump or by running off the end; [sel] is the selector of a far jump *)
Fixpoint run (fuel : nat) (mode : ofssize) (m : machine) (ip : Z) (code : list Z) (cs : bool) : option (result * option Z) :=
  match fuel with
  | O => None
  | S fuel =>
    match code with
    | [] => Some ({| dest := ip mod 2 ^ bits mode; ret := None; pushed_cs := cs; count := rcx m |}, None)
    | _ =>
      match decode mode false false code with
      | None => None
      | Some (i, rest) =>
        let next := ip + (zlen code - zlen rest) in
        let leave d := Some ({| dest := d; ret := None; pushed_cs := cs; count := rcx m |}, @None Z) in
        let m' a := {| CF := CF m; ZF := ZF m; SF := SF m; OF := OF m; PF := PF m; rcx := decrement a (rcx m) |} in
        match i with
        | IPushCS => run fuel mode m next rest true
        | IJmp d o => leave ((next + d) mod 2 ^ o)
        | ICall d o => Some ({| dest := (next + d) mod 2 ^ o; ret := Some (next mod 2 ^ o); pushed_cs := cs; count := rcx m |}, None)
        | IJcc n d o => if cc_holds n m then leave ((next + d) mod 2 ^ o) else run fuel mode m next rest cs
        | ILoop n a d o =>
            if negb (counter a (decrement a (rcx m)) =? 0) && (if n =? 0 then negb (ZF m) else if n =? 1 then ZF m else true)
            then Some ({| dest := (next + d) mod 2 ^ o; ret := None; pushed_cs := cs; count := decrement a (rcx m) |}, None)
            else run fuel mode (m' a) next rest cs
        | IJcxz a d o => if counter a (rcx m) =? 0 then leave ((next + d) mod 2 ^ o) else run fuel mode m next rest cs
        | IFarJmp sel off => Some ({| dest := off; ret := None; pushed_cs := cs; count := rcx m |}, Some sel)
        | IFarCall sel off => Some ({| dest := off; ret := Some next; pushed_cs := true; count := rcx m |}, Some sel)
        end
      end
    end
  end.

(** * Linking
    A relative fixup adds the distance from the end of the field to the symbol;
    a pointer fixup adds the symbol's offset and stores its selector. *)
Definition fix_size (f : fixtype) : Z := match f with FIX_RELOFF8 => 1 | FIX_RELOFF16 => 2 | FIX_RELOFF32 => 4 | FIX_PTR16 => 4 | FIX_PTR32 => 6 end.
Definition link (f : fixtype) (loc : Z) (d : list Z) (sel sym : Z) : list Z :=
  match f with
  | FIX_RELOFF8 => le_bytes 1 (le_val (firstn 1 d) + sym - (loc + 1)) ++ skipn 1 d
  | FIX_RELOFF16 => le_bytes 2 (le_val (firstn 2 d) + sym - (loc + 2)) ++ skipn 2 d
  | FIX_RELOFF32 => le_bytes 4 (le_val (firstn 4 d) + sym - (loc + 4)) ++ skipn 4 d
  | FIX_PTR16 => le_bytes 2 (le_val (firstn 2 d) + sym) ++ le_bytes 2 sel
  | FIX_PTR32 => le_bytes 4 (le_val (firstn 4 d) + sym) ++ le_bytes 2 sel
  end.

(** * Whole segments: where things end up in the final bytes *)
Fixpoint position (chunks : list (list Z)) (i : nat) : Z :=
  match i, chunks with
  | S k, c :: r => zlen c + position r k
  | _, _ => 0
  end.

(** a far branch: offset and selector are loaded, a call leaves CS and the
    return address on the stack *)
Definition far_means (t : token) (m : machine) (target sel next fall : Z) : result * option Z :=
  match t with
  | CALL => ({| dest := target; ret := Some next; pushed_cs := true; count := rcx m |}, Some sel)
  | JCC c => if cond c m then ({| dest := target; ret := None; pushed_cs := false; count := rcx m |}, Some sel)
             else ({| dest := fall; ret := None; pushed_cs := false; count := rcx m |}, None)
  | _ => ({| dest := target; ret := None; pushed_cs := false; count := rcx m |}, Some sel)
  end.

(** * What the source line demands *)
(** the type cast written in the source line *)
Definition mt0 (o : opnd) : memtype := if o_explicit o && negb (o_short o) then o_mt o else MT_EMPTY.
(** CALL without cast to a FAR routine of this segment *)
Definition pushes (t : token) (o : opnd) (s : sym) : bool := is_call t && mt_eqb (mt0 o) MT_EMPTY && mt_eqb (s_mt s) MT_FAR.
(** the type cast (NEAR16 PTR, NEAR32 PTR) does not cut off bits of the target *)
Definition cast_ok (e : env) (o : opnd) (T next : Z) : Prop :=
  o_ofs o = None \/ o_ofs o = Some (e_ofs e) \/
  (e_ofs e <> USE64 /\ o_ofs o <> Some USE64 /\ 0 <= T < 2 ^ 16 /\ 0 <= next < 2 ^ 16).
(** BND may precede CALL, JMP and Jcc *)
Definition prefix_ok (p : prefix) (t : token) : bool :=
  match p, t with NoPrefix, _ => true | BND, (CALL | JMP | JCC _) => true | _, _ => false end.
(** a processor on which every form exists *)
Definition min_cpu (t : token) : Z := match t with JRCXZ => P_64 | _ => P_386 end.
(** the labels a segment defines *)
Fixpoint labels (prog : list item) : list nat :=
  match prog with [] => [] | ILabel n :: r => n :: labels r | _ :: r => labels r end.
(** CALL to a FAR routine of the same group: PUSH CS and a near call *)
Definition pushx (t : token) (o : opnd) (s : sym) : bool := pushes t o s && s_hasseg s && (s_inseg s || s_group s).
(** size of a relative field *)
Definition rel_size (f : fixtype) : option nat := match f with FIX_RELOFF8 => Some 1 | FIX_RELOFF16 => Some 2 | FIX_RELOFF32 => Some 4 | _ => None end%nat.
(** which branches to symbols elsewhere are possible, and the field the linker fills *)
Definition ext_form (e : env) (t : token) (o : opnd) (s : sym) : option fixtype :=
  let mt := if o_short o then MT_EMPTY else o_mt o in
  let near (x : ofssize) := match x with USE16 => FIX_RELOFF16 | _ => FIX_RELOFF32 end in
  let cast := match o_ofs o with Some x => x | None => e_ofs e end in
  let wide := match (match o_ofs o with Some x => x | None => s_ofs s end) with
              | USE16 => false
              | x => match e_ofs e with USE16 => true | m => ofs_eqb m x end end in
  let ptr := if wide then FIX_PTR32 else FIX_PTR16 in
  if pushx t o s then (if o_short o then None else Some (near cast))
  else
    match t, mt with
    | _, MT_OTHER => None
    | CALL, MT_EMPTY => if o_short o then None else Some (near (e_ofs e))
    | (CALL | JMP), MT_NEAR => Some (near cast)
    | (CALL | JMP), MT_FAR => Some ptr
    | JCC _, MT_NEAR => match o_ofs o with None => Some (near (e_ofs e)) | Some _ => Some FIX_RELOFF8 end
    | JCC _, MT_FAR => if e_ljmp e then Some ptr else None
    | _, MT_EMPTY => Some FIX_RELOFF8
    | _, _ => None
    end.

(** a symbol of another segment or module *)
Definition elsewhere (s : sym) : bool := negb (s_hasseg s && s_inseg s).
(** the linker resolves it; a NEAR cast demands a common group (or FLAT) *)
Definition linkable (o : opnd) (s : sym) : bool :=
  match s_state s with SYM_INTERNAL => true | SYM_EXTERNAL => negb (s_weak s) | _ => false end && elsewhere s &&
  (negb (s_hasseg s) || s_flat s || s_group s || negb (mt_eqb (o_mt o) MT_NEAR)).
(** length of a short branch: opcode, displacement, address size prefix, BND *)
Definition short_len (e : env) (p : prefix) (t : token) : Z :=
  2 + (if width (e_ofs e) t =? bits (e_ofs e) then 0 else 1) + (if is_bnd p then 1 else 0).
(** the branches that have a short form only *)
Definition counts (t : token) : bool := match t with CALL | JMP | JCC _ => false | _ => true end.
