(** Model of branch.c (process_branch, jumpExtend, FarCallToNear), of the part
    of codegen.c that writes CALL, JMP, Jcc, JxCXZ and LOOPcc with an immediate
    operand, and of label.c/assemble.c's passes over a segment with labels.

    Not modelled: segment overrides of the operand (opndx->override == NULL,
    hence SegOverride == NULL), operands without a symbol (branch.c 179-197),
    warnings, and pass 1 with its backpatching (backptch.c): a pass from the
    second on is started with arbitrary label offsets instead.  Signed overflow
    of the 32-bit variable "addr" wraps. *)
From Verif Require Import Base.
From Verif Require Import Mem_Model.

(** enum memtype, as far as process_branch distinguishes it *)
Inductive memtype := MT_EMPTY | MT_NEAR | MT_FAR | MT_OTHER.
Definition mt_eqb (a b : memtype) : bool :=
  match a, b with MT_EMPTY, MT_EMPTY | MT_NEAR, MT_NEAR | MT_FAR, MT_FAR | MT_OTHER, MT_OTHER => true | _, _ => false end.

(** the conditional jumps, H/instruct.h 52-86 *)
Inductive cc := jA | jAE | jB | jBE | jC | jE | jG | jGE | jL | jLE | jNA | jNAE | jNB | jNBE | jNC | jNE | jNG | jNGE | jNL | jNLE
              | jNO | jNP | jNS | jNZ | jO | jP | jPE | jPO | jS | jZ.
(** H/instruct.h 57-86, second argument of jcc() *)
Definition cc_code (c : cc) : Z :=
  match c with
  | jA => 7 | jAE => 3 | jB => 2 | jBE => 6 | jC => 2 | jE => 4 | jG => 15 | jGE => 13 | jL => 12 | jLE => 14
  | jNA => 6 | jNAE => 2 | jNB => 3 | jNBE => 7 | jNC => 3 | jNE => 5 | jNG => 14 | jNGE => 12 | jNL => 13 | jNLE => 15
  | jNO => 1 | jNP => 11 | jNS => 9 | jNZ => 5 | jO => 0 | jP => 10 | jPE => 10 | jPO => 11 | jS => 8 | jZ => 4
  end.

(** the branch instructions in the order of H/instruct.h 30-109 *)
Inductive token := CALL | JMP | JCC (c : cc)
  | JCXZ | JECXZ | JRCXZ | LOOP | LOOPE | LOOPZ | LOOPNE | LOOPNZ | LOOPD | LOOPED | LOOPZD | LOOPNED | LOOPNZD
  | LOOPW | LOOPEW | LOOPZW | LOOPNEW | LOOPNZW.
(** H/parser.h 371-376, branch.c 55 *)
Definition IS_JMPCALL (t : token) : bool := match t with CALL | JMP => true | _ => false end.
Definition IS_JCC (t : token) : bool := match t with JCC _ => true | _ => false end.
Definition IS_XCX_BRANCH (t : token) : bool := match t with CALL | JMP | JCC _ => false | _ => true end.
Definition is_call (t : token) : bool := match t with CALL => true | _ => false end.

(** instr_item.byte1_info of the branch instructions, H/instruct.h 30-109 *)
Inductive byte1 := F_NONE | F_16 | F_32 | F_16A | F_32A | F_0F.
Definition b1_eqb (a b : byte1) : bool :=
  match a, b with F_NONE, F_NONE | F_16, F_16 | F_32, F_32 | F_16A, F_16A | F_32A, F_32A | F_0F, F_0F => true | _, _ => false end.
(** operand types of immediates, H/operands.h 91-108; [I] is OP_I *)
Inductive otype := I8 | I16 | I32 | I48 | I_ANY.
Record row := { r_op : otype; r_b1 : byte1; r_code : Z; r_cpu : Z; r_bnd : bool }.
Definition mkrow op b1 code cpu bnd : row := {| r_op := op; r_b1 := b1; r_code := code; r_cpu := cpu; r_bnd := bnd |}.
(** cpu levels: 0 = 8086, 3 = 80386, 7 = x64 *)
Definition P_86 : Z := 0.
Definition P_386 : Z := 3.
Definition P_64 : Z := 7.
(** rows of the instruction table that accept immediates (near part), H/instruct.h 30-109 *)
Definition near_rows (t : token) : list row :=
  match t with
  | CALL => [mkrow I16 F_NONE 0xE8 P_86 true; mkrow I32 F_NONE 0xE8 P_386 true]
  | JMP => [mkrow I8 F_NONE 0xEB P_86 true; mkrow I16 F_NONE 0xE9 P_86 true; mkrow I32 F_NONE 0xE9 P_386 true]
  | JCC c => [mkrow I8 F_NONE (0x70 + cc_code c) P_86 true; mkrow I_ANY F_0F (0x80 + cc_code c) P_386 true]
  | JCXZ => [mkrow I8 F_16A 0xE3 P_86 false]
  | JECXZ => [mkrow I8 F_32A 0xE3 P_386 false]
  | JRCXZ => [mkrow I8 F_NONE 0xE3 P_64 false]
  | LOOP => [mkrow I8 F_NONE 0xE2 P_86 false]
  | LOOPE | LOOPZ => [mkrow I8 F_NONE 0xE1 P_86 false]
  | LOOPNE | LOOPNZ => [mkrow I8 F_NONE 0xE0 P_86 false]
  | LOOPD => [mkrow I8 F_32A 0xE2 P_386 false]
  | LOOPED | LOOPZD => [mkrow I8 F_32A 0xE1 P_386 false]
  | LOOPNED | LOOPNZD => [mkrow I8 F_32A 0xE0 P_386 false]
  | LOOPW => [mkrow I8 F_16A 0xE2 P_86 false]
  | LOOPEW | LOOPZW => [mkrow I8 F_16A 0xE1 P_86 false]
  | LOOPNEW | LOOPNZW => [mkrow I8 F_16A 0xE0 P_86 false]
  end.
(** the rows behind the next "first" item for CALL and JMP (far part), H/instruct.h 36-37, 47-48, parser.c 3904-3913 *)
Definition far_rows (t : token) : list row :=
  match t with
  | CALL => [mkrow I32 F_16 0x9A P_86 true; mkrow I48 F_32 0x9A P_386 true]
  | JMP => [mkrow I32 F_16 0xEA P_86 true; mkrow I48 F_32 0xEA P_386 true]
  | _ => near_rows t
  end.
(** InstrTable[IndexFromToken( token )].byte1_info *)
Definition first_b1 (t : token) : byte1 := match near_rows t with r :: _ => r_b1 r | [] => F_NONE end.

(** instruction prefix before the mnemonic *)
Inductive prefix := NoPrefix | BND | OtherPrefix (* LOCK, REP.. *).
Definition is_bnd (p : prefix) : bool := match p with BND => true | _ => false end.

(** what the source line and the module's state supply *)
Record env := { e_ofs : ofssize (* CodeInfo->Ofssize *); e_cpu : Z (* ModuleInfo.curr_cpu & P_CPU_MASK *); e_ljmp : bool (* OPTION LJMP *) }.
Record opnd := {
  o_explicit : bool;             (* opndx->explicit *)
  o_mt : memtype;                (* opndx->mem_type *)
  o_short : bool;                (* opndx->instr == T_SHORT *)
  o_ofs : option ofssize;        (* opndx->Ofssize, None = USE_EMPTY *)
  o_value : Z                    (* opndx->value *)
}.
Inductive symstate := SYM_INTERNAL | SYM_EXTERNAL | SYM_UNDEFINED | SYM_OTHER.
Record sym := {
  s_state : symstate;
  s_weak : bool;
  s_mt : memtype;
  s_offset : Z;                  (* uint_32 *)
  s_met : bool;                  (* asmpass == Parse_Pass *)
  s_ofs : ofssize;               (* GetSymOfssize( sym ) *)
  s_hasseg : bool;               (* GetSegm( sym ) != NULL *)
  s_inseg : bool;                (* GetSegm( sym ) == CurrSeg *)
  s_flat : bool;                 (* flat group exists and the offset sizes agree *)
  s_group : bool                 (* both segments belong to the same group *)
}.

Inductive fixtype := FIX_RELOFF8 | FIX_RELOFF16 | FIX_RELOFF32 | FIX_PTR16 | FIX_PTR32.
(** the state of CodeInfo during process_branch *)
Record ci := {
  c_pre : list Z;                (* bytes written by process_branch itself *)
  c_tok : token;
  c_mt : memtype;
  c_isfar : bool;
  c_opsiz : bool;
  c_type : option otype;
  c_data : Z;                    (* opnd[OPND1].data32l *)
  c_fix : option fixtype
}.

Definition i32 (v : Z) : Z := swrap 32 v.
(** branch.c 58 *)
Definition OPSIZE (a b : ofssize) : bool := negb (ofs_eqb a b).
(** H/parser.h 378 *)
Definition IS_OPER_32 (e : env) (opsiz : bool) : bool := match e_ofs e with USE16 => opsiz | _ => negb opsiz end.

(** branch.c 77-111; pinstr still is the first row of the jump *)
Definition jumpExtend (e : env) (k : ci) (far_flag : bool) : ci :=
  let use := negb (ofs_eqb (e_ofs e) USE16) in
  let next_ins_size :=
    if far_flag then if c_opsiz k then (if use then 6 else 8) else (if use then 7 else 5)
    else (if use then 5 else 3) in
  let opcode := match near_rows (c_tok k) with r :: _ => r_code r | [] => 0 end in
  {| c_pre := c_pre k ++ [Z.lxor opcode 1; next_ins_size]; c_tok := JMP; c_mt := c_mt k; c_isfar := c_isfar k;
     c_opsiz := c_opsiz k; c_type := c_type k; c_data := c_data k; c_fix := c_fix k |}.

(** branch.c 116-125 *)
Definition FarCallToNear (k : ci) : ci :=
  {| c_pre := c_pre k ++ [0x0E]; c_tok := c_tok k; c_mt := MT_NEAR; c_isfar := c_isfar k; c_opsiz := c_opsiz k;
     c_type := c_type k; c_data := c_data k; c_fix := c_fix k |}.

Definition set_mt (k : ci) m := {| c_pre := c_pre k; c_tok := c_tok k; c_mt := m; c_isfar := c_isfar k; c_opsiz := c_opsiz k; c_type := c_type k; c_data := c_data k; c_fix := c_fix k |}.
Definition set_far (k : ci) b := {| c_pre := c_pre k; c_tok := c_tok k; c_mt := c_mt k; c_isfar := b; c_opsiz := c_opsiz k; c_type := c_type k; c_data := c_data k; c_fix := c_fix k |}.
Definition set_opsiz (k : ci) b := {| c_pre := c_pre k; c_tok := c_tok k; c_mt := c_mt k; c_isfar := c_isfar k; c_opsiz := b; c_type := c_type k; c_data := c_data k; c_fix := c_fix k |}.
Definition set_type (k : ci) t := {| c_pre := c_pre k; c_tok := c_tok k; c_mt := c_mt k; c_isfar := c_isfar k; c_opsiz := c_opsiz k; c_type := Some t; c_data := c_data k; c_fix := c_fix k |}.
Definition set_data (k : ci) d := {| c_pre := c_pre k; c_tok := c_tok k; c_mt := c_mt k; c_isfar := c_isfar k; c_opsiz := c_opsiz k; c_type := c_type k; c_data := d; c_fix := c_fix k |}.
Definition set_fix (k : ci) f := {| c_pre := c_pre k; c_tok := c_tok k; c_mt := c_mt k; c_isfar := c_isfar k; c_opsiz := c_opsiz k; c_type := c_type k; c_data := c_data k; c_fix := Some f |}.

(** branch.c 148-149, 174-176: CodeInfo at the start (parser.c 3082, 3362) *)
Definition start_ci (t : token) (o : opnd) : ci :=
  {| c_pre := []; c_tok := t; c_mt := if o_explicit o && negb (o_short o) then o_mt o else MT_EMPTY; c_isfar := false;
     c_opsiz := false; c_type := None; c_data := i32 (o_value o); c_fix := None |}.

(** branch.c 201-256: the state that counts and the address of the target *)
Definition target_state (cur : Z) (o : opnd) (s : sym) : res (symstate * Z) :=
  let state := match s_state s with SYM_EXTERNAL => if s_weak s then SYM_UNDEFINED else SYM_EXTERNAL | x => x end in
  match state with
  | SYM_UNDEFINED => Ok (SYM_UNDEFINED, cur)
  | SYM_OTHER => Err
  | _ =>
    let addr := if match state with SYM_INTERNAL => true | _ => false end && negb (s_met s) && (s_offset s <? cur)
                then cur else s_offset s in
    if s_hasseg s && s_inseg s then Ok (state, addr)
    else if negb (s_flat s) && s_hasseg s && negb (s_group s) && mt_eqb (o_mt o) MT_NEAR then Err
    else Ok (SYM_EXTERNAL, addr)
  end.

(** branch.c 269-385: target in the current segment; the flag tells whether
    process_branch is left here *)
Definition near_part (e : env) (p : prefix) (cur : Z) (t : token) (o : opnd) (s : sym) (addr : Z) (k : ci) : res ci :=
  let '(k, cur) := if is_call (c_tok k) && mt_eqb (c_mt k) MT_EMPTY && mt_eqb (s_mt s) MT_FAR
                   then (FarCallToNear k, cur + 1) else (k, cur) in
  let addr := i32 (addr - (cur + 2)) in
  let addr := i32 (addr + c_data k) in
  let addr := if (negb (ofs_eqb (e_ofs e) USE16) && b1_eqb (first_b1 t) F_16A) ||
                 (negb (ofs_eqb (e_ofs e) USE32) && b1_eqb (first_b1 t) F_32A) then i32 (addr - 1) else addr in
  let addr := if is_bnd p then i32 (addr - 1) else addr in
  bindr (if negb (mt_eqb (c_mt k) MT_NEAR) && negb (is_call (c_tok k)) && (addr >=? -128) && (addr <=? 127)
         then Ok (set_type k I8, addr)
         else if o_short o || IS_XCX_BRANCH (c_tok k) then Err
         else let '(k, addr) :=
                match o_ofs o with
                | Some x =>
                    let '(k, addr) := match x with USE16 => (set_type k I16, i32 (addr - 1)) | _ => (set_type k I32, i32 (addr - 3)) end in
                    let k := set_opsiz k (OPSIZE (e_ofs e) x) in
                    (k, if c_opsiz k then i32 (addr - 1) else addr)
                | None => if negb (ofs_eqb (e_ofs e) USE16) then (set_type k I32, i32 (addr - 3)) else (set_type k I16, i32 (addr - 1))
                end in
              Ok (k, if IS_JCC (c_tok k) then i32 (addr - 1) else addr))
  (fun '(k, addr) =>
     let k := set_data k addr in
     if (e_cpu e <? P_386) && IS_JCC (c_tok k) && negb (match c_type k with Some I8 => true | _ => false end) then
       if mt_eqb (c_mt k) MT_EMPTY && e_ljmp e then Ok (set_data (jumpExtend e k false) (i32 (addr - 1)))
       else Err
     else Ok k).

(** the type of a near operand: branch.c 508-528, 568-577 *)
Definition near_type (e : env) (o : opnd) : otype :=
  match o_ofs o with
  | Some USE16 => I16
  | Some _ => I32
  | None => match e_ofs e with USE16 => I16 | _ => I32 end
  end.
Definition reloff (t : otype) : fixtype := match t with I16 => FIX_RELOFF16 | _ => FIX_RELOFF32 end.
(** branch.c 454-468, 582-596: offset size of a far pointer *)
Definition far_opsiz (e : env) (o : opnd) (s : sym) : bool := OPSIZE (e_ofs e) (match o_ofs o with Some x => x | None => s_ofs s end).
Definition far_ptr (e : env) (k : ci) : ci :=
  if IS_OPER_32 e (c_opsiz k) then set_fix (set_type k I48) FIX_PTR32 else set_fix (set_type k I32) FIX_PTR16.

(** branch.c 392-638: external symbol or forward reference *)
Definition fixup_part (e : env) (state : symstate) (o : opnd) (s : sym) (k : ci) : res ci :=
  let undef := match state with SYM_UNDEFINED => true | _ => false end in
  let k := if is_call (c_tok k) && mt_eqb (c_mt k) MT_EMPTY && mt_eqb (s_mt s) MT_FAR && s_hasseg s && (s_inseg s || s_group s)
           then FarCallToNear k else k in
  let k := if mt_eqb (c_mt k) MT_EMPTY && negb (mt_eqb (o_mt o) MT_EMPTY) && negb (o_short o) then
             match o_mt o with
             | MT_FAR => let k := if IS_JMPCALL (c_tok k) then set_far k true else k in if undef then k else set_mt k MT_FAR
             | MT_NEAR => if undef then k else set_mt k MT_NEAR
             | m => set_mt k m
             end
           else k in
  if IS_JMPCALL (c_tok k) && (c_isfar k || mt_eqb (c_mt k) MT_FAR) then
    let k := set_far k true in
    match c_mt k with
    | MT_OTHER => Err
    | m => if mt_eqb m MT_NEAR && (o_explicit o || o_short o) then Err
           else Ok (far_ptr e (set_opsiz k (far_opsiz e o s)))
    end
  else
    match c_tok k with
    | CALL =>
        if o_short o then Err
        else match c_mt k with
             | MT_EMPTY => let ty := match e_ofs e with USE16 => I16 | _ => I32 end in Ok (set_fix (set_type k ty) (reloff ty))
             | MT_NEAR => let ty := near_type e o in
                          let k := match o_ofs o with Some x => set_opsiz k (OPSIZE (e_ofs e) x) | None => k end in
                          Ok (set_fix (set_type k ty) (reloff ty))
             | _ => Err
             end
    | JMP =>
        match c_mt k with
        | MT_EMPTY => Ok (set_fix (set_type k I8) FIX_RELOFF8)
        | MT_NEAR => let ty := near_type e o in
                     let k := match o_ofs o with Some x => set_opsiz k (OPSIZE (e_ofs e) x) | None => k end in
                     Ok (set_fix (set_type k ty) (reloff ty))
        | _ => Err
        end
    | JCC _ =>
        if e_cpu e >=? P_386 then
          match c_mt k with
          | MT_EMPTY => Ok (set_fix (set_type k I8) FIX_RELOFF8)
          | MT_NEAR => match o_ofs o with
                       | Some x => Ok (set_fix (set_type (set_opsiz k (OPSIZE (e_ofs e) x)) (near_type e o)) FIX_RELOFF8)
                       | None => let ty := near_type e o in Ok (set_fix (set_type k ty) (reloff ty))
                       end
          | MT_FAR => if e_ljmp e then Ok (far_ptr e (set_far (jumpExtend e (set_opsiz k (far_opsiz e o s)) true) true)) else Err
          | MT_OTHER => Err
          end
        else
          match c_mt k with
          | MT_EMPTY => Ok (set_fix (set_type k I8) FIX_RELOFF8)
          | MT_NEAR => if e_ljmp e then Ok (set_fix (set_type (jumpExtend e k false) I16) FIX_RELOFF16) else Err
          | MT_FAR => if e_ljmp e then Ok (set_fix (set_type (set_far (jumpExtend e k true) true) I32) FIX_PTR16) else Err
          | MT_OTHER => Err
          end
    | _ =>
        if negb (mt_eqb (c_mt k) MT_EMPTY) && negb (o_short o) then Err
        else Ok (set_fix (set_type k I8) FIX_RELOFF8)
    end.

(** branch.c 127-640 *)
Definition process_branch (e : env) (p : prefix) (cur : Z) (t : token) (o : opnd) (s : sym) : res ci :=
  let k := start_ci t o in
  bindr (target_state cur o s) (fun '(state, addr) =>
    let near := match state with SYM_EXTERNAL => false | _ => true end &&
                match c_mt k with MT_EMPTY | MT_NEAR => true | _ => false end in
    if near then
      bindr (near_part e p cur t o s addr k) (fun k =>
        match state with SYM_UNDEFINED => fixup_part e state o s k | _ => Ok k end)
    else fixup_part e state o s k).

(** codegen.c 3320-3327, 3417: the types a row may have for an immediate of type [t] *)
Definition accepts (t op : otype) : bool :=
  match t, op with
  | I8, (I8 | I16 | I32 | I_ANY) | I16, (I16 | I32 | I_ANY) | I32, (I32 | I_ANY) | I48, I48 => true
  | _, _ => false
  end.
(** codegen.c 3407-3460: first row that accepts the operand *)
Definition find_row (t : otype) (rows : list row) : option row := find (fun r => accepts t (r_op r)) rows.
(** codegen.c 3421-3440, 2737-2745: number of bytes of immediate data *)
Definition data_size (t : otype) (r : row) : nat :=
  match match r_op r with I32 => I32 | I16 => I16 | _ => t end with I8 => 1 | I16 => 2 | I32 => 4 | I48 => 6 | I_ANY => 0 end%nat.

(** codegen.c 201-215, 240-260, 294-313, 470-510, 2273-2300, 2800-2860:
    bytes of the instruction; the immediate data comes last *)
Definition codegen (e : env) (p : prefix) (k : ci) : res (list Z * list Z) :=
  match c_type k with
  | None => Err
  | Some t =>
    match find_row t (if c_isfar k then far_rows (c_tok k) else near_rows (c_tok k)) with
    | None => Err
    | Some r =>
      if r_cpu r >? e_cpu e then Err
      else
        bindr (match p with NoPrefix => Ok [] | BND => if r_bnd r then Ok [0xF2] else Err | OtherPrefix => Err end) (fun pfx =>
        let opsiz := match r_b1 r with
                     | F_16 => if negb (ofs_eqb (e_ofs e) USE16) then true else c_opsiz k
                     | F_32 => if ofs_eqb (e_ofs e) USE16 then true else c_opsiz k
                     | _ => c_opsiz k end in
        let adrsiz := match r_b1 r with
                      | F_16A => ofs_eqb (e_ofs e) USE32
                      | F_32A => negb (ofs_eqb (e_ofs e) USE32)
                      | _ => false end in
        if opsiz && (e_cpu e <? P_386) then Err
        else Ok (c_pre k ++ pfx ++ (if adrsiz then [0x67] else []) ++ (if opsiz then [0x66] else []) ++
                 (match r_b1 r with F_0F => [0x0F] | _ => [] end) ++ [r_code r],
                 le_bytes (data_size t r) (wrap 32 (c_data k))))
    end
  end.

(** bytes written for a branch; a fixup refers to the field, which ends the instruction *)
Definition branch (e : env) (p : prefix) (cur : Z) (t : token) (o : opnd) (s : sym) : res (list Z * list Z * option fixtype) :=
  bindr (process_branch e p cur t o s) (fun k =>
  bindr (codegen e p k) (fun '(h, d) => Ok (h, d, c_fix k))).

(** RWF_IA32 / RWF_X64 in H/instruct.h 90-109: instructions that exist in a mode *)
Definition available (m : ofssize) (t : token) : bool :=
  match t, m with
  | (JCXZ | LOOPW | LOOPEW | LOOPZW | LOOPNEW | LOOPNZW), USE64 => false
  | JRCXZ, (USE16 | USE32) => false
  | _, _ => true
  end.

(** a segment's contents: labels, other bytes, alignment and branches to labels *)
Inductive item :=
| ILabel (n : nat)
| IData (bs : list Z)
| IAlign (n : Z)
| IBranch (e : env) (p : prefix) (t : token) (o : opnd) (n : nat).
(** the symbols of the segment: offset, whether the label was met in this pass *)
Definition table := nat -> Z * bool.
Definition update (tb : table) (n : nat) (v : Z * bool) : table := fun k => if Nat.eqb k n then v else tb k.
(** a label of the segment that is being assembled *)
Definition local_sym (far : nat -> bool) (ofs : ofssize) (tb : table) (n : nat) : sym :=
  {| s_state := SYM_INTERNAL; s_weak := false; s_mt := if far n then MT_FAR else MT_NEAR; s_offset := fst (tb n); s_met := snd (tb n);
     s_ofs := ofs; s_hasseg := true; s_inseg := true; s_flat := false; s_group := false |}.
(** one item at offset [cur]: its bytes, the symbols, phase error
    (label.c 173-199 with SetSymSegOfs; branch.c; posndir.c for ALIGN) *)
Definition one (far : nat -> bool) (i : item) (cur : Z) (tb : table) : res (list Z * table * bool) :=
  match i with
  | ILabel n => Ok ([], update tb n (wrap 32 cur, true), negb (fst (tb n) =? wrap 32 cur))
  | IData bs => Ok (bs, tb, false)
  | IAlign n => Ok (repeat 0 (Z.to_nat ((- cur) mod n)), tb, false)
  | IBranch e p t o n =>
      if available (e_ofs e) t then
        bindr (branch e p cur t o (local_sym far (e_ofs e) tb n)) (fun '(h, d, _) => Ok (h ++ d, tb, false))
      else Err
  end.
(** assemble.c OnePass over the segment: the bytes of each item *)
Fixpoint pass (far : nat -> bool) (prog : list item) (cur : Z) (tb : table) : res (list (list Z) * table * bool) :=
  match prog with
  | [] => Ok ([], tb, false)
  | i :: r =>
    bindr (one far i cur tb) (fun '(bs, tb, ph) =>
    bindr (pass far r (cur + zlen bs) tb) (fun '(l, tb, ph') => Ok (bs :: l, tb, ph || ph')))
  end.
(** start of a pass: no label has been met *)
Definition new_pass (tb : table) : table := fun n => (fst (tb n), false).
(** assemble.c 1622-1660: passes until one has no phase error and the size of
    the segment doesn't change *)
Fixpoint passes (fuel : nat) (far : nat -> bool) (prog : list item) (tb : table) (prev : Z) : res (list (list Z) * table) :=
  match fuel with
  | O => Err
  | S f =>
    bindr (pass far prog 0 (new_pass tb)) (fun '(l, tb', ph) =>
      let written := zlen (concat l) in
      if negb ph && (prev =? written) then Ok (l, tb') else passes f far prog tb' written)
  end.
