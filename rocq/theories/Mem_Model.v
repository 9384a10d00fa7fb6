(** Model of the encoding of memory operands by the first code generator:
    parser.c process_address, memory_operand, set_rm_sib, comp_mem16, seg_override,
    process_register and codegen.c output_opc, output_data, for instructions
    without VEX/EVEX prefix.
    Not modelled: the type/size of the operand (Set_Memtype, check_size), the
    selection of the row of the instruction table (its opnd_dir, rm_byte and opcode
    are given), vector registers as index, ASSUME of registers, symbolic segment
    overrides (SegOverride; the register that check_assume selects is given),
    IMAGEREL/SECTIONREL, PTR operands without symbol (isptr), the opcodes A0-A3 and
    the prefixes F0/F2/F3. *)
From Verif Require Import Base.

(** H/globals.h:467-470 *)
Inductive ofssize := USE16 | USE32 | USE64.
Definition ofs_eqb (a b : ofssize) : bool := match a, b with USE16, USE16 | USE32, USE32 | USE64, USE64 => true | _, _ => false end.

(** H/special.h:34-59, 150-194: the general registers; the number is SpecialTable[].bytval.
    [R8 n]: AL..BH and R8B..R15B *)
Inductive reg := R8 (n : Z) | R16 (n : Z) | R32 (n : Z) | R64 (n : Z) | RIP.
(** H/parser.h:224 GetRegNo *)
Definition regno (r : reg) : Z := match r with R8 n | R16 n | R32 n | R64 n => n | RIP => 16 end.
(** H/parser.h:225 GetSflagsSp( r ) & SFR_SIZMSK *)
Definition sizmsk (r : reg) : Z := match r with R8 _ => 1 | R16 _ => 2 | R32 _ => 4 | R64 _ => 8 | RIP => 8 end.
(** H/parser.h:226 GetValueSp( r ) & OP_R16 / OP_R32 / OP_R64; OP_RIP has none of them (H/operands.h:74) *)
Definition is_r16 (r : reg) : bool := match r with R16 _ => true | _ => false end.
Definition is_r32 (r : reg) : bool := match r with R32 _ => true | _ => false end.
Definition is_r64 (r : reg) : bool := match r with R64 _ => true | _ => false end.
(** ( SpecialTable[r].cpu & P_CPU_MASK ) == P_64 *)
Definition is_p64 (r : reg) : bool := match r with R8 n | R16 n | R32 n => 8 <=? n | R64 _ | RIP => true end.
Definition is_rip (r : reg) : bool := match r with RIP => true | _ => false end.

Inductive fixtype := FIX_OFF16 | FIX_OFF32 | FIX_RELOFF32.

(** struct expr of a memory operand. [o_sym]: with fixup, GetSymOfssize( sym ).
    [o_over]: the segment register override (ES=0,CS,SS,DS,FS,GS) *)
Record memop := { o_base : option reg; o_index : option reg; o_scale : Z; o_disp : Z; o_sym : option ofssize; o_over : option Z }.
(** [e_dofs]: the offset size of what is assumed for the override register, or ModuleInfo.defOfssize.
    [e_chk]: the register that check_assume selects for the symbol; None: the default register.
    [e_flat]: the override register is assumed FLAT *)
Record env := { e_ofs : ofssize; e_386 : bool; e_dofs : ofssize; e_chk : option Z; e_flat : bool }.
(** struct code_info *)
Record cinfo := { c_adrsiz : bool; c_rm : Z; c_rex : Z; c_sib : Z; c_over : option Z; c_basereg : Z; c_fix : option fixtype }.
(** parser.c:3356-3392 *)
Definition cinfo0 : cinfo := {| c_adrsiz := false; c_rm := 0; c_rex := 0; c_sib := 0; c_over := None; c_basereg := 0xff; c_fix := None |}.

(** parser.c:65-66 *)
Definition addrsize (s x : ofssize) : bool := negb (ofs_eqb x s).
Definition is_addr32 (s : ofssize) (adrsiz : bool) : bool := match s with USE16 => adrsiz | _ => negb adrsiz end.
(** the test for 16-bit addressing in set_rm_sib and output_data *)
Definition addr16 (s : ofssize) (adrsiz : bool) : bool := match s with USE16 => negb adrsiz | USE32 => adrsiz | USE64 => false end.

(** parser.c:495-519 *)
Definition comp_mem16 (reg1 reg2 : reg) : res Z :=
  match reg1 with
  | R16 3 => match reg2 with R16 6 => Ok 0 | R16 7 => Ok 1 | _ => Err end
  | R16 5 => match reg2 with R16 6 => Ok 2 | R16 7 => Ok 3 | _ => Err end
  | _ => Err
  end.

(** parser.c:578-586 seg_override: the default segment register *)
Definition default_seg (r : option reg) : Z := match r with Some (R16 5) | Some (R32 5) | Some (R32 4) => 2 | _ => 3 end.
(** parser.c:560-619 seg_override: new RegOverride and adrsiz. [r] = None: T_DS *)
Definition seg_override (e : env) (ci : cinfo) (r : option reg) (sym : bool) (direct : bool) : option Z * bool :=
  let d := default_seg r in
  let '(ov, a) := match c_over ci with
                  | Some s => (Some s, if negb sym && direct then addrsize (e_ofs e) (e_dofs e) else c_adrsiz ci)
                  | None => (if sym then Some (match e_chk e with Some s => s | None => d end) else None, c_adrsiz ci)
                  end in
  (match ov with Some s => if s =? d then None else Some s | None => None end, a).

Definition sex32 (v : Z) : Z := swrap 32 v.

(** parser.c:653-906. [ss] is the scale in bits 6-7; [opnd2]: CurrOpnd == OPND2 *)
Definition set_rm_sib (e : env) (ci : cinfo) (opnd2 : bool) (ss disp : Z) (index base : option reg) (sym : bool) : res cinfo :=
  let d := sex32 disp in
  let brip := match base with Some RIP => true | _ => false end in
  let mod0 := match c_fix ci with
              | Some _ => 0x80
              | None => if (d =? 0) || brip then 0 else if (d >? 127) || (d <? -128) then 0x80 else 0x40
              end in
  let finish (modf rm rex sib : Z) (ov : option Z) (adrsiz : bool) (fix_ : option fixtype) : res cinfo :=
    let modf := if brip then Z.land modf 7 else modf in
    if opnd2 then
      Ok {| c_adrsiz := adrsiz; c_rm := Z.lor (Z.lor modf (Z.shiftl rm 3)) (Z.land (c_rm ci) 7);
            c_rex := Z.lor (c_rex ci) (Z.lor (Z.lor (Z.shiftr rex 2) (Z.land rex 2)) (Z.shiftl (Z.land rex 1) 2));
            c_sib := sib; c_over := ov; c_basereg := c_basereg ci; c_fix := fix_ |}
    else
      Ok {| c_adrsiz := adrsiz; c_rm := Z.lor modf rm; c_rex := Z.lor (c_rex ci) rex; c_sib := sib; c_over := ov; c_basereg := c_basereg ci; c_fix := fix_ |} in
  match base, index with
  | None, None =>
      let '(ov, adrsiz) := seg_override e ci None sym true in
      if addr16 (e_ofs e) adrsiz then
        if (d >? 65535) || (d <? -65535) then Err else finish 0 6 0 (c_sib ci) ov adrsiz (c_fix ci)
      else match e_ofs e, c_fix ci with
           | USE64, None => finish 0 4 0 0x25 ov adrsiz None
           | USE64, Some FIX_OFF32 => finish 0 5 0 (c_sib ci) ov adrsiz (Some FIX_RELOFF32)
           | _, f => finish 0 5 0 (c_sib ci) ov adrsiz f
           end
  | Some b, None =>
      let '(ov, adrsiz) := seg_override e ci (Some b) sym false in
      match b with
      | R16 6 => finish mod0 4 0 (c_sib ci) ov adrsiz (c_fix ci)
      | R16 7 => finish mod0 5 0 (c_sib ci) ov adrsiz (c_fix ci)
      | R16 5 => finish (if mod0 =? 0 then 0x40 else mod0) 6 0 (c_sib ci) ov adrsiz (c_fix ci)
      | R16 3 => finish mod0 7 0 (c_sib ci) ov adrsiz (c_fix ci)
      | _ =>
          let n := if regno b =? 16 then 5 else regno b in
          let b3 := Z.shiftr n 3 in
          let n := Z.land n 7 in
          let sib := if n =? 4 then 0x24 else c_sib ci in
          let modf := if (n =? 5) && (mod0 =? 0) && negb brip then 0x40 else mod0 in
          finish modf n b3 sib ov adrsiz (c_fix ci)
      end
  | None, Some x =>
      let '(ov, adrsiz) := seg_override e ci None sym false in
      finish 0 4 (Z.shiftl (Z.shiftr (regno x) 3) 1) (Z.lor (Z.lor ss (Z.shiftl (Z.land (regno x) 7) 3)) 5) ov adrsiz (c_fix ci)
  | Some b, Some x =>
      let bn := if brip then 5 else regno b in
      let b3 := Z.shiftr bn 3 in
      let x3 := Z.shiftr (regno x) 3 in
      let bn := Z.land bn 7 in
      let xn := Z.land (regno x) 7 in
      if Z.land (sizmsk b) (sizmsk x) =? 0 then Err
      else match x with
           | R16 3 | R16 5 =>
               bindr (comp_mem16 x b) (fun rm => let '(ov, adrsiz) := seg_override e ci (Some x) sym false in finish mod0 rm 0 (c_sib ci) ov adrsiz (c_fix ci))
           | R16 6 | R16 7 =>
               bindr (comp_mem16 b x) (fun rm => let '(ov, adrsiz) := seg_override e ci (Some b) sym false in finish mod0 rm 0 (c_sib ci) ov adrsiz (c_fix ci))
           | R64 4 | RIP | R32 4 => Err
           | _ =>
               let modf := if (bn =? 5) && (mod0 =? 0) && negb brip then 0x40 else mod0 in
               let '(ov, adrsiz) := seg_override e ci (Some b) sym false in
               finish modf 4 (Z.shiftl x3 1 + b3) (Z.lor (Z.lor ss (Z.shiftl xn 3)) bn) ov adrsiz (c_fix ci)
           end
  end.

(** parser.c:1771-1806 memory_operand: adrsiz from a register *)
Definition reg_adrsiz (s : ofssize) (r : reg) : bool := negb ((is_r32 r && ofs_eqb s USE32) || (is_r64 r && ofs_eqb s USE64) || (is_r16 r && ofs_eqb s USE16)).
(** parser.c:1827-1857: the scale *)
Definition scale_bits (e : env) (adrsiz : bool) (scale : Z) : res Z :=
  if (match e_ofs e with USE16 => adrsiz | USE32 => negb adrsiz | USE64 => true end) then
    if e_386 e then
      if (scale =? 0) || (scale =? 1) then Ok 0 else if scale =? 2 then Ok 0x40 else if scale =? 4 then Ok 0x80 else if scale =? 8 then Ok 0xC0 else Err
    else Err
  else if scale =? 0 then Ok 0 else Err.
(** parser.c:1860-1930: adrsiz and type of the fixup *)
Definition fix_of (e : env) (adrsiz : bool) (o : memop) : bool * option fixtype :=
  match o_sym o with
  | None => (adrsiz, None)
  | Some s =>
      match o_base o, o_index o with
      | None, None =>
          (addrsize (e_ofs e) s,
           Some (match s with
                 | USE64 => if (match o_over o with Some _ => true | None => false end) && negb (e_flat e) then FIX_OFF32 else FIX_RELOFF32
                 | USE32 => FIX_OFF32
                 | USE16 => FIX_OFF16
                 end))
      | _, _ => (adrsiz, Some (match s with USE64 => FIX_OFF32 | _ => if is_addr32 (e_ofs e) adrsiz then FIX_OFF32 else FIX_OFF16 end))
      end
  end.

(** parser.c:1591-1945 *)
Definition memory_operand (e : env) (ci : cinfo) (opnd2 : bool) (o : memop) : res cinfo :=
  let ci := {| c_adrsiz := c_adrsiz ci; c_rm := c_rm ci; c_rex := c_rex ci; c_sib := c_sib ci; c_over := o_over o;
               c_basereg := match o_base o with Some b => regno b | None => c_basereg ci end; c_fix := c_fix ci |} in
  bindr (match o_base o with
         | Some b => if reg_adrsiz (e_ofs e) b && is_r16 b && ofs_eqb (e_ofs e) USE64 then Err else Ok (reg_adrsiz (e_ofs e) b)
         | None => Ok (c_adrsiz ci)
         end) (fun adrsiz =>
  bindr (match o_index o with
         | Some x =>
             let adrsiz := reg_adrsiz (e_ofs e) x in
             if regno x =? 4 then Err else bindr (scale_bits e adrsiz (o_scale o)) (fun ss => Ok (adrsiz, ss))
         | None => Ok (adrsiz, 0)
         end) (fun r =>
  let '(adrsiz, ss) := r in
  let '(adrsiz, f) := fix_of e adrsiz o in
  let ci := {| c_adrsiz := adrsiz; c_rm := c_rm ci; c_rex := c_rex ci; c_sib := c_sib ci; c_over := c_over ci; c_basereg := c_basereg ci; c_fix := f |} in
  set_rm_sib e ci opnd2 ss (o_disp o) (o_index o) (o_base o) (match o_sym o with Some _ => true | None => false end))).

(** parser.c:1946-1967 process_address: the range of the displacement. hvalue, value: the halves of the value *)
Definition process_address (e : env) (ci : cinfo) (opnd2 : bool) (o : memop) : res cinfo :=
  let hvalue := swrap 32 (o_disp o / 2 ^ 32) in
  let value := sex32 (o_disp o) in
  let indirect := match o_base o, o_index o with None, None => false | _, _ => true end in
  if indirect && negb (hvalue =? 0) && (negb (hvalue =? -1) || (value >=? 0)) && ofs_eqb (e_ofs e) USE64 then Err
  else memory_operand e ci opnd2 o.

(** parser.c:2235-2273 process_register: the general registers (not XCHG) *)
Definition process_register (ci : cinfo) (opnd2 : bool) (r : reg) : cinfo :=
  let rex := if is_p64 r then Z.lor (Z.lor (c_rex ci) 0x40) (if is_r64 r then 8 else 0) else c_rex ci in
  let n := regno r in
  if opnd2 then
    {| c_adrsiz := c_adrsiz ci; c_rm := Z.lor (Z.land (c_rm ci) 0xC7) (Z.shiftl (Z.land n 7) 3); c_rex := Z.lor rex (Z.shiftr (Z.land n 8) 1);
       c_sib := c_sib ci; c_over := c_over ci; c_basereg := c_basereg ci; c_fix := c_fix ci |}
  else
    {| c_adrsiz := c_adrsiz ci; c_rm := Z.lor (Z.lor (c_rm ci) 0xC0) (Z.land n 7); c_rex := Z.lor rex (Z.shiftr (Z.land n 8) 3);
       c_sib := c_sib ci; c_over := c_over ci; c_basereg := c_basereg ci; c_fix := c_fix ci |}.

(** the forms of instructions: only a memory operand (with /digit, maybe with REX.W and an immediate
    behind), memory and register, register and memory (opnd_dir is set in the instruction table) *)
Inductive form := FM (digit : Z) (w : bool) | FMR (r : reg) | FRM (r : reg).

(** codegen.c:516-524: opnd_dir *)
Definition swap_dir (ci : cinfo) : cinfo :=
  let t := c_rm ci in
  let x := c_rex ci in
  {| c_adrsiz := c_adrsiz ci; c_rm := Z.lor (Z.lor (Z.land t 0xc0) (Z.land (Z.shiftr t 3) 7)) (Z.land (Z.shiftl t 3) 0x38);
     c_rex := Z.lor (Z.lor (Z.land x 0xFA) (Z.shiftr (Z.land x 4) 2)) (Z.shiftl (Z.land x 1) 2);
     c_sib := c_sib ci; c_over := c_over ci; c_basereg := c_basereg ci; c_fix := c_fix ci |}.

(** codegen.c:149-150 *)
Definition sr_prefix (s : Z) : Z := if s =? 0 then 0x26 else if s =? 1 then 0x2E else if s =? 2 then 0x36 else if s =? 3 then 0x3E else if s =? 4 then 0x64 else 0x65.

(** codegen.c:468-515, 2266-2272: the prefixes *)
Definition prefixes (e : env) (opsiz : bool) (ci : cinfo) : list Z :=
  (if c_adrsiz ci && negb (c_basereg ci =? 16) then [0x67] else []) ++ (if opsiz then [0x66] else []) ++
  match c_over ci with Some s => [sr_prefix s] | None => [] end.
Definition rex_prefix (e : env) (ci : cinfo) : res (list Z) :=
  if c_rex ci =? 0 then Ok [] else if ofs_eqb (e_ofs e) USE64 then Ok [Z.lor (c_rex ci) 0x40] else Err.
(** codegen.c:2411, 2422-2424, 2647-2669: ModR/M and SIB *)
Definition modrm_sib (e : env) (rip : bool) (insrm : Z) (ci : cinfo) : list Z :=
  let tmp := Z.lor insrm (c_rm ci) in
  let tmp := if rip then Z.land tmp 0x7F else tmp in
  tmp :: (if ofs_eqb (e_ofs e) USE16 && negb (c_adrsiz ci) then []
          else if (Z.land tmp 0xC7 =? 0x04) || (Z.land tmp 0xC7 =? 0x44) || (Z.land tmp 0xC7 =? 0x84) then [c_sib ci] else []).
(** codegen.c:2749-2803 output_data: the size of the displacement *)
Definition disp_size (e : env) (ci : cinfo) (disp : Z) : res nat :=
  let md := Z.land (c_rm ci) 0xC0 in
  let rm := Z.land (c_rm ci) 7 in
  if md =? 0x40 then Ok 1%nat
  else if md =? 0 then
    if addr16 (e_ofs e) (c_adrsiz ci) then Ok (if rm =? 6 then 2%nat else 0%nat)
    else if ((rm =? 4) && (Z.land (c_sib ci) 7 =? 5)) || (rm =? 5) then
      let u := wrap 64 disp in
      if ofs_eqb (e_ofs e) USE64 && (0x80000000 <=? u) && (u <? 0xffffffff80000000) then Err else Ok 4%nat
    else Ok 0%nat
  else if md =? 0x80 then Ok (if addr16 (e_ofs e) (c_adrsiz ci) then 2%nat else 4%nat)
  else Ok 0%nat.

(** what is written: the bytes, and the fixup with its position *)
Record code := { k_bytes : list Z; k_fix : option (fixtype * Z) }.

(** the operands are parsed in their order, then output_opc and output_data *)
Definition assemble (e : env) (f : form) (opsiz : bool) (opcode : list Z) (o : memop) : res code :=
  bindr (match f with
         | FM _ w => process_address e {| c_adrsiz := false; c_rm := 0; c_rex := if w then 8 else 0; c_sib := 0; c_over := None; c_basereg := 0xff; c_fix := None |} false o
         | FMR r => bindr (process_address e cinfo0 false o) (fun ci => Ok (process_register ci true r))
         | FRM r => bindr (process_address e (process_register cinfo0 false r) true o) (fun ci => Ok (swap_dir ci))
         end) (fun ci =>
  let insrm := match f with FM d _ => Z.shiftl d 3 | _ => 0 end in
  bindr (rex_prefix e ci) (fun rex =>
  bindr (disp_size e ci (o_disp o)) (fun n =>
  let front := prefixes e opsiz ci ++ rex ++ opcode ++ modrm_sib e (match o_base o with Some RIP => true | _ => false end) insrm ci in
  Ok {| k_bytes := front ++ le_bytes n (o_disp o);
        k_fix := match n with O => None | _ => match c_fix ci with Some t => Some (t, zlen front) | None => None end end |}))).
