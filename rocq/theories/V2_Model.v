(** Model of codegenv2.c: the second code generator, which assembles the instructions listed in
    H/InstrTableV2.h (the table itself is V2_Table.v). Called from ParseLine, parser.c:4051-4060,
    in 32- and 64-bit code only.

    Simplifications: listing and line numbers are left out; so is the processor check with the P_PM bit
    of IsValidInCPUMode (the cpu column) - the mode is already checked by LookupInstruction. A FLAT:
    override (1560-1562) always leaves the instruction to the legacy generator. The operands are what
    ParseLine passes (CodeInfo->opnd[] and opExpr[]), in one type. A reported error (EmitError) is the
    outcome [Err], whatever is written to the segment after it. *)
From Coq Require Import String Ascii.
From Verif Require Import Base Mem_Model.
Open Scope list_scope.

(** ** Registers and operands *)
(** The registers by class, with the number of H/special.h. K8H: AH CH DH BH (4-7); K8U: SPL BPL SIL DIL (4-7);
    KSEG: ES CS SS DS FS GS (0-5); KIP: RIP. *)
Inductive rk := K8 | K8H | K8U | K16 | K32 | K64 | KIP | KX | KY | KZ | KM | KSEG | KCR | KDR | KMM | KST.
Definition reg := (rk * Z)%type.
(** GetRegisterNo, codegenv2.c:454-578: the number in the encoding; 16 for RIP, 17 without register *)
Definition regno (r : option reg) : Z := match r with None => 17 | Some (KIP, _) => 16 | Some (_, n) => n end.
(** SizeFromRegister, parser.c:235-261 (SFR_SIZMSK etc. of H/special.h) *)
Definition regsize (s : ofssize) (r : option reg) : Z :=
  match r with
  | None => 0
  | Some (k, _) => match k with
                   | K8 | K8H | K8U => 1 | K16 => 2 | K32 => 4 | K64 | KIP | KM | KMM => 8 | KX => 16 | KY => 32 | KZ => 64 | KST => 10
                   | KSEG => match s with USE16 => 2 | USE32 => 4 | USE64 => 8 end
                   | KCR | KDR => match s with USE64 => 8 | _ => 4 end
                   end
  end.
(** IsSimdRegister, codegenv2.c:1175-1202 *)
Definition simd (r : option reg) : bool := match r with Some (KX, _) | Some (KY, _) | Some (KZ, _) => true | _ => false end.

(** the operand types, H/codegenv2.h:46-131 (those that can occur) *)
Inductive optype :=
  T_R8 | T_R16 | T_R32 | T_R64 | T_R8_AL | T_R16_AX | T_R32_EAX | T_R64_RAX | T_R8_CL | T_R16_DX | T_R8E | T_R16E | T_R32E | T_R64E
| T_R_CR8 | T_R_CR | T_R_DR | T_R8H | T_R8U | T_R_SEG | T_R_SEGE | T_R_XMM | T_R_XMME | T_R_YMM | T_R_YMME | T_R_ZMM | T_R_RIP | T_R_K
| T_M8 | T_M16 | T_M32 | T_M48 | T_M64 | T_M80 | T_M128 | T_M256 | T_M512 | T_M_ANY | T_IMM8 | T_IMM16 | T_IMM32 | T_IMM48 | T_IMM64 | T_R_ST0.
Scheme Equality for optype.

(** the type of a memory operand: OP_M, OP_M08 ... OP_M512 *)
Inductive msize := SzNone | Sz8 | Sz16 | Sz32 | Sz48 | Sz64 | Sz80 | Sz128 | Sz256 | Sz512.
(** a memory operand. x_addr: opExpr.kind is EXPR_ADDR (otherwise EXPR_REG, "[reg]"); x_indirect: written with brackets;
    x_sym: the symbol, true if it is on the stack (SYM_STACK); x_value: value64, for a symbol on the stack its offset is
    included; x_fix: there is an InsFixup; x_q: SizeFromMemtype(mem_type) is 8 *)
Record memx := { x_size : msize; x_base : option reg; x_idx : option reg; x_scale : Z; x_value : Z; x_sym : option bool; x_addr : bool; x_indirect : bool; x_fix : bool; x_q : bool }.
(** the type of a constant: OP_I8 ... OP_I64 *)
Inductive isize := I8 | I16 | I32 | I48 | I64.
(** OImm: type, data64, whether there is an InsFixup *)
Inductive opnd := OReg (r : reg) | OMem (m : memx) | OImm (t : isize) (v : Z) (fix_ : bool) | ONone.
Definition base_reg (o : opnd) : option reg := match o with OReg r => Some r | OMem m => x_base m | _ => None end.
Definition idx_reg (o : opnd) : option reg := match o with OMem m => x_idx m | _ => None end.
Definition indirect (o : opnd) : bool := match o with OMem m => x_indirect m | _ => false end.
Definition opn (l : list opnd) (i : nat) : opnd := nth i l ONone.

(** MatchOperand, codegenv2.c:147-345. OP_MMX falls through to OP_ST (337-340). *)
Definition MatchOperand (o : opnd) : optype :=
  match o with
  | OReg (k, n) =>
      match k with
      | K8 => if n =? 0 then T_R8_AL else if n =? 1 then T_R8_CL else if 8 <=? n then T_R8E else T_R8
      | K8H => T_R8H
      | K8U => T_R8U
      | K16 => if n =? 0 then T_R16_AX else if n =? 2 then T_R16_DX else if 8 <=? n then T_R16E else T_R16
      | K32 => if n =? 0 then T_R32_EAX else if 8 <=? n then T_R32E else T_R32
      | K64 => if n =? 0 then T_R64_RAX else if 8 <=? n then T_R64E else T_R64
      | KIP => T_R_RIP
      | KX => T_R_XMM | KY => T_R_YMM | KZ => T_R_ZMM
      | KM => T_R_K
      | KSEG => if 4 <=? n then T_R_SEGE else T_R_SEG
      | KCR => if n =? 8 then T_R_CR8 else T_R_CR
      | KDR => T_R_DR
      | KMM | KST => T_R_ST0
      end
  | OMem m => match x_size m with
              | SzNone => T_M_ANY | Sz8 => T_M8 | Sz16 => T_M16 | Sz32 => T_M32 | Sz48 => T_M48 | Sz64 => T_M64 | Sz80 => T_M80
              | Sz128 => T_M128 | Sz256 => T_M256 | Sz512 => T_M512
              end
  | OImm t _ _ => match t with I8 => T_IMM8 | I16 => T_IMM16 | I32 => T_IMM32 | I48 => T_IMM48 | I64 => T_IMM64 end
  | ONone => T_R_RIP
  end.
(** DemoteOperand, codegenv2.c:115-145 *)
Definition DemoteOperand (t : optype) : optype :=
  match t with
  | T_R8_AL | T_R8_CL => T_R8
  | T_R16_AX | T_R16_DX => T_R16
  | T_R32_EAX => T_R32
  | T_R64_RAX => T_R64
  | T_M8 | T_M16 | T_M32 | T_M48 | T_M64 | T_M80 | T_M128 | T_M256 | T_M512 => T_M_ANY
  | _ => t
  end.

(** ** The rows of the table: struct Instr_Def, H/codegenv2.h:283-306 *)
Inductive group := GP0 | GP1 | GP2 | GP3 | GP4 | SSE0 | AVX0 | AVX1 | EVX0 | MVX0 | FP0 | FP1 | MMX0.
(** flags, vexflags and evexflags, H/codegenv2.h:170-243 (those that the code tests) *)
Inductive flag :=
  F_OPCODE_REG | F_MODRM | F_MODRM_REG | F_MODRM_RM | OPCODE_EXT | REX | REXB | REXX | REXR | REXW | REXP_MEM | EREX | ALLOW_SEG | ALLOW_SEGX
| ALLOW_LOCK | ALLOW_REP | ALLOW_BND | IMM8_ONLY | NO_MEM_REG | DSPW | SRCHDSTL
| VEX | VEX_WIG | VEX_W0 | VEX_W1 | VEX_LIG | VEX_0F | VEX_0F38 | VEX_0F3A | VEX_66 | VEX_F2 | VEX_F3 | VEX_NDS | VEX_DDS | VEX_DUP_NDS | VEX_2OPND
| VEX_3RD_OP | VEX_4OPND | VEX_VSIB | VEX_R | VEX_X | VEX_B | EVEX
| EVEX_ONLY | EVEX_W0 | EVEX_W1 | EVEX_MASK | EVEX_Z | EVEX_BRD | EVEX_RND | EVEX_SAE | EVEX_K | EVEX_VSIB.
Scheme Equality for flag.
Definition has (f : flag) (l : list flag) : bool := existsb (flag_beq f) l.
Inductive cpumode := X16 | X32 | X64.
Definition mode_bit (s : ofssize) : cpumode := match s with USE16 => X16 | USE32 => X32 | USE64 => X64 end.
Definition cpumode_eqb (a b : cpumode) : bool := match a, b with X16, X16 | X32, X32 | X64, X64 => true | _, _ => false end.
Inductive opdir := NO_DST | REG_DST | RM_DST.
Inductive mprefix := NO_PFX | PFX_0xF | PFX_0x66F | PFX_0x66F38 | PFX_0x66F3A | PFX_0xF30F | PFX_0xF20F | PFX_0x0F38 | PFX_0xF3F38 | PFX_0xF2F38.
(** NO_MEM, MEM_OPND_n, MEM_ABS_n *)
Inductive memopnd := NoMem | MemOpnd (i : nat) | MemAbs (i : nat).
Record row := { d_name : string; d_types : list optype; d_group : group; d_flags : list flag; d_vex : list flag; d_evex : list flag; d_elem : Z; d_nop : nat; d_opc : list Z;
                d_size : Z; d_src : nat; d_modrm : Z; d_oso : bool; d_modes : list cpumode; d_dir : opdir; d_pfx : mprefix; d_imm : option nat; d_mem : memopnd }.
Definition I (name : string) (ty : list optype) (g : group) (fl vx ev : list flag) (el : Z) (nop : nat) (opc : list Z) (size : Z) (src : nat) (modrm : Z) (oso : bool) (modes : list cpumode)
  (dir : opdir) (pfx : mprefix) (imm : option nat) (mem : memopnd) : row :=
  {| d_name := name; d_types := ty; d_group := g; d_flags := fl; d_vex := vx; d_evex := ev; d_elem := el; d_nop := nop; d_opc := opc; d_size := size; d_src := src; d_modrm := modrm;
     d_oso := oso; d_modes := modes; d_dir := dir; d_pfx := pfx; d_imm := imm; d_mem := mem |}.

(** ** The state of the parser used *)
Inductive insprefix := P_LOCK | P_REP | P_REPE | P_REPZ | P_REPNE | P_REPNZ | P_BND.
(** c_evex: evex_flag; c_deco, c_broad: decoflags, broadflags; c_sae: evex_sae; c_ins: prefix.ins; c_seg: prefix.RegOverride (ES=0,CS,SS,DS,FS,GS);
    c_stray: what the tests behind the end of opExpr[] find (BuildMemoryEncoding, for MEM_ABS_n) *)
Record ci := { c_mode : ofssize; c_evex : bool; c_deco : Z; c_broad : Z; c_sae : Z; c_ins : option insprefix; c_seg : option Z; c_stray : bool }.

(** ** The lookup *)
(** names are compared and hashed without regard to case *)
Definition lower (c : ascii) : ascii := let n := N_of_ascii c in if andb (65 <=? n)%N (n <=? 90)%N then ascii_of_N (n + 32) else c.
Fixpoint lowers (s : string) : string := match s with EmptyString => EmptyString | String c s => String (lower c) (lowers s) end.
(** strcasecmp(a, b) == 0 *)
Definition same_name (a b : string) : bool := String.eqb (lowers a) (lowers b).
Fixpoint types_eqb (a b : list optype) : bool :=
  match a, b with [], [] => true | x :: a, y :: b => optype_beq x y && types_eqb a b | _, _ => false end.

Section Hash.
(** hash() over the lower-cased mnemonic and the operand types, codegenv2.c:34-46 and 68-91, taken modulo the size of InstrHash:
    any function will do *)
Variable hash : string -> list optype -> nat.
Definition row_hash (d : row) : nat := hash (lowers (d_name d)) (d_types d).
Definition buckets := nat -> list row.
(** InsertInstruction, codegenv2.c:53-66: at the end of the chain *)
Definition InsertInstruction (b : buckets) (d : row) : buckets := fun h => if Nat.eqb h (row_hash d) then b h ++ [d] else b h.
(** BuildInstructionTable, codegenv2.c:93-110 *)
Definition BuildInstructionTable (t : list row) : buckets := fold_left InsertInstruction t (fun _ => []).

(** the tests in the loop of LookupInstruction, codegenv2.c:356-392 *)
Definition row_matches (name : string) (types : list optype) (memreg : bool) (c : ci) (src dst : Z) (d : row) : bool :=
  same_name (d_name d) name && types_eqb (d_types d) types && existsb (cpumode_eqb (mode_bit (c_mode c))) (d_modes d) &&
  negb (memreg && has NO_MEM_REG (d_flags d)) &&
  negb (has SRCHDSTL (d_flags d) &&
        (((src <=? 7) && (7 <? dst)) || ((src <=? 7) && (dst <=? 7)) || ((7 <? src) && (7 <? dst)) || c_evex c)) &&
  (if (c_broad c =? 0) || negb (same_name name "vcvtpd2ps" || same_name name "vcvttpd2dq") then true
   else ((d_elem d =? 2) && (c_broad c =? 0x10)) || ((d_elem d =? 4) && (c_broad c =? 0x20)) || ((d_elem d =? 8) && (c_broad c =? 0x30))).
(** LookupInstruction, codegenv2.c:347-400 *)
Definition LookupInstruction (b : buckets) (name : string) (types : list optype) (memreg : bool) (c : ci) (src dst : Z) : option row :=
  find (row_matches name types memreg c src dst) (b (hash (lowers name) types)).

(** "Fix for byte sized immediate converted to OP_I16", codegenv2.c:1524-1551; [word]: opExpr[1].mem_type is MT_WORD *)
Definition fix_imm (name : string) (word : bool) (l : list opnd) : list opnd :=
  match l with
  | o1 :: OImm t v f :: r =>
      if match t with I8 | I16 => negb word | _ => false end && (swrap 32 v <=? 255) && (-255 <=? swrap 32 v) then
        match o1 with
        | OMem m => match x_size m with
                    | SzNone | Sz8 => OMem {| x_size := Sz8; x_base := x_base m; x_idx := x_idx m; x_scale := x_scale m; x_value := x_value m; x_sym := x_sym m;
                                              x_addr := x_addr m; x_indirect := x_indirect m; x_fix := x_fix m; x_q := x_q m |} :: OImm I8 v f :: r
                    | _ => if same_name name "bt" || same_name name "btc" || same_name name "btr" || same_name name "bts" then o1 :: OImm I8 v f :: r else l
                    end
        | OReg (K8, _) | OReg (K8H, _) | OReg (K8U, _) => o1 :: OImm I8 v f :: r
        | _ => if same_name name "bt" || same_name name "btc" || same_name name "btr" || same_name name "bts" then o1 :: OImm I8 v f :: r else l
        end
      else l
  | _ => l
  end.
(** hasMemReg, codegenv2.c:1572-1584 *)
Definition has_memreg (s : ofssize) (o : opnd) : bool :=
  match o with
  | OMem m => (x_addr m && (match x_base m with Some _ => true | None => false end || match x_idx m with Some _ => true | None => false end)) ||
              (negb (x_addr m) && x_indirect m) ||
              (ofs_eqb s USE64 && match x_sym m with Some _ => true | None => false end)
  | _ => false
  end.
Definition gp_group (g : group) : bool := match g with GP0 | GP1 | GP2 | GP3 | GP4 => true | _ => false end.
Definition memidx (m : memopnd) : nat := match m with NoMem => 5 | MemOpnd i | MemAbs i => i end.
(** the first part of CodeGenV2, codegenv2.c:1567-1637: operand types, lookup, second lookup with demoted operands, and
    the test for absolute addresses. None: EMPTY, the legacy generator is used. *)
Definition select (b : buckets) (name : string) (c : ci) (l : list opnd) : option row :=
  let types := map MatchOperand l in
  let memreg := existsb (has_memreg (c_mode c)) l in
  let dst := match base_reg (opn l 0) with Some r => regno (Some r) | None => 0 end in
  let src := match base_reg (opn l 1) with Some r => regno (Some r) | None => 0 end in
  let found := match LookupInstruction b name types memreg c src dst with
               | Some d => Some d
               | None => LookupInstruction b name (map DemoteOperand types) memreg c src dst
               end in
  match found with
  | Some d =>
      match d_mem d with
      | NoMem => Some d
      | m => if ofs_eqb (c_mode c) USE64 && negb (same_name name "movabs") && gp_group (d_group d) && negb memreg then
               let data := match opn l (memidx m) with OMem x => wrap 64 (x_value x) | OImm _ v _ => wrap 64 v | _ => 0 end in
               if (- 2 ^ 31 <? swrap 32 data) && (data <? 2 ^ 32 - 1) then None else Some d
             else Some d
      end
  | None => None
  end.
End Hash.

(** ** Encoding *)
(** BuildModRM, codegenv2.c:583-634 *)
Definition isvex (d : row) : bool := has VEX (d_vex d) || has EVEX (d_vex d).
Definition sourceIdx (d : row) : nat :=
  if isvex d && negb (has VEX_DUP_NDS (d_vex d)) && negb (has VEX_2OPND (d_vex d)) && negb (has VEX_3RD_OP (d_vex d)) then 2%nat else 1%nat.
Definition BuildModRM (d : row) (l : list opnd) : Z * bool :=
  if has F_MODRM (d_flags d) then
    let f := d_flags d in
    let m := d_modrm d in
    let m := if has OPCODE_EXT f then Z.lor m (Z.shiftl (nth (d_nop d) (d_opc d) 0) 3) else m in
    let rg i := Z.land (regno (base_reg (opn l i))) 7 in
    let m := if has F_MODRM_REG f then match d_dir d with REG_DST => Z.lor m (Z.shiftl (rg 0%nat) 3) | RM_DST => Z.lor m (Z.shiftl (rg (sourceIdx d)) 3) | NO_DST => m end else m in
    let m := if has F_MODRM_RM f then match d_dir d with REG_DST => Z.lor m (rg (sourceIdx d)) | RM_DST => Z.lor m (rg 0%nat) | NO_DST => m end else m in
    (m, true)
  else (d_modrm d, false).

(** opnd[i].base_reg && GetRegisterNo(opnd[i].base_reg) > k *)
Definition above (k : Z) (o : opnd) : bool := match base_reg o with Some r => k <? regno (Some r) | None => false end.
(** BuildREX, codegenv2.c:639-690 (called in 64-bit code only, so that the error of 680 cannot occur) *)
Definition BuildREX (rex : Z) (d : row) (l : list opnd) : Z :=
  let f := d_flags d in
  let rex := if has REX f then
               let rex := Z.lor rex 0x40 in
               let rex := if has REXB f then Z.lor rex 1 else rex in
               let rex := if has REXX f then Z.lor rex 2 else rex in
               let rex := if has REXR f then Z.lor rex 4 else rex in
               if has REXW f then Z.lor rex 8 else rex
             else rex in
  let rex := if has EREX f then
               match d_dir d with
               | REG_DST => let rex := if above 7 (opn l 0) then Z.lor rex 0x44 else rex in if above 7 (opn l (d_src d)) then Z.lor rex 0x41 else rex
               | _ => let rex := if above 7 (opn l 0) then Z.lor rex 0x41 else rex in if above 7 (opn l (d_src d)) then Z.lor rex 0x44 else rex
               end
             else rex in
  if has REXP_MEM f && match opn l (memidx (d_mem d)) with OMem m => x_q m | _ => false end then Z.lor rex 0x48 else rex.

Definition b2z (b : bool) : Z := if b then 1 else 0.
(** ~v & 0xf *)
Definition inv4 (v : Z) : Z := Z.lxor (Z.land v 15) 15.
Definition pp_of (f : list flag) : Z := if has VEX_66 f then 1 else if has VEX_F3 f then 2 else if has VEX_F2 f then 3 else 0.
Definition map_of (f : list flag) : Z := if has VEX_0F f then 1 else if has VEX_0F38 f then 2 else if has VEX_0F3A f then 3 else 0.
(** BuildVEX, codegenv2.c:697-840: the fields R X B (true: the inverted bit is 0), W, vvvv, L, pp, map *)
Record vexf := { v_r : bool; v_x : bool; v_b : bool; v_w : bool; v_vvvv : Z; v_l : Z; v_pp : Z; v_map : Z }.
Definition vex_fields (d : row) (l : list opnd) (needB needX : bool) : vexf :=
  let f := d_vex d in
  let rn i := regno (base_reg (opn l i)) in
  let vvvv := if has VEX_3RD_OP f then rn 2%nat else if has VEX_NDS f then rn 1%nat else if has VEX_DDS f then rn 2%nat else 0 in
  let vvvv := if has VEX_DUP_NDS f then rn 0%nat else vvvv in
  let direct o := negb (indirect o) && above 7 o in
  {| v_r := has VEX_R f || match d_dir d with REG_DST => above 7 (opn l 0) | RM_DST => above 7 (opn l (d_src d)) | NO_DST => false end;
     v_x := has VEX_X f || needX;
     v_b := has VEX_B f || needB || match d_dir d with REG_DST => direct (opn l (d_src d)) | RM_DST => direct (opn l 0) | NO_DST => false end;
     v_w := negb (has VEX_W0 f) && has VEX_W1 f;
     v_vvvv := vvvv; v_l := if d_size d =? 32 then 1 else 0; v_pp := pp_of f; v_map := map_of f |}.
Definition vex_three (d : row) (v : vexf) : bool :=
  (* vexSize: 3 if W1 or one of the maps 0F38, 0F3A; 2 if it may be; 3 if X or B *)
  let three := v_w v || has VEX_0F38 (d_vex d) || has VEX_0F3A (d_vex d) in
  let two := (has VEX_WIG (d_vex d) && negb (v_x v) && negb (v_b v) && (v_map v =? 1)) || (negb three && negb (v_x v) && negb (v_b v)) in
  v_x v || v_b v || (three && negb two).
Definition pack_vex (three : bool) (v : vexf) : list Z :=
  if three then
    [0xC4; Z.lor (Z.lor (Z.shiftl (b2z (negb (v_r v))) 7) (Z.shiftl (b2z (negb (v_x v))) 6)) (Z.lor (Z.shiftl (b2z (negb (v_b v))) 5) (v_map v));
     Z.lor (Z.lor (Z.shiftl (b2z (v_w v)) 7) (Z.shiftl (inv4 (v_vvvv v)) 3)) (Z.lor (Z.shiftl (v_l v) 2) (v_pp v))]
  else [0xC5; Z.lor (Z.lor (v_pp v) (Z.shiftl (v_l v) 2)) (Z.lor (Z.shiftl (inv4 (v_vvvv v)) 3) (Z.shiftl (b2z (negb (v_r v))) 7))].
Definition BuildVEX (d : row) (l : list opnd) (needB needX : bool) : list Z :=
  let v := vex_fields d l needB needX in pack_vex (vex_three d v) v.

(** BuildEVEX, codegenv2.c:844-1146. e_r, e_x, e_b, e_r2, e_v2: true if the bit R, X, B, R', V' is 0 in the (inverted) encoding. *)
Record evexf := { e_r : bool; e_x : bool; e_b : bool; e_r2 : bool; e_v2 : bool; e_w : bool; e_vvvv : Z; e_ll : Z; e_pp : Z; e_map : Z; e_z : bool; e_bc : bool; e_aaa : Z }.
Definition is_m (o : opnd) : bool := match o with OMem _ => true | _ => false end.
Definition bc_elems (n : Z) : Z := if n =? 16 then 0x40 else if n =? 8 then 0x30 else if n =? 4 then 0x20 else if n =? 2 then 0x10 else 0.
Definition evex_ok (d : row) (l : list opnd) (c : ci) (broad : Z) : bool :=
  let f := d_evex d in let aaa := Z.land (c_deco c) 7 in
  negb (has EVEX_K f && (aaa =? 0)) &&
  negb (((d_elem d =? 16) || (d_elem d =? 8) || (d_elem d =? 4) || (d_elem d =? 2) || (d_elem d =? 1)) && negb (broad =? bc_elems (d_elem d)) && negb (broad =? 0)) &&
  negb (negb (broad =? 0) && negb (has EVEX_BRD f)) &&
  negb (negb (has EVEX_MASK f) && negb (aaa =? 0)) &&
  negb (negb (has EVEX_Z f) && Z.testbit (c_deco c) 7) &&
  (if c_sae c =? 0 then true
   else if has EVEX_SAE f then c_sae c <=? 0x10
   else if has EVEX_RND f then negb (c_sae c =? 0x10) && negb (is_m (opn l 0) || is_m (opn l 1) || is_m (opn l 2)) else true).
(** the extension of a register operand that is encoded in ModRM.reg: bits 3 and 4; in ModRM.rm: bits 3 (B) and 4 (X) *)
Definition bit3 (n : Z) : bool := if 15 <? n then 23 <? n else 7 <? n.
Definition bit4 (n : Z) : bool := 15 <? n.
(** the same tests with "base_reg &&" in front (1058-1077) *)
Definition nbase (o : opnd) : Z := match base_reg o with Some r => regno (Some r) | None => 0 end.
Definition evex_fields (d : row) (l : list opnd) (c : ci) (broad : Z) (needB needX needRR : bool) : evexf :=
  let f := d_vex d in let ev := d_evex d in
  let rn i := regno (base_reg (opn l i)) in
  let '(vvvv, v2) := if has VEX_NDS f then (rn 1%nat, bit4 (rn 1%nat)) else if has VEX_DDS f then (rn 2%nat, bit4 (rn 2%nat)) else (0, false) in
  let m := opn l (memidx (d_mem d)) in
  let vsib k := above k m || match idx_reg m with Some r => k <? regno (Some r) | None => false end in
  let v2 := if has EVEX_VSIB ev then vsib 15 else v2 in
  let x := if has EVEX_VSIB ev then vsib 23 else false in
  let o0 := opn l 0 in let os := opn l (d_src d) in
  (* R and R' *)
  let '(r, r2) := match d_dir d with
                  | REG_DST => if indirect o0 then (false, negb needRR) else (bit3 (rn 0%nat), bit4 (rn 0%nat))
                  | RM_DST => if indirect os then (false, true) else (bit3 (rn (d_src d)), bit4 (rn (d_src d)))
                  | NO_DST => (false, true)
                  end in
  let r2 := if has OPCODE_EXT (d_flags d) then false else r2 in
  let '(x, b) := match d_dir d with
                 | REG_DST => if indirect os then (x, false) else (bit4 (nbase os), bit3 (nbase os))
                 | RM_DST => if indirect o0 then (x, false) else (bit4 (rn 0%nat), bit3 (rn 0%nat))
                 | NO_DST => (x, false)
                 end in
  let '(ll, rc) := if c_sae c =? 0 then (if d_size d =? 32 then 1 else if d_size d =? 64 then 2 else 0, false)
                   else if (c_sae c =? 0x10) || (c_sae c =? 0x20) then (0, true) else if c_sae c =? 0x40 then (1, true)
                   else if c_sae c =? 0x60 then (2, true) else if c_sae c =? 0x80 then (3, true)
                   else (if d_size d =? 32 then 1 else if d_size d =? 64 then 2 else 0, false) in
  {| e_r := r || has VEX_R f; e_x := x || has VEX_X f || needX; e_b := b || has VEX_B f || needB; e_r2 := r2; e_v2 := v2;
     e_w := negb (has EVEX_W0 ev) && has EVEX_W1 ev; e_vvvv := vvvv; e_ll := ll; e_pp := pp_of f; e_map := map_of f;
     e_z := Z.testbit (c_deco c) 7; e_bc := rc || negb (broad =? 0); e_aaa := Z.land (c_deco c) 7 |}.
Definition pack_evex (e : evexf) : list Z :=
  let bit b n := Z.shiftl (b2z b) n in
  [0x62;
   Z.lor (Z.lor (bit (negb (e_r e)) 7) (bit (negb (e_x e)) 6)) (Z.lor (Z.lor (bit (negb (e_b e)) 5) (bit (negb (e_r2 e)) 4)) (Z.land (e_map e) 3));
   Z.lor (Z.lor (bit (e_w e) 7) (Z.shiftl (inv4 (e_vvvv e)) 3)) (Z.lor 4 (Z.land (e_pp e) 3));
   Z.lor (Z.lor (bit (e_z e) 7) (Z.shiftl (e_ll e) 5)) (Z.lor (bit (e_bc e) 4) (Z.lor (bit (negb (e_v2 e)) 3) (Z.land (e_aaa e) 7)))].

(** CompDisp, codegenv2.c:1151-1170: whether the displacement may be a byte, and the displacement changed in place *)
Definition CompDisp (v : Z) (d : row) (c : ci) (broad : Z) : bool * Z :=
  let elements := if (broad =? 0) && has EVEX_BRD (d_evex d) then 1 else d_elem d in
  let n := Z.quot (d_size d) elements in
  if c_evex c then
    if (-(128 * n) <=? v) && (v <=? 127 * n) then if Z.rem v n =? 0 then (true, Z.quot v n) else (false, v) else (false, v)
  else (true, v).
(** H/MemTable64.h and H/MemTable32.h: ModRM, flags (1: ModRM, 2: SIB, 4: displacement, 8: 32-bit displacement, 16: cannot be encoded), SIB,
    for base register 0-15, RIP (16), none (17), 18 entries each for the index *)
Definition MemTable64 : list (Z * Z * Z) := [
  (4,3,0x00); (4,3,0x08); (4,3,0x10); (4,3,0x18); (4,3,0x20); (4,3,0x28); (4,3,0x30); (4,3,0x38); (4,3,0x00); (4,3,0x08); (4,3,0x10); (4,3,0x18); (4,3,0x20); (4,3,0x28); (4,3,0x30); (4,3,0x38); (4,19,0x28); (0,1,0x00);
  (4,3,0x01); (4,3,0x09); (4,3,0x11); (4,3,0x19); (4,3,0x21); (4,3,0x29); (4,3,0x31); (4,3,0x39); (4,3,0x01); (4,3,0x09); (4,3,0x11); (4,3,0x19); (4,3,0x21); (4,3,0x29); (4,3,0x31); (4,3,0x39); (4,19,0x29); (1,1,0x00);
  (4,3,0x02); (4,3,0x0a); (4,3,0x12); (4,3,0x1a); (4,3,0x22); (4,3,0x2a); (4,3,0x32); (4,3,0x3a); (4,3,0x02); (4,3,0x0a); (4,3,0x12); (4,3,0x1a); (4,3,0x22); (4,3,0x2a); (4,3,0x32); (4,3,0x3a); (4,19,0x2a); (2,1,0x00);
  (4,3,0x03); (4,3,0x0b); (4,3,0x13); (4,3,0x1b); (4,3,0x23); (4,3,0x2b); (4,3,0x33); (4,3,0x3b); (4,3,0x03); (4,3,0x0b); (4,3,0x13); (4,3,0x1b); (4,3,0x23); (4,3,0x2b); (4,3,0x33); (4,3,0x3b); (4,19,0x2b); (3,1,0x00);
  (4,3,0x04); (4,3,0x0c); (4,3,0x14); (4,3,0x1c); (4,3,0x24); (4,3,0x2c); (4,3,0x34); (4,3,0x3c); (4,3,0x04); (4,3,0x0c); (4,3,0x14); (4,3,0x1c); (4,3,0x24); (4,3,0x2c); (4,3,0x34); (4,3,0x3c); (4,19,0x2c); (4,3,0x24);
  (4,7,0x05); (4,7,0x0d); (4,7,0x15); (4,7,0x1d); (4,7,0x25); (4,7,0x2d); (4,7,0x35); (4,7,0x3d); (4,7,0x05); (4,7,0x0d); (4,7,0x15); (4,7,0x1d); (4,7,0x25); (4,7,0x2d); (4,7,0x35); (4,7,0x3d); (4,19,0x2d); (5,5,0x00);
  (4,3,0x06); (4,3,0x0e); (4,3,0x16); (4,3,0x1e); (4,3,0x26); (4,3,0x2e); (4,3,0x36); (4,3,0x3e); (4,3,0x06); (4,3,0x0e); (4,3,0x16); (4,3,0x1e); (4,3,0x26); (4,3,0x2e); (4,3,0x36); (4,3,0x3e); (4,19,0x2e); (6,1,0x00);
  (4,3,0x07); (4,3,0x0f); (4,3,0x17); (4,3,0x1f); (4,3,0x27); (4,3,0x2f); (4,3,0x37); (4,3,0x3f); (4,3,0x07); (4,3,0x0f); (4,3,0x17); (4,3,0x1f); (4,3,0x27); (4,3,0x2f); (4,3,0x37); (4,3,0x3f); (4,19,0x2f); (7,1,0x00);
  (4,3,0x00); (4,3,0x08); (4,3,0x10); (4,3,0x18); (4,3,0x20); (4,3,0x28); (4,3,0x30); (4,3,0x38); (4,3,0x00); (4,3,0x08); (4,3,0x10); (4,3,0x18); (4,3,0x20); (4,3,0x28); (4,3,0x30); (4,3,0x38); (4,19,0x28); (0,1,0x00);
  (4,3,0x01); (4,3,0x09); (4,3,0x11); (4,3,0x19); (4,3,0x21); (4,3,0x29); (4,3,0x31); (4,3,0x39); (4,3,0x01); (4,3,0x09); (4,3,0x11); (4,3,0x19); (4,3,0x21); (4,3,0x29); (4,3,0x31); (4,3,0x39); (4,19,0x29); (1,1,0x00);
  (4,3,0x02); (4,3,0x0a); (4,3,0x12); (4,3,0x1a); (4,3,0x22); (4,3,0x2a); (4,3,0x32); (4,3,0x3a); (4,3,0x02); (4,3,0x0a); (4,3,0x12); (4,3,0x1a); (4,3,0x22); (4,3,0x2a); (4,3,0x32); (4,3,0x3a); (4,19,0x2a); (2,1,0x00);
  (4,3,0x03); (4,3,0x0b); (4,3,0x13); (4,3,0x1b); (4,3,0x23); (4,3,0x2b); (4,3,0x33); (4,3,0x3b); (4,3,0x03); (4,3,0x0b); (4,3,0x13); (4,3,0x1b); (4,3,0x23); (4,3,0x2b); (4,3,0x33); (4,3,0x3b); (4,19,0x2b); (3,1,0x00);
  (4,3,0x04); (4,3,0x0c); (4,3,0x14); (4,3,0x1c); (4,3,0x24); (4,3,0x2c); (4,3,0x34); (4,3,0x3c); (4,3,0x04); (4,3,0x0c); (4,3,0x14); (4,3,0x1c); (4,3,0x24); (4,3,0x2c); (4,3,0x34); (4,3,0x3c); (4,19,0x2c); (4,3,0x24);
  (4,7,0x05); (4,7,0x0d); (4,7,0x15); (4,7,0x1d); (4,7,0x25); (4,7,0x2d); (4,7,0x35); (4,7,0x3d); (4,7,0x05); (4,7,0x0d); (4,7,0x15); (4,7,0x1d); (4,7,0x25); (4,7,0x2d); (4,7,0x35); (4,7,0x3d); (4,19,0x2d); (5,5,0x00);
  (4,3,0x06); (4,3,0x0e); (4,3,0x16); (4,3,0x1e); (4,3,0x26); (4,3,0x2e); (4,3,0x36); (4,3,0x3e); (4,3,0x06); (4,3,0x0e); (4,3,0x16); (4,3,0x1e); (4,3,0x26); (4,3,0x2e); (4,3,0x36); (4,3,0x3e); (4,19,0x2e); (6,1,0x00);
  (4,3,0x07); (4,3,0x0f); (4,3,0x17); (4,3,0x1f); (4,3,0x27); (4,3,0x2f); (4,3,0x37); (4,3,0x3f); (4,3,0x07); (4,3,0x0f); (4,3,0x17); (4,3,0x1f); (4,3,0x27); (4,3,0x2f); (4,3,0x37); (4,3,0x3f); (4,19,0x2f); (7,1,0x00);
  (4,16,0x00); (4,16,0x00); (4,16,0x00); (4,16,0x00); (4,16,0x00); (4,16,0x00); (4,16,0x00); (4,16,0x00); (4,16,0x00); (4,16,0x00); (4,16,0x00); (4,16,0x00); (4,16,0x00); (4,16,0x00); (4,16,0x00); (4,16,0x00); (4,16,0x00); (5,9,0x00);
  (4,11,0x05); (4,11,0x0d); (4,11,0x15); (4,11,0x1d); (4,11,0x25); (4,11,0x2d); (4,11,0x35); (4,11,0x3d); (4,11,0x05); (4,11,0x0d); (4,11,0x15); (4,11,0x1d); (4,11,0x25); (4,11,0x2d); (4,11,0x35); (4,11,0x3d); (4,11,0x2d); (4,11,0x25)].
Definition MemTable32 : list (Z * Z * Z) := [
  (4,3,0x00); (4,3,0x08); (4,3,0x10); (4,3,0x18); (4,3,0x20); (4,3,0x28); (4,3,0x30); (4,3,0x38); (4,3,0x00); (4,3,0x08); (4,3,0x10); (4,3,0x18); (4,3,0x20); (4,3,0x28); (4,3,0x30); (4,3,0x38); (4,19,0x28); (0,1,0x00);
  (4,3,0x01); (4,3,0x09); (4,3,0x11); (4,3,0x19); (4,3,0x21); (4,3,0x29); (4,3,0x31); (4,3,0x39); (4,3,0x01); (4,3,0x09); (4,3,0x11); (4,3,0x19); (4,3,0x21); (4,3,0x29); (4,3,0x31); (4,3,0x39); (4,19,0x29); (1,1,0x00);
  (4,3,0x02); (4,3,0x0a); (4,3,0x12); (4,3,0x1a); (4,3,0x22); (4,3,0x2a); (4,3,0x32); (4,3,0x3a); (4,3,0x02); (4,3,0x0a); (4,3,0x12); (4,3,0x1a); (4,3,0x22); (4,3,0x2a); (4,3,0x32); (4,3,0x3a); (4,19,0x2a); (2,1,0x00);
  (4,3,0x03); (4,3,0x0b); (4,3,0x13); (4,3,0x1b); (4,3,0x23); (4,3,0x2b); (4,3,0x33); (4,3,0x3b); (4,3,0x03); (4,3,0x0b); (4,3,0x13); (4,3,0x1b); (4,3,0x23); (4,3,0x2b); (4,3,0x33); (4,3,0x3b); (4,19,0x2b); (3,1,0x00);
  (4,3,0x04); (4,3,0x0c); (4,3,0x14); (4,3,0x1c); (4,3,0x24); (4,3,0x2c); (4,3,0x34); (4,3,0x3c); (4,3,0x04); (4,3,0x0c); (4,3,0x14); (4,3,0x1c); (4,3,0x24); (4,3,0x2c); (4,3,0x34); (4,3,0x3c); (4,19,0x2c); (4,3,0x24);
  (4,7,0x05); (4,7,0x0d); (4,7,0x15); (4,7,0x1d); (4,7,0x25); (4,7,0x2d); (4,7,0x35); (4,7,0x3d); (4,7,0x05); (4,7,0x0d); (4,7,0x15); (4,7,0x1d); (4,7,0x25); (4,7,0x2d); (4,7,0x35); (4,7,0x3d); (4,19,0x2d); (5,5,0x00);
  (4,3,0x06); (4,3,0x0e); (4,3,0x16); (4,3,0x1e); (4,3,0x26); (4,3,0x2e); (4,3,0x36); (4,3,0x3e); (4,3,0x06); (4,3,0x0e); (4,3,0x16); (4,3,0x1e); (4,3,0x26); (4,3,0x2e); (4,3,0x36); (4,3,0x3e); (4,19,0x2e); (6,1,0x00);
  (4,3,0x07); (4,3,0x0f); (4,3,0x17); (4,3,0x1f); (4,3,0x27); (4,3,0x2f); (4,3,0x37); (4,3,0x3f); (4,3,0x07); (4,3,0x0f); (4,3,0x17); (4,3,0x1f); (4,3,0x27); (4,3,0x2f); (4,3,0x37); (4,3,0x3f); (4,19,0x2f); (7,1,0x00);
  (4,3,0x00); (4,3,0x08); (4,3,0x10); (4,3,0x18); (4,3,0x20); (4,3,0x28); (4,3,0x30); (4,3,0x38); (4,3,0x00); (4,3,0x08); (4,3,0x10); (4,3,0x18); (4,3,0x20); (4,3,0x28); (4,3,0x30); (4,3,0x38); (4,19,0x28); (0,1,0x00);
  (4,3,0x01); (4,3,0x09); (4,3,0x11); (4,3,0x19); (4,3,0x21); (4,3,0x29); (4,3,0x31); (4,3,0x39); (4,3,0x01); (4,3,0x09); (4,3,0x11); (4,3,0x19); (4,3,0x21); (4,3,0x29); (4,3,0x31); (4,3,0x39); (4,19,0x29); (1,1,0x00);
  (4,3,0x02); (4,3,0x0a); (4,3,0x12); (4,3,0x1a); (4,3,0x22); (4,3,0x2a); (4,3,0x32); (4,3,0x3a); (4,3,0x02); (4,3,0x0a); (4,3,0x12); (4,3,0x1a); (4,3,0x22); (4,3,0x2a); (4,3,0x32); (4,3,0x3a); (4,19,0x2a); (2,1,0x00);
  (4,3,0x03); (4,3,0x0b); (4,3,0x13); (4,3,0x1b); (4,3,0x23); (4,3,0x2b); (4,3,0x33); (4,3,0x3b); (4,3,0x03); (4,3,0x0b); (4,3,0x13); (4,3,0x1b); (4,3,0x23); (4,3,0x2b); (4,3,0x33); (4,3,0x3b); (4,19,0x2b); (3,1,0x00);
  (4,3,0x04); (4,3,0x0c); (4,3,0x14); (4,3,0x1c); (4,3,0x24); (4,3,0x2c); (4,3,0x34); (4,3,0x3c); (4,3,0x04); (4,3,0x0c); (4,3,0x14); (4,3,0x1c); (4,3,0x24); (4,3,0x2c); (4,3,0x34); (4,3,0x3c); (4,19,0x2c); (4,3,0x24);
  (4,3,0x05); (4,3,0x0d); (4,3,0x15); (4,3,0x1d); (4,3,0x25); (4,3,0x2d); (4,3,0x35); (4,3,0x3d); (4,3,0x05); (4,3,0x0d); (4,3,0x15); (4,3,0x1d); (4,3,0x25); (4,3,0x2d); (4,3,0x35); (4,3,0x3d); (4,19,0x2d); (5,5,0x00);
  (4,3,0x06); (4,3,0x0e); (4,3,0x16); (4,3,0x1e); (4,3,0x26); (4,3,0x2e); (4,3,0x36); (4,3,0x3e); (4,3,0x06); (4,3,0x0e); (4,3,0x16); (4,3,0x1e); (4,3,0x26); (4,3,0x2e); (4,3,0x36); (4,3,0x3e); (4,19,0x2e); (6,1,0x00);
  (4,3,0x07); (4,3,0x0f); (4,3,0x17); (4,3,0x1f); (4,3,0x27); (4,3,0x2f); (4,3,0x37); (4,3,0x3f); (4,3,0x07); (4,3,0x0f); (4,3,0x17); (4,3,0x1f); (4,3,0x27); (4,3,0x2f); (4,3,0x37); (4,3,0x3f); (4,19,0x2f); (7,1,0x00);
  (4,16,0x00); (4,16,0x00); (4,16,0x00); (4,16,0x00); (4,16,0x00); (4,16,0x00); (4,16,0x00); (4,16,0x00); (4,16,0x00); (4,16,0x00); (4,16,0x00); (4,16,0x00); (4,16,0x00); (4,16,0x00); (4,16,0x00); (4,16,0x00); (4,16,0x00); (5,9,0x00);
  (4,11,0x05); (4,11,0x0d); (4,11,0x15); (4,11,0x1d); (4,11,0x25); (4,11,0x2d); (4,11,0x35); (4,11,0x3d); (4,11,0x05); (4,11,0x0d); (4,11,0x15); (4,11,0x1d); (4,11,0x25); (4,11,0x2d); (4,11,0x35); (4,11,0x3d); (4,11,0x2d); (5,9,0x00)].

(** ** BuildMemoryEncoding, codegenv2.c:1207-1455 *)
Record menc := { n_modrm : Z; n_sib : Z; n_rex : Z; n_needmod : bool; n_needsib : bool; n_dsize : nat; n_disp : Z; n_B : bool; n_X : bool; n_RR : bool; n_aso : bool; n_oob : bool }.
Definition tab (s : ofssize) (b x : Z) : Z * Z * Z := nth (Z.to_nat (b * 18 + x mod 18)) (match s with USE64 => MemTable64 | _ => MemTable32 end) (0, 0, 0).
Definition regis (r : option reg) (n : Z) : bool := match r with Some (K16, m) => m =? n | _ => false end.
(** the chain of comparisons for 16-bit addressing, 1306-1328 *)
Definition modrm16 (m : memx) : Z :=
  let b := regis (x_base m) in let x := regis (x_idx m) in
  if b 3 && x 6 then 0 else if b 3 && x 7 then 1 else if b 5 && x 6 then 2 else if b 5 && x 7 then 3 else if b 6 then 4 else if b 7 then 5
  else match x_base m, x_idx m with None, None => 6 | _, _ => if b 3 then 7 else 0 end.
Definition scale_bits (s : Z) : Z := if s =? 2 then 1 else if s =? 4 then 2 else if s =? 8 then 3 else 0.
Definition BuildMemoryEncoding (d : row) (m : memx) (c : ci) (broad : Z) : res menc :=
  let s := c_mode c in
  let abs := match d_mem d with MemAbs _ => true | _ => false end in
  let b0 := if abs then 17 else regno (x_base m) in
  let i0 := if abs then 17 else regno (x_idx m) in
  let '(b1, i1) := if negb abs && has VEX_VSIB (d_vex d) && simd (x_base m) then (i0, b0) else (b0, i0) in
  let rr := negb abs && has EVEX_VSIB (d_evex d) && (15 <? i1) in
  let i2 := if rr then Z.land i1 7 else i1 in
  let bs := if abs then 0 else regsize s (x_base m) in
  let is := if abs then 0 else regsize s (x_idx m) in
  if negb (bs =? is) && (is <? 16) && (0 <? is) && (0 <? bs) then Err
  else if ofs_eqb s USE64 && (bs =? 2) then Err
  else if ((7 <? i2) || (7 <? b1)) && negb (ofs_eqb s USE64) && (i2 <? 16) && (b1 <? 16) then Err
  else
    (* opExpr[instr->memOpnd] is beyond the end of opExpr[4] for MEM_ABS_n (8 or 9) *)
    let symaddr := if abs then c_stray c else match x_sym m with Some _ => x_addr m | None => false end in
    let stack := match x_sym m with Some st => st | None => false end in
    let b2 := if symaddr && ofs_eqb s USE64 && (if abs then true else negb stack) && (b1 =? 17) then 16 else b1 in
    let aso := negb symaddr && ((ofs_eqb s USE64 && (bs =? 4)) || (ofs_eqb s USE32 && (bs =? 2)) || (ofs_eqb s USE16 && (bs =? 4))) in
    let a16 := ofs_eqb s USE32 && (bs =? 2) in
    let '(tm, tf, ts) := if a16 then tab s 0 0 else tab s b2 i2 in
    if negb a16 && negb abs && Z.testbit tf 4 then Err
    else
      let modrm := if abs then 0 else if a16 then modrm16 m else if Z.testbit tf 0 then tm else 0 in
      let needmod := negb abs && (a16 || Z.testbit tf 0) in
      let sib := if negb abs && negb a16 && Z.testbit tf 1 then ts else 0 in
      let needsib := negb abs && negb a16 && Z.testbit tf 1 in
      let nsym := match x_sym m with Some st => negb st | None => false end in
      let value := swrap 32 (x_value m) in
      (* displacement *)
      let '(dsize, disp, modrm) :=
        if abs then ((match s with USE16 => 2%nat | USE32 => 4%nat | USE64 => 8%nat end), x_value m, modrm)
        else if negb (value =? 0) || Z.testbit tf 2 || Z.testbit tf 3 || nsym then
          let '(ok, v) := CompDisp value d c broad in
          if ok && negb nsym && negb (Z.testbit tf 3) && (-128 <=? v) && (v <=? 127) then (1%nat, v, Z.lor modrm 0x40)
          else ((match s with USE16 => 2%nat | _ => 4%nat end), v, if Z.testbit tf 3 then modrm else Z.lor modrm 0x80)
        else (0%nat, 0, modrm) in
      let B := (7 <? b2) && (b2 <? 16) in
      let X := (7 <? i2) && (i2 <? 16) in
      let novex := match d_vex d with [] => true | _ => false end in
      let rex := Z.lor (if B && novex then 0x41 else 0) (if X && novex then 0x42 else 0) in
      let addsib := negb a16 && negb abs && ((1 <? x_scale m) || match x_idx m with Some _ => true | None => false end || Z.testbit tf 1) in
      Ok {| n_modrm := modrm; n_sib := if addsib then Z.lor sib (Z.shiftl (scale_bits (x_scale m)) 6) else sib; n_rex := rex; n_needmod := needmod; n_needsib := needsib || addsib;
            n_dsize := dsize; n_disp := disp; n_B := B; n_X := X; n_RR := rr; n_aso := aso; n_oob := abs |}.

(** PromoteBroadcast, codegenv2.c:1465-1478 *)
Definition PromoteBroadcast (d : row) (broad : Z) : Z :=
  if same_name (d_name d) "vcvtdq2pd" then
    let t := nth 0 (d_types d) T_R_RIP in
    if (broad =? 0x40) && optype_beq t T_R_ZMM then 0x30
    else if (broad =? 0x30) && optype_beq t T_R_YMM then 0x20
    else if (broad =? 0x20) && optype_beq t T_R_XMM then 0x10 else broad
  else broad.

(** the prefixes before the instruction, codegenv2.c:1718-1747: an error unless the row allows them *)
Definition ins_prefix (d : row) (p : option insprefix) : res (list Z) :=
  match p with
  | None => Ok []
  | Some p =>
      let '(f, b) := match p with P_BND => (ALLOW_BND, 0xF2) | P_LOCK => (ALLOW_LOCK, 0xF0) | P_REP | P_REPE | P_REPZ => (ALLOW_REP, 0xF3) | P_REPNE | P_REPNZ => (ALLOW_REP, 0xF2) end in
      if has f (d_flags d) then Ok [b] else Err
  end.
(** Require_OPND_Size_Override, codegenv2.c:402-412 *)
Definition use_oso (d : row) (s : ofssize) : bool :=
  d_oso d && match s with USE16 => d_size d =? 4 | _ => d_size d =? 2 end.
(** the segment prefix, codegenv2.c:1754-1814 *)
Definition seg_byte (r : Z) : list Z :=
  if r =? 0 then [0x26] else if r =? 1 then [0x2E] else if r =? 2 then [0x36] else if r =? 3 then [0x3E] else if r =? 4 then [0x64] else if r =? 5 then [0x65] else [].
Definition seg_prefix (d : row) (c : ci) : res (list Z) :=
  match c_seg c with
  | None => Ok []
  | Some r =>
      if has ALLOW_SEG (d_flags d) then
        if ofs_eqb (c_mode c) USE64 && ((r =? 4) || (r =? 5) || (r =? 2)) then Ok (seg_byte r)
        else if ofs_eqb (c_mode c) USE64 && negb (has ALLOW_SEGX (d_flags d)) then Err
        else Ok (seg_byte r)
      else Err
  end.
(** mandatory prefix, codegenv2.c:1841-1855 and 1867-1895 *)
Definition mand1 (p : mprefix) : list Z :=
  match p with
  | PFX_0x66F3A | PFX_0x66F38 | PFX_0x66F => [0x66]
  | PFX_0xF3F38 | PFX_0xF30F => [0xF3]
  | PFX_0xF2F38 | PFX_0xF20F => [0xF2]
  | _ => []
  end.
Definition mand2 (p : mprefix) : list Z :=
  match p with
  | PFX_0xF | PFX_0x66F | PFX_0xF30F | PFX_0xF20F => [0x0F]
  | PFX_0x66F38 | PFX_0x0F38 | PFX_0xF3F38 | PFX_0xF2F38 => [0x0F; 0x38]
  | PFX_0x66F3A => [0x0F; 0x3A]
  | NO_PFX => []
  end.
Definition opcode_bytes (d : row) (l : list opnd) : list Z :=
  if has F_OPCODE_REG (d_flags d) then [wrap 8 (nth 0 (d_opc d) 0 + Z.land (regno (base_reg (opn l 0))) 7)] else firstn (d_nop d) (d_opc d).

(** the instruction produced: its bytes; positions of the displacement and of the immediate if they get a fixup; whether
    memory outside of opExpr[] was read *)
Record out := { o_bytes : list Z; o_dfix : option Z; o_ifix : option Z; o_oob : bool }.
Definition no_menc : menc := {| n_modrm := 0; n_sib := 0; n_rex := 0; n_needmod := false; n_needsib := false; n_dsize := 0; n_disp := 0; n_B := false; n_X := false; n_RR := false; n_aso := false; n_oob := false |}.
Definition the_mem (d : row) (l : list opnd) : memx :=
  match opn l (memidx (d_mem d)) with
  | OMem m => m
  | _ => {| x_size := SzNone; x_base := None; x_idx := None; x_scale := 0; x_value := 0; x_sym := None; x_addr := false; x_indirect := false; x_fix := false; x_q := false |}
  end.
(** the value of the immediate: data64 of the operand; for a register operand (VEX_4OPND) data32l is its number, set by process_register
    (parser.c:3851-3855, moved to the 4th operand at 3868-3877) *)
Definition imm_value (d : row) (l : list opnd) : Z :=
  match d_imm d with
  | Some i => let v := match opn l i with OImm _ v _ => v | OReg r => regno (Some r) | _ => 0 end in if has VEX_4OPND (d_vex d) then Z.shiftl v 4 else v
  | None => 0
  end.
Definition imm_size (d : row) : nat := match d_imm d with Some _ => if has IMM8_ONLY (d_flags d) then 1%nat else Z.to_nat (d_size d) | None => 0%nat end.
(** the second part of CodeGenV2, codegenv2.c:1643-1975, for the row found *)
Definition gen (d : row) (c : ci) (l : list opnd) : res out :=
  let broad := PromoteBroadcast d (c_broad c) in
  let m := the_mem d l in
  bindr (match d_mem d with NoMem => Ok no_menc | _ => BuildMemoryEncoding d m c broad end) (fun n =>
  let '(mm, need) := BuildModRM d l in
  let modrm := Z.lor (n_modrm n) mm in
  let needmod := n_needmod n || need in
  bindr (if has VEX (d_vex d) && negb (has EVEX_ONLY (d_evex d)) && negb (c_evex c) then Ok (BuildVEX d l (n_B n) (n_X n))
         else if has EVEX_ONLY (d_evex d) || (c_evex c && has EVEX (d_vex d)) then
           if evex_ok d l c broad then Ok (pack_evex (evex_fields d l c broad (n_B n) (n_X n) (n_RR n))) else Err
         else Ok []) (fun vex =>
  if c_evex c && match d_evex d with [] => true | _ => false end then Err
  else
    let rex := if ofs_eqb (c_mode c) USE64 then Z.lor (n_rex n) (BuildREX (n_rex n) d l) else n_rex n in
    bindr (ins_prefix d (c_ins c)) (fun ip =>
    bindr (seg_prefix d c) (fun sp =>
    let pre := (if n_aso n then [0x67] else []) ++ ip ++ (if use_oso d (c_mode c) then [0x66] else []) ++ sp ++ vex ++ mand1 (d_pfx d) ++
               (if rex =? 0 then [] else [rex]) ++ mand2 (d_pfx d) ++ opcode_bytes d l ++ (if needmod then [modrm] else []) ++ (if n_needsib n then [n_sib n] else []) in
    let nsym := match x_sym m with Some st => negb st | None => false end in
    let ifx := match d_imm d with Some i => match opn l i with OImm _ _ f => f | _ => false end | None => false end in
    let needfix := (match d_mem d with NoMem => false | _ => nsym end) || ifx in
    let disp := le_bytes (n_dsize n) (n_disp n) in
    let imm := le_bytes (imm_size d) (imm_value d l) in
    Ok {| o_bytes := pre ++ disp ++ imm;
          o_dfix := if negb (Nat.eqb (n_dsize n) 0) && x_fix m && needfix then Some (zlen pre) else None;
          o_ifix := if ifx then Some (zlen pre + zlen disp) else None;
          o_oob := n_oob n |})))).

(** CodeGenV2: None is EMPTY *)
Definition CodeGenV2 (hash : string -> list optype -> nat) (b : buckets) (name : string) (word : bool) (c : ci) (l : list opnd) : option (res out) :=
  let l := fix_imm name word l in
  match select hash b name c l with Some d => Some (gen d c l) | None => None end.
