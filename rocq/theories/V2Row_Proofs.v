(** C39-C42: each row of InstrTableV2 against the instructions of the specification: opcode, prefixes and where the operands go. *)
From Coq Require Import String Ascii.
From Verif Require Import Base Mem_Model Mem_Spec V2_Model V2_Table V2_Spec V2Bits_Proofs.
Open Scope list_scope.

Definition rkind (d : row) (ev : bool) : hkind :=
  if has VEX (d_vex d) && negb (has EVEX_ONLY (d_evex d)) && negb ev then HVex else if has EVEX_ONLY (d_evex d) || (ev && has EVEX (d_vex d)) then HEvex else HLegacy.
Definition is64 (mode : ofssize) : bool := ofs_eqb mode USE64.
Definition rw (d : row) (mode : ofssize) (k : hkind) (q : bool) : bool :=
  match k with
  | HLegacy => is64 mode && ((has REX (d_flags d) && has REXW (d_flags d)) || (has REXP_MEM (d_flags d) && q))
  | HVex => negb (has VEX_W0 (d_vex d)) && has VEX_W1 (d_vex d)
  | HEvex => negb (has EVEX_W0 (d_evex d)) && has EVEX_W1 (d_evex d)
  end.
Definition rq66 (d : row) (mode : ofssize) : bool := existsb (Z.eqb 0x66) (mand1 (d_pfx d)) || use_oso d mode.
Definition rpp (d : row) (mode : ofssize) (k : hkind) : Z :=
  match k with
  | HLegacy => if existsb (Z.eqb 0xF3) (mand1 (d_pfx d)) then 2 else if existsb (Z.eqb 0xF2) (mand1 (d_pfx d)) then 3 else if rq66 d mode then 1 else 0
  | _ => pp_of (d_vex d)
  end.
Definition ropc (d : row) (r : Z) : list Z := if has F_OPCODE_REG (d_flags d) then [wrap 8 (nth 0 (d_opc d) 0 + r)] else firstn (d_nop d) (d_opc d).
Definition rmap (d : row) (k : hkind) (r : Z) : Z * list Z := match k with HLegacy => escape (mand2 (d_pfx d) ++ ropc d r) | _ => (map_of (d_vex d), ropc d r) end.
Definition rll (d : row) (k : hkind) : Z := match k with HLegacy => 0 | HVex => if d_size d =? 32 then 1 else 0 | HEvex => if d_size d =? 32 then 1 else if d_size d =? 64 then 2 else 0 end.
(** the fields of prefixes and head on which the operands depend *)
Definition mkp (o : bool) : pfx := {| q67 := false; q66 := o; qrep := 0; qseg := None |}.
Definition mkh (k : hkind) (rex w : bool) : head :=
  {| h_kind := k; h_rex := rex; h_w := w; h_r := false; h_x := false; h_b := false; h_r2 := false; h_v2 := false; h_vvvv := 0; h_ll := 0; h_pp := 0; h_map := 0; h_z := false; h_bc := false; h_aaa := 0 |}.

(** ** Registers of a type *)
Definition reg_okb (mode : ofssize) (ev : bool) (r : V2_Model.reg) : bool :=
  let '(k, n) := r in
  match k with
  | K8 => ((0 <=? n) && (n <? 4)) || ((8 <=? n) && (n <? 16) && is64 mode)
  | K8H => (4 <=? n) && (n <? 8)
  | K8U => (4 <=? n) && (n <? 8) && is64 mode
  | K16 | K32 => (0 <=? n) && (n <? 16) && ((n <? 8) || is64 mode)
  | K64 => (0 <=? n) && (n <? 16) && is64 mode
  | KX | KY | KZ => (0 <=? n) && (n <? 32) && ((n <? 8) || is64 mode) && ((n <? 16) || ev)
  | KSEG => (0 <=? n) && (n <? 6)
  | KCR => (0 <=? n) && (n <=? 8) && ((n <? 8) || is64 mode)
  | _ => (0 <=? n) && (n <? 8)
  end.
Definition kinds := [K8; K8H; K8U; K16; K32; K64; KIP; KX; KY; KZ; KM; KSEG; KCR; KDR; KMM; KST].
Definition has_type (o : opnd) (t : optype) : bool := optype_beq (MatchOperand o) t || optype_beq (DemoteOperand (MatchOperand o)) t.
Definition kregs (k : rk) (mode : ofssize) (ev : bool) (t : optype) : list V2_Model.reg := filter (fun r => reg_okb mode ev r && has_type (OReg r) t) (map (fun n => (k, n)) (zs 32)).
Definition regs (mode : ofssize) (ev : bool) (t : optype) : list V2_Model.reg := flat_map (fun k => kregs k mode ev t) kinds.
Definition rk_eqb (a b : rk) : bool :=
  match a, b with
  | K8, K8 | K8H, K8H | K8U, K8U | K16, K16 | K32, K32 | K64, K64 | KIP, KIP | KX, KX | KY, KY | KZ, KZ | KM, KM | KSEG, KSEG | KCR, KCR | KDR, KDR | KMM, KMM | KST, KST => true
  | _, _ => false
  end.
Definition reg_eqo (o : option V2_Model.reg) (r : V2_Model.reg) : bool := match o with Some (k, n) => rk_eqb k (fst r) && (n =? snd r) | None => false end.

(** ** Roles *)
Definition imp (a b : bool) : bool := negb a || b.
Definition p_reg (d : row) : nat := match d_dir d with REG_DST => 0%nat | _ => sourceIdx d end.
Definition p_rm (d : row) : nat := match d_dir d with REG_DST => sourceIdx d | _ => 0%nat end.
Definition p_v (d : row) (k : hkind) : option nat :=
  match k with
  | HLegacy => None
  | HVex => if has VEX_DUP_NDS (d_vex d) then Some 0%nat else if has VEX_3RD_OP (d_vex d) then Some 2%nat else if has VEX_NDS (d_vex d) then Some 1%nat else if has VEX_DDS (d_vex d) then Some 2%nat else None
  | HEvex => if has VEX_NDS (d_vex d) then Some 1%nat else if has VEX_DDS (d_vex d) then Some 2%nat else None
  end.
(** the extension bits of a register that is operand [i] fit its number; [stat]: the flags of the row set the bit *)
Definition ext_fit (d : row) (mode : ofssize) (k : hkind) (i : nat) (stat dyn : bool) (n : Z) : bool :=
  match k with
  | HLegacy => if has EREX (d_flags d) && dyn then negb stat && (n <? 16) && ((n <? 8) || is64 mode) else (n <? 16) && Bool.eqb (bt n 3) (is64 mode && has REX (d_flags d) && stat) && negb (has EREX (d_flags d))
  | HVex => (n <? 16) && ((n <? 8) || is64 mode)
  | HEvex => (n <? 8) || is64 mode
  end.
Definition nat_eqo (o : option nat) (i : nat) : bool := match o with Some j => Nat.eqb j i | None => false end.
Definition fit (d : row) (mode : ofssize) (ev : bool) (k : hkind) (w : bool) (vl : Z) (c : cls) (t : optype) (num : Z -> bool) : bool :=
  negb (match regs mode ev t with [] => true | _ => false end) &&
  forallb (fun r => num (snd r) && reg_eqo (reg_of mode (mkp (rq66 d mode)) (mkh k (is64 mode && has REX (d_flags d)) w) vl c (snd r)) r &&
                    (match fst r with K8H => negb (has EREX (d_flags d)) && negb (has REXP_MEM (d_flags d)) | _ => true end)) (regs mode ev t).
Definition mem_type (t : optype) : bool := match t with T_M8 | T_M16 | T_M32 | T_M48 | T_M64 | T_M80 | T_M128 | T_M256 | T_M512 | T_M_ANY => true | _ => false end.
Definition imm_type (t : optype) : bool := match t with T_IMM8 | T_IMM16 | T_IMM32 | T_IMM48 | T_IMM64 => true | _ => false end.
Definition is_reg_type (t : optype) : bool := negb (mem_type t) && negb (imm_type t).
Definition role_fit (d : row) (mode : ofssize) (ev : bool) (k : hkind) (w : bool) (vl : Z) (o : osrc * cls) (i : nat) : bool :=
  let '(s, c) := o in
  let t := nth i (d_types d) T_R_RIP in
  let f := d_flags d in
  let R := fit d mode ev k w vl c t in
  let p := mkp (rq66 d mode) in let h := mkh k false w in
  match s with
  | Oreg => has F_MODRM_REG f && Nat.eqb i (p_reg d) && is_reg_type t && R (ext_fit d mode k i (has REXR f) true) && negb (hkind_eqb k HLegacy && has EREX f && match d_dir d with REG_DST => false | _ => negb (Nat.eqb (d_src d) i) end) &&
            (hkind_eqb k HLegacy || match d_dir d with REG_DST => true | _ => Nat.eqb (d_src d) i end)
  | Orm => if mem_type t then
             match d_mem d with
             | MemOpnd j => Nat.eqb j i && Nat.ltb i 3 && imp (match d_dir d with RM_DST => true | _ => false end) (Nat.eqb i 0) && negb (has F_MODRM_RM f) && (d_modrm d =? 0) && negb (has REXB f) && imp (has EREX f) (match d_dir d with REG_DST => Nat.eqb (d_src d) i | _ => true end) &&
                            (Nat.eqb (d_src d) i || match d_dir d with RM_DST => true | _ => false end || hkind_eqb k HLegacy || (hkind_eqb k HVex && gather d && Nat.eqb (d_src d) 2 && nat_eqo (p_v d k) 2)) &&
                            match type_bytes t with Some n => (mem_bytes mode p h vl c =? n) && negb (hkind_eqb k HEvex && has EVEX_BRD (d_evex d)) | None => true end
             | _ => false
             end
           else is_reg_type t && Nat.eqb i (p_rm d) && match d_mem d with NoMem => true | _ => false end && has F_MODRM_RM f && (d_modrm d =? 0xC0) && R (ext_fit d mode k i (has REXB f) true) &&
                match d_dir d with RM_DST => true | _ => Nat.eqb (d_src d) i || (hkind_eqb k HLegacy && negb (has EREX f)) end && (negb (hkind_eqb k HEvex) || vecclass c || forallb (fun r => snd r <? 16) (regs mode ev t))
  | Ov => is_reg_type t && nat_eqo (p_v d k) i && R (fun n => match k with HEvex => true | _ => n <? 16 end && ((n <? 8) || is64 mode))
  | Oopc => is_reg_type t && Nat.eqb i 0 && has F_OPCODE_REG f && match d_mem d with NoMem => true | _ => false end && R (ext_fit d mode k i (has REXB f) false)
  | Oacc => is_reg_type t && R (fun n => n =? 0)
  | Oib => imm_type t && nat_eqo (d_imm d) i && Nat.eqb (imm_size d) 1 && negb (has VEX_4OPND (d_vex d))
  | Oiz => imm_type t && nat_eqo (d_imm d) i && Nat.eqb (imm_size d) (tail_bytes mode p h Oiz) && negb (has VEX_4OPND (d_vex d)) &&
           (negb (opsize mode p h =? 8) || existsb (optype_beq T_M64) (d_types d) || ((existsb (optype_beq T_R64) (d_types d) || existsb (optype_beq T_R64E) (d_types d)) && negb (optype_beq t T_IMM64)))
  | Oiv => imm_type t && nat_eqo (d_imm d) i && Nat.eqb (imm_size d) (tail_bytes mode p h Oiv) && negb (has VEX_4OPND (d_vex d))
  | Ois4 => is_reg_type t && nat_eqo (d_imm d) i && Nat.eqb (imm_size d) 1 && has VEX_4OPND (d_vex d) && R (fun n => n <? 16)
  | Omoffs => mem_type t && match d_mem d with MemAbs j => Nat.eqb j i | _ => false end && negb (has F_MODRM f) && has NO_MEM_REG f &&
              match type_bytes t with Some n => mem_bytes mode p h vl c =? n | None => true end
  end.
Fixpoint forallb2 {A B : Type} (P : A -> B -> bool) (l : list A) (m : list B) : bool := match l, m with [], [] => true | a :: l, b :: m => P a b && forallb2 P l m | _, _ => false end.

(** ** A row with its entry *)
Definition prefix_byte (b : Z) : bool := existsb (Z.eqb b) [0x67; 0x66; 0xF2; 0xF3; 0x26; 0x2E; 0x36; 0x3E; 0x64; 0x65].
Definition reg_const (d : row) : Z := if has OPCODE_EXT (d_flags d) then nth (d_nop d) (d_opc d) 0 else 0.
Definition comp_nd (d : row) (bc : bool) : Z := Z.quot (d_size d) (if negb bc && has EVEX_BRD (d_evex d) then 1 else d_elem d).
Definition row_entry (d : row) (mode : ofssize) (ev : bool) (q : bool) (r : Z) (e : man) : bool :=
  let k := rkind d ev in let w := rw d mode k q in let f := d_flags d in let vl := veclen (rll d k) false in
  let p := mkp (rq66 d mode) in let h := mkh k false w in
  String.eqb (m_name e) (mnemonic (d_name d)) &&
  Bool.eqb (uses Oreg e || uses Orm e) (has F_MODRM f) &&
  Bool.eqb (uses Oreg e) (has F_MODRM_REG f) && Bool.eqb (uses Orm e) (has F_MODRM f) &&
  match m_digit e with Some dg => has F_MODRM f && negb (has F_MODRM_REG f) && (reg_const d =? dg) && (0 <=? dg) && (dg <? 8) | None => has F_MODRM_REG f && negb (has OPCODE_EXT f) || negb (has F_MODRM f) end &&
  (match m_l e with [] => true | ll => existsb (Z.eqb (rll d k)) ll end) &&
  Bool.eqb (uses Ov e) (match p_v d k with Some _ => true | None => false end) &&
  (match row_vec d with Some kd => m_vsib e && rk_eqb kd (vkind vl) && has VEX_VSIB (d_vex d) && (hkind_eqb k HVex || has EVEX_VSIB (d_evex d))
                   | None => negb (m_vsib e) && negb (has VEX_VSIB (d_vex d)) && negb (has EVEX_VSIB (d_evex d)) end) &&
  (Nat.eqb (fold_right (fun o n => (tail_bytes mode p h (fst o) + n)%nat) 0%nat (m_ops e)) (imm_size d + match d_mem d with MemAbs _ => (match mode with USE64 => 8 | _ => 4 end)%nat | _ => 0%nat end)) &&
  match d_mem d with MemAbs _ => Nat.eqb (imm_size d) 0 | _ => true end &&
  forallb2 (role_fit d mode ev k w vl) (m_ops e) (full (d_name d) (seq 0 (length (d_types d)))) &&
  (* registers when rounding: the vector length is 64 *)
  imp (hkind_eqb k HEvex && has EVEX_RND (d_evex d) && ((d_size d =? 64) || same_name (d_name d) "vcvtsi2ss"))
      (m_er e && forallb2 (role_fit d mode ev k w 64) (m_ops e) (full (d_name d) (seq 0 (length (d_types d)))) && match d_mem d with NoMem => true | _ => false end) &&
  match k with
  | HEvex =>
      imp (has EVEX_BRD (d_evex d)) (match tup_bc (m_tup e) with Some _ => true | None => false end && (bc_count (m_tup e) vl =? written_bc (bc_elems (d_elem d))) &&
                                     existsb (Z.eqb (d_elem d)) [16; 8; 4; 2] && match d_mem d with MemOpnd _ => true | _ => false end) &&
      imp (has EVEX_Z (d_evex d)) (match m_mask e with Mask => true | _ => false end) &&
      match m_mask e with NoMask => negb (has EVEX_MASK (d_evex d)) | Mask => true | MaskNeeded => has EVEX_K (d_evex d) end &&
      (match d_mem d with NoMem => true | _ => wrong_n d || ((0 <? comp_nd d false) && (tupN (m_tup e) vl (w && is64 mode) false =? comp_nd d false) &&
                                     imp (has EVEX_BRD (d_evex d)) ((0 <? comp_nd d true) && (tupN (m_tup e) vl (w && is64 mode) true =? comp_nd d true))) end)
  | _ => match m_tup e with TNone => true | _ => false end && match m_mask e with NoMask => true | _ => false end
  end.
Definition opclass (b : Z) : bool := negb (prefix_byte b) && negb ((0x40 <=? b) && (b <=? 0x4F)) && negb (b =? 0xC4) && negb (b =? 0xC5) && negb (b =? 0x62).
Definition row_at (d : row) (mode : ofssize) (ev : bool) (q : bool) (r : Z) : bool :=
  let k := rkind d ev in
  match rmap d k r with
  | (mp, [op]) =>
      (0 <=? mp) && (mp <? 4) && (0 <=? op) && (op <? 256) && imp (has F_OPCODE_REG (d_flags d)) (op mod 8 =? r) &&
      (match k with HLegacy => opclass (nth 0 (mand2 (d_pfx d) ++ ropc d r) 0) | _ => true end) &&
      match lookup k (rpp d mode k) mp op (rw d mode k q) with Some e => row_entry d mode ev q r e | None => false end
  | _ => false
  end.
Definition mem_qs (d : row) : list bool := [has REXP_MEM (d_flags d) && match d_mem d with MemOpnd i => optype_beq (nth i (d_types d) T_R_RIP) T_M64 | _ => false end].
Definition row_rs (d : row) : list Z := if has F_OPCODE_REG (d_flags d) then zs 8 else [0].
Definition row_gen (d : row) (mode : ofssize) (ev : bool) : bool :=
  let k := rkind d ev in let f := d_flags d in
  negb (has ALLOW_LOCK f) && negb (has ALLOW_REP f) && negb (has ALLOW_BND f) && imp (has F_MODRM f) (match d_dir d with NO_DST => false | _ => true end) &&
  imp (has OPCODE_EXT f) (negb (has F_MODRM_REG f)) && imp (has F_MODRM f) (match d_mem d with MemAbs _ => false | _ => true end) &&
  imp (negb (has F_MODRM f)) (match d_mem d with MemOpnd _ => false | _ => true end) &&
  imp (has F_OPCODE_REG f) (Nat.eqb (d_nop d) 1) && Nat.leb (length (d_types d)) 4 &&
  imp (has REXP_MEM f) (match d_mem d with MemOpnd i => mem_type (nth i (d_types d) T_R_RIP) | _ => false end) &&
  negb (has REXX f) && imp (gather d) (match d_mem d with MemOpnd _ => true | _ => false end) &&
  match k with
  | HLegacy => match d_vex d with [] => true | _ => false end && match d_evex d with [] => true | _ => false end && Nat.eqb (length (mand1 (d_pfx d))) (match d_pfx d with NO_PFX | PFX_0xF | PFX_0x0F38 => 0 | _ => 1 end)%nat
  | _ => negb (use_oso d mode) && match d_pfx d with NO_PFX => true | _ => false end && negb (has REX f) && negb (has EREX f) && negb (has REXP_MEM f) && negb (has VEX_R (d_vex d)) && negb (has VEX_X (d_vex d)) && negb (has VEX_B (d_vex d)) &&
         negb (has F_OPCODE_REG f) && negb (has OPCODE_EXT f) && has F_MODRM_REG f && negb (hkind_eqb k HVex && has VEX_WIG (d_vex d) && rw d mode k false) && (1 <=? map_of (d_vex d)) && match d_vex d with [] => false | _ => true end &&
         imp (hkind_eqb k HEvex) (negb (has EVEX_SAE (d_evex d)) && imp (has EVEX_VSIB (d_evex d)) (gather d && match p_v d HEvex with None => true | _ => false end)) && imp (has EVEX_RND (d_evex d)) (match d_mem d with NoMem => true | _ => false end)
  end &&
  forallb (fun q => forallb (row_at d mode ev q) (row_rs d)) (mem_qs d).
(** combinations that the hypotheses exclude *)
Definition skip (d : row) (mode : ofssize) (ev : bool) : bool :=
  negb (existsb (cpumode_eqb (mode_bit mode)) (d_modes d)) || same_name (d_name d) "mpsadbw" || (ev && has VEX_DUP_NDS (d_vex d)) || (ev && match d_evex d with [] => true | _ => false end) ||
  (negb (is64 mode) && existsb (optype_beq T_M64) (d_types d)) ||
  existsb (fun t => is_reg_type t && match regs mode ev t with [] => true | _ => false end) (d_types d) || match d_types d with [] => true | _ => false end.
Definition row_ok (d : row) (mode : ofssize) (ev : bool) : bool := skip d mode ev || row_gen d mode ev.

Lemma table_ok : forallb (fun d => forallb (fun mode => forallb (row_ok d mode) bools) [USE32; USE64]) InstrTableV2 = true.
Proof. vm_compute. reflexivity. Qed.

(** ** What the check says *)
Record gen_facts (d : row) (mode : ofssize) (ev : bool) : Prop := {
  gf_lock : negb (has ALLOW_LOCK (d_flags d)) = true; gf_rep : negb (has ALLOW_REP (d_flags d)) = true; gf_bnd : negb (has ALLOW_BND (d_flags d)) = true;
  gf_dir : imp (has F_MODRM (d_flags d)) (match d_dir d with NO_DST => false | _ => true end) = true;
  gf_ext : imp (has OPCODE_EXT (d_flags d)) (negb (has F_MODRM_REG (d_flags d))) = true;
  gf_mod : imp (has F_MODRM (d_flags d)) (match d_mem d with MemAbs _ => false | _ => true end) = true;
  gf_nomod : imp (negb (has F_MODRM (d_flags d))) (match d_mem d with MemOpnd _ => false | _ => true end) = true;
  gf_nop : imp (has F_OPCODE_REG (d_flags d)) (Nat.eqb (d_nop d) 1) = true;
  gf_len : Nat.leb (length (d_types d)) 4 = true;
  gf_rexp : imp (has REXP_MEM (d_flags d)) (match d_mem d with MemOpnd i => mem_type (nth i (d_types d) T_R_RIP) | _ => false end) = true;
  gf_rexx : negb (has REXX (d_flags d)) = true;
  gf_gather : imp (gather d) (match d_mem d with MemOpnd _ => true | _ => false end) = true;
  gf_kind : match rkind d ev with
            | HLegacy => d_vex d = [] /\ d_evex d = []
            | k => use_oso d mode = false /\ d_pfx d = NO_PFX /\ has REX (d_flags d) = false /\ has EREX (d_flags d) = false /\ has REXP_MEM (d_flags d) = false /\
                   has VEX_R (d_vex d) = false /\ has VEX_X (d_vex d) = false /\ has VEX_B (d_vex d) = false /\ has F_OPCODE_REG (d_flags d) = false /\ has OPCODE_EXT (d_flags d) = false /\
                   has F_MODRM_REG (d_flags d) = true /\ negb (hkind_eqb k HVex && has VEX_WIG (d_vex d) && rw d mode k false) = true /\ 1 <= map_of (d_vex d) /\ d_vex d <> [] /\
                   (k = HEvex -> has EVEX_SAE (d_evex d) = false /\ (has EVEX_VSIB (d_evex d) = true -> gather d = true /\ p_v d HEvex = None)) /\ (has EVEX_RND (d_evex d) = true -> d_mem d = NoMem)
            end;
  gf_at : forall q r, In q (mem_qs d) -> In r (row_rs d) -> row_at d mode ev q r = true }.
Lemma imp_true a b : imp a b = true -> a = true -> b = true.
Proof. intros H ->. exact H. Qed.
Lemma row_gen_facts d mode ev : row_gen d mode ev = true -> gen_facts d mode ev.
Proof.
  unfold row_gen. intros H. apply andb_prop in H as [H Ha]. apply andb_prop in H as [H Hk]. repeat (apply andb_prop in H as [H ?]). constructor; try assumption.
  - destruct (rkind d ev).
    + repeat (apply andb_prop in Hk as [Hk ?]). split; [destruct (d_vex d); [reflexivity|discriminate]|destruct (d_evex d); [reflexivity|discriminate]].
    + apply andb_prop in Hk as [Hk R1]. apply andb_prop in Hk as [Hk R2]. apply andb_prop in Hk as [Hk R3]. apply andb_prop in Hk as [Hk R4]. apply andb_prop in Hk as [Hk R5]. repeat (apply andb_prop in Hk as [Hk ?]). repeat match goal with X : negb ?b = true |- _ => lazymatch b with _ && _ => fail | _ => apply negb_true_iff in X end end.
      repeat split; try assumption; try lia; try (destruct (d_pfx d); [reflexivity|discriminate..]); try (intros E; rewrite E in *; discriminate); try discriminate.
      intros E. rewrite E in R1. destruct (d_mem d); [reflexivity|discriminate..].
    + apply andb_prop in Hk as [Hk R1]. apply andb_prop in Hk as [Hk R2]. apply andb_prop in Hk as [Hk R3]. apply andb_prop in Hk as [Hk R4]. apply andb_prop in Hk as [Hk R5]. repeat (apply andb_prop in Hk as [Hk ?]). repeat match goal with X : negb ?b = true |- _ => lazymatch b with _ && _ => fail | _ => apply negb_true_iff in X end end.
      cbn [hkind_eqb imp negb orb] in R2. apply andb_prop in R2 as [R2 R6]. apply negb_true_iff in R2.
      repeat split; try assumption; try lia; try (destruct (d_pfx d); [reflexivity|discriminate..]); try (intros E; rewrite E in *; discriminate); try discriminate.
      * match goal with E : has EVEX_VSIB _ = true |- _ => pose proof (imp_true _ _ R6 E) as R7 end. apply andb_prop in R7 as [R7 _]. exact R7.
      * match goal with E : has EVEX_VSIB _ = true |- _ => pose proof (imp_true _ _ R6 E) as R7 end. apply andb_prop in R7 as [_ R7]. destruct (p_v d HEvex); [discriminate|reflexivity].
      * intros E. rewrite E in R1. destruct (d_mem d); [reflexivity|discriminate..].
  - intros q r Iq Ir. rewrite forallb_forall in Ha. specialize (Ha q Iq). rewrite forallb_forall in Ha. apply (Ha r Ir).
Qed.
Record at_facts (d : row) (mode : ofssize) (ev q : bool) (r : Z) (mp op : Z) (e : man) : Prop := {
  af_map : rmap d (rkind d ev) r = (mp, [op]); af_mp : 0 <= mp < 4; af_op : 0 <= op < 256;
  af_r : has F_OPCODE_REG (d_flags d) = true -> op mod 8 = r;
  af_first : rkind d ev = HLegacy -> opclass (nth 0 (mand2 (d_pfx d) ++ ropc d r) 0) = true;
  af_lookup : lookup (rkind d ev) (rpp d mode (rkind d ev)) mp op (rw d mode (rkind d ev) q) = Some e;
  af_entry : row_entry d mode ev q r e = true }.
Lemma row_at_facts d mode ev q r : row_at d mode ev q r = true -> exists mp op e, at_facts d mode ev q r mp op e.
Proof.
  unfold row_at. destruct (rmap d (rkind d ev) r) as [mp [|op [|]]] eqn:Em; try discriminate. intros H. apply andb_prop in H as [H He]. apply andb_prop in H as [H Hf]. apply andb_prop in H as [H Hi].
  destruct (lookup _ _ _ _ _) as [e|] eqn:El; [|discriminate]. exists mp, op, e. repeat (apply andb_prop in H as [H ?]). constructor; auto; try lia.
  - intros E. pose proof (imp_true _ _ Hi E). lia.
  - intros E. rewrite E in Hf. exact Hf.
Qed.
Record ent_facts (d : row) (mode : ofssize) (ev q : bool) (e : man) : Prop := {
  ef_name : String.eqb (m_name e) (mnemonic (d_name d)) = true;
  ef_uses : uses Oreg e || uses Orm e = has F_MODRM (d_flags d);
  ef_oreg : uses Oreg e = has F_MODRM_REG (d_flags d);
  ef_orm : uses Orm e = has F_MODRM (d_flags d);
  ef_digit : match m_digit e with Some dg => has F_MODRM (d_flags d) && negb (has F_MODRM_REG (d_flags d)) && (reg_const d =? dg) && (0 <=? dg) && (dg <? 8)
                                | None => has F_MODRM_REG (d_flags d) && negb (has OPCODE_EXT (d_flags d)) || negb (has F_MODRM (d_flags d)) end = true;
  ef_ll : match m_l e with [] => true | ll => existsb (Z.eqb (rll d (rkind d ev))) ll end = true;
  ef_ov : uses Ov e = match p_v d (rkind d ev) with Some _ => true | None => false end;
  ef_vec : match row_vec d with Some kd => m_vsib e && rk_eqb kd (vkind (veclen (rll d (rkind d ev)) false)) && has VEX_VSIB (d_vex d) && (hkind_eqb (rkind d ev) HVex || has EVEX_VSIB (d_evex d))
                   | None => negb (m_vsib e) && negb (has VEX_VSIB (d_vex d)) && negb (has EVEX_VSIB (d_evex d)) end = true;
  ef_tail : fold_right (fun o n => (tail_bytes mode (mkp (rq66 d mode)) (mkh (rkind d ev) false (rw d mode (rkind d ev) q)) (fst o) + n)%nat) 0%nat (m_ops e) =
            (imm_size d + match d_mem d with MemAbs _ => (match mode with USE64 => 8 | _ => 4 end)%nat | _ => 0%nat end)%nat;
  ef_abs : match d_mem d with MemAbs _ => Nat.eqb (imm_size d) 0 | _ => true end = true;
  ef_roles : forallb2 (role_fit d mode ev (rkind d ev) (rw d mode (rkind d ev) q) (veclen (rll d (rkind d ev)) false)) (m_ops e) (full (d_name d) (seq 0 (length (d_types d)))) = true;
  ef_rnd : imp (hkind_eqb (rkind d ev) HEvex && has EVEX_RND (d_evex d) && ((d_size d =? 64) || same_name (d_name d) "vcvtsi2ss"))
      (m_er e && forallb2 (role_fit d mode ev (rkind d ev) (rw d mode (rkind d ev) q) 64) (m_ops e) (full (d_name d) (seq 0 (length (d_types d)))) && match d_mem d with NoMem => true | _ => false end) = true;
  ef_kind : match rkind d ev with
            | HEvex =>
                (has EVEX_BRD (d_evex d) = true -> tup_bc (m_tup e) <> None /\ bc_count (m_tup e) (veclen (rll d HEvex) false) = written_bc (bc_elems (d_elem d)) /\ In (d_elem d) [16; 8; 4; 2] /\ exists i, d_mem d = MemOpnd i) /\
                (has EVEX_Z (d_evex d) = true -> m_mask e = Mask) /\
                match m_mask e with NoMask => has EVEX_MASK (d_evex d) = false | Mask => True | MaskNeeded => has EVEX_K (d_evex d) = true end /\
                (d_mem d <> NoMem -> wrong_n d = false -> forall bc : bool, (bc = true -> has EVEX_BRD (d_evex d) = true) ->
                   0 < comp_nd d bc /\ tupN (m_tup e) (veclen (rll d HEvex) false) (rw d mode HEvex q && is64 mode) bc = comp_nd d bc)
            | _ => m_tup e = TNone /\ m_mask e = NoMask
            end }.
Lemma row_entry_facts d mode ev q r e : row_entry d mode ev q r e = true -> ent_facts d mode ev q e.
Proof.
  unfold row_entry. cbv zeta. intros H. apply andb_prop in H as [H Hk]. apply andb_prop in H as [H Hr]. apply andb_prop in H as [H Hf]. apply andb_prop in H as [H Ha]. apply andb_prop in H as [H Ht].
  apply andb_prop in H as [H Hv]. apply andb_prop in H as [H Hov]. apply andb_prop in H as [H Hl]. apply andb_prop in H as [H Hd]. apply andb_prop in H as [H Hm]. apply andb_prop in H as [H Hg]. apply andb_prop in H as [H Hu].
  constructor; try assumption; try (apply Bool.eqb_prop; assumption).
  - apply Nat.eqb_eq. exact Ht.
  - destruct (rkind d ev).
    + apply andb_prop in Hk as [K1 K2]. destruct (m_tup e); try discriminate. destruct (m_mask e); try discriminate. auto.
    + apply andb_prop in Hk as [K1 K2]. destruct (m_tup e); try discriminate. destruct (m_mask e); try discriminate. auto.
    + apply andb_prop in Hk as [Hk K4]. apply andb_prop in Hk as [Hk K3]. apply andb_prop in Hk as [K1 K2]. repeat split.
      * pose proof (imp_true _ _ K1 H0) as X. destruct (tup_bc (m_tup e)); [discriminate|]. discriminate.
      * pose proof (imp_true _ _ K1 H0) as X. repeat (apply andb_prop in X as [X ?]). lia.
      * pose proof (imp_true _ _ K1 H0) as X. repeat (apply andb_prop in X as [X ?]). match goal with Y : existsb _ _ = true |- _ => apply existsb_exists in Y as (y & Y1 & Y2); apply Z.eqb_eq in Y2; subst y; exact Y1 end.
      * pose proof (imp_true _ _ K1 H0) as X. repeat (apply andb_prop in X as [X ?]). destruct (d_mem d); try discriminate. eauto.
      * intros E. pose proof (imp_true _ _ K2 E). destruct (m_mask e); try discriminate. reflexivity.
      * destruct (m_mask e); auto. apply negb_true_iff. exact K3.
      * destruct (d_mem d); [congruence|..]; rewrite H1 in K4; cbn [orb] in K4; apply andb_prop in K4 as [K5 K6]; apply andb_prop in K5 as [K5 K7]; (destruct bc; [pose proof (imp_true _ _ K6 (H2 eq_refl))|]; lia).
      * destruct (d_mem d); [congruence|..]; rewrite H1 in K4; cbn [orb] in K4; apply andb_prop in K4 as [K5 K6]; apply andb_prop in K5 as [K5 K7]; (destruct bc; [pose proof (imp_true _ _ K6 (H2 eq_refl))|]; lia).
Qed.
Lemma row_checked d mode ev : In d InstrTableV2 -> mode = USE32 \/ mode = USE64 -> skip d mode ev = false -> gen_facts d mode ev.
Proof.
  intros Hin Hm Hs. pose proof table_ok as T. rewrite forallb_forall in T. specialize (T d Hin). rewrite forallb_forall in T. assert (Im : In mode [USE32; USE64]) by (destruct Hm as [-> | ->]; cbn; auto). specialize (T mode Im). rewrite forallb_forall in T.
  specialize (T ev ltac:(destruct ev; cbn; tauto)). unfold row_ok in T. rewrite Hs in T. apply row_gen_facts. exact T.
Qed.
