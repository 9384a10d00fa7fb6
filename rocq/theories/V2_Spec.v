(** Specification for C39-C42: how the processor decodes the instructions of H/InstrTableV2.h (Intel SDM volume 2: 2.1-2.3
    prefixes, ModRM, REX and VEX, 2.7 EVEX with compressed displacements, and the pages of the instructions), and when
    the decoded instruction is the one written in the source. *)
From Coq Require Import String Ascii.
From Verif Require Import Base Mem_Model Mem_Spec V2_Model.
Open Scope list_scope.

(** ** Prefixes *)
Record pfx := { q67 : bool; q66 : bool; qrep : Z; qseg : option Z }.
Definition no_pfx : pfx := {| q67 := false; q66 := false; qrep := 0; qseg := None |}.
Fixpoint prefixes (p : pfx) (l : list Z) : pfx * list Z :=
  match l with
  | b :: t =>
      if b =? 0x67 then prefixes {| q67 := true; q66 := q66 p; qrep := qrep p; qseg := qseg p |} t
      else if b =? 0x66 then prefixes {| q67 := q67 p; q66 := true; qrep := qrep p; qseg := qseg p |} t
      else if (b =? 0xF2) || (b =? 0xF3) then prefixes {| q67 := q67 p; q66 := q66 p; qrep := b; qseg := qseg p |} t
      else match seg_of_prefix b with
           | Some s => prefixes {| q67 := q67 p; q66 := q66 p; qrep := qrep p; qseg := Some s |} t
           | None => (p, l)
           end
  | [] => (p, [])
  end.

(** ** REX, VEX, EVEX and the opcode map, in one form: the bits R X B R' V' as numbers are extended (not inverted) *)
Inductive hkind := HLegacy | HVex | HEvex.
Definition hkind_eqb (a b : hkind) : bool := match a, b with HLegacy, HLegacy | HVex, HVex | HEvex, HEvex => true | _, _ => false end.
Record head := { h_kind : hkind; h_rex : bool; h_w : bool; h_r : bool; h_x : bool; h_b : bool; h_r2 : bool; h_v2 : bool; h_vvvv : Z; h_ll : Z; h_pp : Z; h_map : Z; h_z : bool; h_bc : bool; h_aaa : Z }.
Definition bt (n k : Z) : bool := Z.odd (n / 2 ^ k).
(** in 32-bit code C4, C5 and 62 are LES, LDS and BOUND unless the next byte has the form of a ModRM byte with a register *)
Definition vexmark (mode : ofssize) (x : Z) : bool := match mode with USE64 => true | _ => 192 <=? x end.
Definition escape (l : list Z) : Z * list Z :=
  match l with
  | a :: t => if a =? 0x0F then match t with b :: u => if b =? 0x38 then (2, u) else if b =? 0x3A then (3, u) else (1, t) | [] => (1, t) end else (0, l)
  | [] => (0, [])
  end.
Definition legacy_head (rex : bool) (v : Z) (p : pfx) (l : list Z) : head * list Z :=
  let '(mp, l) := escape l in
  ({| h_kind := HLegacy; h_rex := rex; h_w := bt v 3; h_r := bt v 2; h_x := bt v 1; h_b := bt v 0; h_r2 := false; h_v2 := false; h_vvvv := 0; h_ll := 0;
      h_pp := if qrep p =? 0xF3 then 2 else if qrep p =? 0xF2 then 3 else if q66 p then 1 else 0; h_map := mp; h_z := false; h_bc := false; h_aaa := 0 |}, l).
Definition vex2_head (x : Z) : head :=
  {| h_kind := HVex; h_rex := false; h_w := false; h_r := negb (bt x 7); h_x := false; h_b := false; h_r2 := false; h_v2 := false; h_vvvv := 15 - (x / 8) mod 16;
     h_ll := (x / 4) mod 2; h_pp := x mod 4; h_map := 1; h_z := false; h_bc := false; h_aaa := 0 |}.
Definition vex3_head (x y : Z) : head :=
  {| h_kind := HVex; h_rex := false; h_w := bt y 7; h_r := negb (bt x 7); h_x := negb (bt x 6); h_b := negb (bt x 5); h_r2 := false; h_v2 := false;
     h_vvvv := 15 - (y / 8) mod 16; h_ll := (y / 4) mod 2; h_pp := y mod 4; h_map := x mod 32; h_z := false; h_bc := false; h_aaa := 0 |}.
Definition evex_head (x y z : Z) : head :=
  {| h_kind := HEvex; h_rex := false; h_w := bt y 7; h_r := negb (bt x 7); h_x := negb (bt x 6); h_b := negb (bt x 5); h_r2 := negb (bt x 4); h_v2 := negb (bt z 3);
     h_vvvv := 15 - (y / 8) mod 16; h_ll := (z / 32) mod 4; h_pp := y mod 4; h_map := x mod 4; h_z := bt z 7; h_bc := bt z 4; h_aaa := z mod 8 |}.
Definition plain_pfx (p : pfx) : bool := negb (q66 p) && (qrep p =? 0).
Definition dec_head (mode : ofssize) (p : pfx) (l : list Z) : option (head * list Z) :=
  match l with
  | b :: t =>
      if (b =? 0xC5) && match t with x :: _ => vexmark mode x | [] => false end then
        match t with x :: t => if plain_pfx p then Some (vex2_head x, t) else None | _ => None end
      else if (b =? 0xC4) && match t with x :: _ => vexmark mode x | [] => false end then
        match t with x :: y :: t => if plain_pfx p then Some (vex3_head x y, t) else None | _ => None end
      else if (b =? 0x62) && match t with x :: _ => vexmark mode x | [] => false end then
        match t with
        | x :: y :: z :: t => if plain_pfx p && negb (bt x 3) && negb (bt x 2) && bt y 2 then Some (evex_head x y z, t) else None
        | _ => None
        end
      else match mode with
           | USE64 => if (0x40 <=? b) && (b <=? 0x4F) then Some (legacy_head true (b - 0x40) p t) else Some (legacy_head false 0 p l)
           | _ => Some (legacy_head false 0 p l)
           end
  | [] => None
  end.

(** ** The instructions *)
(** where an operand is encoded: ModRM.reg, ModRM.rm, vvvv, the low bits of the opcode, the accumulator, an immediate of 1 byte,
    of the operand size (at most 4 bytes, sign-extended), of the operand size, bits 7-4 of an immediate byte, an absolute offset *)
Inductive osrc := Oreg | Orm | Ov | Oopc | Oacc | Oib | Oiz | Oiv | Ois4 | Omoffs.
(** what it is: byte; operand size; 4 or 8 by W; register of the mode; segment, control, debug register; vector of the vector length, half
    and eighth of it (a register is xmm at least); xmm or 16 bytes; xmm or 8 bytes; 4 byte elements *)
Inductive cls := Cb | Cv | Cy | Cmode | Cseg | Ccr | Cdr | Cvec | Chalf | Coct | Cx | Cq | Celem.
(** EVEX disp8*N, SDM tables 2-34 and 2-35: full and half vector with element size, full memory, eighth, scalar, scalar by W *)
Inductive tup := TNone | TFV (e : Z) | THV (e : Z) | TFVM | TOVM | TScalar (e : Z) | TY.
Inductive maskuse := NoMask | Mask | MaskNeeded.
(** m_l: the vector lengths that exist, [] if L is ignored *)
Record man := { m_name : string; m_kind : hkind; m_pp : option Z; m_map : Z; m_op : Z; m_plus : bool; m_digit : option Z; m_w : option bool; m_l : list Z;
                m_ops : list (osrc * cls); m_tup : tup; m_vsib : bool; m_er : bool; m_mask : maskuse }.
Definition leg (name : string) (pp : option Z) (mp op : Z) (dg : option Z) (ops : list (osrc * cls)) : man :=
  {| m_name := name; m_kind := HLegacy; m_pp := pp; m_map := mp; m_op := op; m_plus := false; m_digit := dg; m_w := None; m_l := []; m_ops := ops; m_tup := TNone; m_vsib := false;
     m_er := false; m_mask := NoMask |}.
Definition plusr (name : string) (op : Z) (ops : list (osrc * cls)) : man :=
  {| m_name := name; m_kind := HLegacy; m_pp := None; m_map := 0; m_op := op; m_plus := true; m_digit := None; m_w := None; m_l := []; m_ops := ops; m_tup := TNone; m_vsib := false;
     m_er := false; m_mask := NoMask |}.
Definition vexi (name : string) (pp mp op : Z) (w : option bool) (ll : list Z) (ops : list (osrc * cls)) : man :=
  {| m_name := name; m_kind := HVex; m_pp := Some pp; m_map := mp; m_op := op; m_plus := false; m_digit := None; m_w := w; m_l := ll; m_ops := ops; m_tup := TNone;
     m_vsib := String.eqb name "vgatherdps"; m_er := false; m_mask := NoMask |}.
Definition evexi (name : string) (pp mp op : Z) (w : option bool) (ll : list Z) (ops : list (osrc * cls)) (t : tup) (er : bool) (mk : maskuse) : man :=
  {| m_name := name; m_kind := HEvex; m_pp := Some pp; m_map := mp; m_op := op; m_plus := false; m_digit := None; m_w := w; m_l := ll; m_ops := ops; m_tup := t;
     m_vsib := String.eqb name "vgatherdps"; m_er := er; m_mask := mk |}.
Definition RM (c : cls) := [(Oreg, c); (Orm, c)].
Definition MR (c : cls) := [(Orm, c); (Oreg, c)].
Definition RVM (c : cls) := [(Oreg, c); (Ov, c); (Orm, c)].
Definition v3 := [0; 1; 2].
Definition manual : list man := [
  (* MOV *)
  leg "mov" None 0 0x88 None (MR Cb); leg "mov" None 0 0x89 None (MR Cv); leg "mov" None 0 0x8A None (RM Cb); leg "mov" None 0 0x8B None (RM Cv);
  leg "mov" None 0 0x8C None [(Orm, Cv); (Oreg, Cseg)]; leg "mov" None 0 0x8E None [(Oreg, Cseg); (Orm, Cv)];
  leg "mov" None 0 0xA0 None [(Oacc, Cb); (Omoffs, Cb)]; leg "mov" None 0 0xA1 None [(Oacc, Cv); (Omoffs, Cv)];
  leg "mov" None 0 0xA2 None [(Omoffs, Cb); (Oacc, Cb)]; leg "mov" None 0 0xA3 None [(Omoffs, Cv); (Oacc, Cv)];
  plusr "mov" 0xB0 [(Oopc, Cb); (Oib, Cb)]; plusr "mov" 0xB8 [(Oopc, Cv); (Oiv, Cv)];
  leg "mov" None 0 0xC6 (Some 0) [(Orm, Cb); (Oib, Cb)]; leg "mov" None 0 0xC7 (Some 0) [(Orm, Cv); (Oiz, Cv)];
  leg "mov" None 1 0x20 None [(Orm, Cmode); (Oreg, Ccr)]; leg "mov" None 1 0x22 None [(Oreg, Ccr); (Orm, Cmode)];
  leg "mov" None 1 0x21 None [(Orm, Cmode); (Oreg, Cdr)]; leg "mov" None 1 0x23 None [(Oreg, Cdr); (Orm, Cmode)];
  (* SSE *)
  leg "movaps" (Some 0) 1 0x28 None (RM Cx); leg "movaps" (Some 0) 1 0x29 None (MR Cx); leg "mulps" (Some 0) 1 0x59 None (RM Cx);
  leg "pshufd" (Some 1) 1 0x70 None (RM Cx ++ [(Oib, Cb)]); leg "blendvps" (Some 1) 2 0x14 None (RM Cx); leg "mpsadbw" (Some 1) 3 0x42 None (RM Cx ++ [(Oib, Cb)]);
  leg "cvtsi2ss" (Some 2) 1 0x2A None [(Oreg, Cx); (Orm, Cy)];
  (* VEX *)
  vexi "vmovaps" 0 1 0x28 None [0; 1] (RM Cvec); vexi "vmovaps" 0 1 0x29 None [0; 1] (MR Cvec);
  vexi "vmovapd" 1 1 0x28 None [0; 1] (RM Cvec); vexi "vmovapd" 1 1 0x29 None [0; 1] (MR Cvec);
  vexi "vmulps" 0 1 0x59 None [0; 1] (RVM Cvec);
  vexi "vpshufd" 1 1 0x70 None [0; 1] (RM Cvec ++ [(Oib, Cb)]);
  vexi "vgatherdps" 1 2 0x92 (Some false) [0; 1] [(Oreg, Cvec); (Orm, Celem); (Ov, Cvec)];
  vexi "vblendvps" 1 3 0x4A (Some false) [0; 1] (RVM Cvec ++ [(Ois4, Cvec)]);
  vexi "vmpsadbw" 1 3 0x42 None [0; 1] (RVM Cvec ++ [(Oib, Cb)]);
  vexi "vpmovzxbq" 1 2 0x32 None [0; 1] [(Oreg, Cvec); (Orm, Coct)];
  vexi "vbroadcastsd" 1 2 0x19 (Some false) [1] [(Oreg, Cvec); (Orm, Cq)];
  vexi "vcvtdq2pd" 2 1 0xE6 None [0; 1] [(Oreg, Cvec); (Orm, Chalf)];
  vexi "vcvtsi2ss" 2 1 0x2A None [] [(Oreg, Cx); (Ov, Cx); (Orm, Cy)];
  vexi "vmovdqa" 1 1 0x6F None [0; 1] (RM Cvec); vexi "vmovdqa" 1 1 0x7F None [0; 1] (MR Cvec);
  vexi "vmovdqu" 2 1 0x6F None [0; 1] (RM Cvec); vexi "vmovdqu" 2 1 0x7F None [0; 1] (MR Cvec);
  vexi "bextr" 0 2 0xF7 None [0] [(Oreg, Cy); (Orm, Cy); (Ov, Cy)];
  (* EVEX *)
  evexi "vmovaps" 0 1 0x28 (Some false) v3 (RM Cvec) TFVM false Mask; evexi "vmovaps" 0 1 0x29 (Some false) v3 (MR Cvec) TFVM false Mask;
  evexi "vmovapd" 1 1 0x28 (Some true) v3 (RM Cvec) TFVM false Mask; evexi "vmovapd" 1 1 0x29 (Some true) v3 (MR Cvec) TFVM false Mask;
  evexi "vmulps" 0 1 0x59 (Some false) v3 (RVM Cvec) (TFV 4) true Mask;
  evexi "vpshufd" 1 1 0x70 (Some false) v3 (RM Cvec ++ [(Oib, Cb)]) (TFV 4) false Mask;
  evexi "vgatherdps" 1 2 0x92 (Some false) v3 [(Oreg, Cvec); (Orm, Celem)] (TScalar 4) false MaskNeeded;
  evexi "vpmovzxbq" 1 2 0x32 None v3 [(Oreg, Cvec); (Orm, Coct)] TOVM false Mask;
  evexi "vbroadcastsd" 1 2 0x19 (Some true) [1; 2] [(Oreg, Cvec); (Orm, Cq)] (TScalar 8) false Mask;
  evexi "vblendmpd" 1 2 0x65 (Some true) v3 (RVM Cvec) (TFV 8) false Mask;
  evexi "vcvtdq2pd" 2 1 0xE6 (Some false) v3 [(Oreg, Cvec); (Orm, Chalf)] (THV 4) false Mask;
  evexi "vcvtsi2ss" 2 1 0x2A None [] [(Oreg, Cx); (Ov, Cx); (Orm, Cy)] TY true NoMask;
  evexi "vmovdqa32" 1 1 0x6F (Some false) v3 (RM Cvec) TFVM false Mask; evexi "vmovdqa32" 1 1 0x7F (Some false) v3 (MR Cvec) TFVM false Mask;
  evexi "vmovdqa64" 1 1 0x6F (Some true) v3 (RM Cvec) TFVM false Mask; evexi "vmovdqa64" 1 1 0x7F (Some true) v3 (MR Cvec) TFVM false Mask;
  evexi "vmovdqu8" 3 1 0x6F (Some false) v3 (RM Cvec) TFVM false Mask; evexi "vmovdqu8" 3 1 0x7F (Some false) v3 (MR Cvec) TFVM false Mask;
  evexi "vmovdqu16" 3 1 0x6F (Some true) v3 (RM Cvec) TFVM false Mask; evexi "vmovdqu16" 3 1 0x7F (Some true) v3 (MR Cvec) TFVM false Mask;
  evexi "vmovdqu32" 2 1 0x6F (Some false) v3 (RM Cvec) TFVM false Mask; evexi "vmovdqu32" 2 1 0x7F (Some false) v3 (MR Cvec) TFVM false Mask;
  evexi "vmovdqu64" 2 1 0x6F (Some true) v3 (RM Cvec) TFVM false Mask; evexi "vmovdqu64" 2 1 0x7F (Some true) v3 (MR Cvec) TFVM false Mask].

Definition eqo {A : Type} (eqb : A -> A -> bool) (o : option A) (x : A) : bool := match o with Some y => eqb y x | None => true end.
(** the entry of an opcode; without mandatory prefix (m_pp = None), F2 and F3 must be absent *)
Definition entry_is (k : hkind) (pp mp op : Z) (w : bool) (e : man) : bool :=
  hkind_eqb (m_kind e) k && (m_map e =? mp) && (if m_plus e then m_op e =? 8 * (op / 8) else m_op e =? op) && eqo Bool.eqb (m_w e) w &&
  match m_pp e with Some q => q =? pp | None => pp <? 2 end.
Definition lookup (k : hkind) (pp mp op : Z) (w : bool) : option man := find (entry_is k pp mp op w) manual.

(** ** Operands *)
Inductive dop := DReg (r : reg) | DMem (vec : option rk) (size : Z) (a : ea) | DImm (size v : Z).
Record dins := { i_name : string; i_ops : list dop; i_aaa : Z; i_z : bool; i_bc : Z; i_rc : option Z }.

Definition w64 (mode : ofssize) (h : head) : bool := h_w h && match mode with USE64 => true | _ => false end.
Definition opsize (mode : ofssize) (p : pfx) (h : head) : Z :=
  if w64 mode h then 8 else match mode with USE16 => if q66 p then 4 else 2 | _ => if q66 p then 2 else 4 end.
(** the ModRM byte is followed as the tables say; N: the scale of a one byte displacement. The result: ModRM.reg, and the register
    number in ModRM.rm or the address. With VSIB there must be a SIB byte, and every index is a vector register. *)
Inductive rmd := RmReg (n : Z) | RmMem (a : ea).
Definition shapev (md rx rb sib : Z) : abase * option (Z * Z) * nat :=
  let idx := Some ((sib / 8) mod 8 + rx, 2 ^ (sib / 64)) in
  if (sib mod 8 =? 5) && (md =? 0) then (BNone, idx, 4%nat)
  else (BReg (sib mod 8 + rb), idx, if md =? 0 then 0%nat else if md =? 1 then 1%nat else 4%nat).
Definition e8 (b : bool) : Z := if b then 8 else 0.
Definition e16 (b : bool) : Z := if b then 16 else 0.
Definition dec_rm (mode : ofssize) (p : pfx) (h : head) (vsib : bool) (N : Z) (l : list Z) : option (Z * rmd * list Z) :=
  match l with
  | m :: l =>
      let md := m / 64 in let reg := (m / 8) mod 8 in let rm := m mod 8 in
      let asize := addrbits mode (q67 p) in
      if md =? 3 then if vsib then None else Some (reg, RmReg rm, l)
      else
        match (if has_sib asize md rm then match l with s :: l => Some (s, l) | [] => None end else Some (0, l)) with
        | Some (sib, l) =>
            if vsib && ((asize =? 16) || negb (rm =? 4)) then None
            else
              let '(b, x, n) := if asize =? 16 then shape16 md rm
                                else if vsib then shapev md (e8 (h_x h) + e16 (h_v2 h)) (e8 (h_b h)) sib
                                else shape32 mode md rm (e8 (h_x h)) (e8 (h_b h)) sib in
              if (Z.of_nat n <=? zlen l) then
                Some (reg, RmMem {| a_size := asize; a_base := b; a_index := x; a_disp := sext n (le_val (firstn n l)) * (if Nat.eqb n 1 then N else 1);
                                    a_seg := match qseg p with Some s => s | None => cpu_seg b end |}, skipn n l)
              else None
        | None => None
        end
  | [] => None
  end.
Definition is_reg (r : rmd) : bool := match r with RmReg _ => true | _ => false end.

(** EVEX.b with a register operand: static rounding, 512-bit vectors *)
Definition veclen (ll : Z) (rc : bool) : Z := if rc then 64 else 16 * 2 ^ ll.
Definition tupN (t : tup) (vl : Z) (w bc : bool) : Z :=
  match t with
  | TNone => 1
  | TFV e => if bc then e else vl
  | THV e => if bc then e else vl / 2
  | TFVM => vl
  | TOVM => vl / 8
  | TScalar e => e
  | TY => if w then 8 else 4
  end.
Definition tup_bc (t : tup) : option Z := match t with TFV e | THV e => Some e | _ => None end.
Definition bc_count (t : tup) (vl : Z) : Z := match t with TFV e => vl / e | THV e => vl / 2 / e | _ => 0 end.
Definition vkind (vl : Z) : rk := if vl =? 64 then KZ else if vl =? 32 then KY else KX.
(** the register of a class *)
Definition reg_of (mode : ofssize) (p : pfx) (h : head) (vl : Z) (c : cls) (n : Z) : option reg :=
  match c with
  | Cb => Some (if n <? 4 then (K8, n) else if n <? 8 then ((if h_rex h then K8U else K8H), n) else (K8, n))
  | Cv => let s := opsize mode p h in Some ((if s =? 8 then K64 else if s =? 4 then K32 else K16), n)
  | Cy => Some ((if w64 mode h then K64 else K32), n)
  | Cmode => Some ((match mode with USE64 => K64 | _ => K32 end), n)
  | Cseg => if n mod 8 <? 6 then Some (KSEG, n mod 8) else None
  | Ccr => Some (KCR, n)
  | Cdr => if n <? 8 then Some (KDR, n) else None
  | Cvec => Some (vkind vl, n)
  | Chalf => Some (vkind (vl / 2), n)
  | Coct | Cx | Cq => Some (KX, n)
  | Celem => None
  end.
(** the size of a memory operand *)
Definition mem_bytes (mode : ofssize) (p : pfx) (h : head) (vl : Z) (c : cls) : Z :=
  match c with
  | Cb => 1 | Cv => opsize mode p h | Cy => if w64 mode h then 8 else 4 | Cmode => 0 | Cseg => 2 | Ccr | Cdr => 0
  | Cvec => vl | Chalf => vl / 2 | Coct => vl / 8 | Cx => 16 | Cq => 8 | Celem => 4
  end.
Definition vecclass (c : cls) : bool := match c with Cvec | Chalf | Coct | Cx | Cq | Celem => true | _ => false end.
(** the size in bytes of what follows ModRM, SIB and displacement *)
Definition tail_bytes (mode : ofssize) (p : pfx) (h : head) (s : osrc) : nat :=
  match s with
  | Oib | Ois4 => 1%nat
  | Oiz => if opsize mode p h =? 2 then 2%nat else 4%nat
  | Oiv => Z.to_nat (opsize mode p h)
  | Omoffs => Z.to_nat (addrbits mode (q67 p) / 8)
  | _ => 0%nat
  end.
Definition dec_op (mode : ofssize) (p : pfx) (h : head) (e : man) (op reg : Z) (rm : rmd) (vl v : Z) (o : osrc * cls) : option dop :=
  let '(s, c) := o in
  let rg n := match reg_of mode p h vl c n with Some r => Some (DReg r) | None => None end in
  match s with
  | Oreg => rg (reg + e8 (h_r h) + e16 (h_r2 h))
  | Orm => match rm with
           | RmReg n => rg (n + e8 (h_b h) + (if vecclass c && hkind_eqb (h_kind h) HEvex then e16 (h_x h) else 0))
           | RmMem a => Some (DMem (if m_vsib e then Some (vkind vl) else None)
                                   (match tup_bc (m_tup e) with Some b => if h_bc h then b else mem_bytes mode p h vl c | None => mem_bytes mode p h vl c end) a)
           end
  | Ov => rg (h_vvvv h + e16 (h_v2 h))
  | Oopc => rg (op mod 8 + e8 (h_b h))
  | Oacc => rg 0
  | Oib => Some (DImm 1 v)
  | Oiz => let n := opsize mode p h in Some (DImm n (wrap (8 * n) (sext (tail_bytes mode p h Oiz) v)))
  | Oiv => Some (DImm (opsize mode p h) v)
  | Ois4 => rg (v / 16)
  | Omoffs => Some (DMem None (mem_bytes mode p h vl c)
                      {| a_size := addrbits mode (q67 p); a_base := BNone; a_index := None; a_disp := v; a_seg := match qseg p with Some s => s | None => 3 end |})
  end.
Fixpoint all_some {A : Type} (l : list (option A)) : option (list A) :=
  match l with
  | [] => Some []
  | Some x :: l => match all_some l with Some l => Some (x :: l) | None => None end
  | None :: _ => None
  end.
Definition osrc_eqb (a b : osrc) : bool :=
  match a, b with
  | Oreg, Oreg | Orm, Orm | Ov, Ov | Oopc, Oopc | Oacc, Oacc | Oib, Oib | Oiz, Oiz | Oiv, Oiv | Ois4, Ois4 | Omoffs, Omoffs => true
  | _, _ => false
  end.
Definition uses (s : osrc) (e : man) : bool := existsb (fun o => osrc_eqb (fst o) s) (m_ops e).
Definition mem_dst (e : man) (rm : rmd) : bool := match m_ops e with (Orm, _) :: _ => negb (is_reg rm) | _ => false end.
(** the conditions without which there is an invalid opcode exception *)
Definition valid (e : man) (h : head) (reg : Z) (rm : rmd) : bool :=
  let rc := h_bc h && is_reg rm in
  eqo Z.eqb (m_digit e) reg &&
  (rc || match m_l e with [] => h_ll h <? 3 | ll => existsb (Z.eqb (h_ll h)) ll end) &&
  (uses Ov e || ((h_vvvv h =? 0) && (m_vsib e || negb (h_v2 h)))) &&
  (negb (h_bc h) || if is_reg rm then m_er e else match tup_bc (m_tup e) with Some _ => true | None => false end) &&
  (negb (h_z h) || (match m_mask e with Mask => true | _ => false end && negb (mem_dst e rm))) &&
  match m_mask e with NoMask => h_aaa h =? 0 | Mask => true | MaskNeeded => negb (h_aaa h =? 0) end.
(** the instruction that the bytes are, all of them *)
Definition disasm (mode : ofssize) (l : list Z) : option dins :=
  let '(p, l) := prefixes no_pfx l in
  match dec_head mode p l with
  | Some (h, op :: l) =>
      match lookup (h_kind h) (h_pp h) (h_map h) op (h_w h) with
      | Some e =>
          match (if uses Oreg e || uses Orm e then dec_rm mode p h (m_vsib e) (tupN (m_tup e) (veclen (h_ll h) false) (w64 mode h) (h_bc h)) l else Some (0, RmReg 0, l)) with
          | Some (reg, rm, l) =>
              let vl := veclen (h_ll h) (h_bc h && is_reg rm) in
              let n := fold_right (fun o n => (tail_bytes mode p h (fst o) + n)%nat) 0%nat (m_ops e) in
              if valid e h reg rm && (zlen l =? Z.of_nat n) then
                match all_some (map (dec_op mode p h e op reg rm vl (le_val l)) (m_ops e)) with
                | Some ops => Some {| i_name := m_name e; i_ops := ops; i_aaa := h_aaa h; i_z := h_z h; i_bc := if h_bc h && negb (is_reg rm) then bc_count (m_tup e) vl else 0;
                                      i_rc := if h_bc h && is_reg rm then Some (h_ll h) else None |}
                | None => None
                end
              else None
          | None => None
          end
      | None => None
      end
  | _ => None
  end.

(** ** What was written *)
(** of the address: the register that is a vector is the index *)
Definition src_base (m : memx) : option reg := if simd (x_base m) then x_idx m else x_base m.
Definition src_idx (m : memx) : option reg := if simd (x_base m) then x_base m else x_idx m.
Definition kbits (k : rk) : Z := match k with K16 => 16 | K32 => 32 | _ => 64 end.
Definition src_asize (mode : ofssize) (m : memx) : Z :=
  match src_base m, src_idx m with
  | Some (k, _), _ => kbits k
  | None, Some (k, _) => if simd (Some (k, 0)) then bits mode else kbits k
  | None, None => bits mode
  end.
Definition label (m : memx) : bool := match x_sym m with Some st => negb st | None => false end.
Definition src_abase (mode : ofssize) (m : memx) : abase :=
  match src_base m with
  | Some (KIP, _) => BIP
  | Some (_, n) => BReg n
  | None => match mode, src_idx m with USE64, None => if label m then BIP else BNone | _, _ => BNone end
  end.
Definition src_scale (m : memx) : Z := if x_scale m =? 0 then 1 else x_scale m.
Definition type_bytes (t : optype) : option Z :=
  match t with T_M8 => Some 1 | T_M16 => Some 2 | T_M32 => Some 4 | T_M48 => Some 6 | T_M64 => Some 8 | T_M80 => Some 10 | T_M128 => Some 16 | T_M256 => Some 32 | T_M512 => Some 64 | _ => None end.
(** in 64-bit code only FS and GS have a base *)
Definition seg_agrees (mode : ofssize) (o : option Z) (a : ea) : Prop :=
  match o with Some s => a_seg a = s \/ (mode = USE64 /\ 0 <= s <= 3 /\ 0 <= a_seg a <= 3) | None => a_seg a = cpu_seg (a_base a) end.
(** the address decoded is the address written, with displacement [v] *)
Definition mem_agrees (mode : ofssize) (seg : option Z) (m : memx) (v : Z) (vec : option rk) (a : ea) : Prop :=
  a_size a = src_asize mode m /\ a_base a = src_abase mode m /\
  a_index a = match src_idx m with Some r => Some (snd r, src_scale m) | None => None end /\
  vec = match src_idx m with Some (k, _) => if simd (Some (k, 0)) then Some k else None | None => None end /\
  (a_disp a - v) mod 2 ^ a_size a = 0 /\ seg_agrees mode seg a.
(** [t]: the operand type that the row asks for; [v]: the displacement *)
Definition agrees (mode : ofssize) (seg : option Z) (v : memx -> Z) (t : optype) (o : opnd) (d : dop) : Prop :=
  match o, d with
  | OReg r, DReg r' => r' = r
  | OMem m, DMem vec size a => mem_agrees mode seg m (v m) vec a /\ match type_bytes t with Some n => size = n | None => True end
  | OImm _ v _, DImm n v' => v' = wrap (8 * n) v
  | _, _ => False
  end.
(** movabs is a MOV; with one operand less than the instruction has, the first is source, too *)
Definition mnemonic (s : string) : string := if String.eqb (lowers s) "movabs" then "mov"%string else lowers s.
Definition full {A : Type} (name : string) (l : list A) : list A :=
  if (same_name name "vmulps" && Nat.eqb (length l) 2) || (same_name name "vmpsadbw" && Nat.eqb (length l) 3) then firstn 1 l ++ l else l.
(** decorations: {k1}-{k7} and {z}, {1toN}, rounding; vcvtdq2pd may be written with the count of the result *)
Definition written_bc (broad : Z) : Z := if broad =? 0 then 0 else 2 ^ (broad / 16).
Definition written_rc (sae : Z) : option Z := if sae =? 0 then None else Some (sae / 32 - 1).
Record same_deco (d : row) (c : ci) (i : dins) : Prop := {
  sd_aaa : i_aaa i = (c_deco c) mod 8;
  sd_z : i_z i = Z.testbit (c_deco c) 7;
  sd_bc : i_bc i = written_bc (c_broad c) \/ (same_name (d_name d) "vcvtdq2pd" = true /\ 2 * i_bc i = written_bc (c_broad c));
  sd_rc : i_rc i = written_rc (c_sae c) }.

(** ** Operands considered *)
Definition reg_ok (mode : ofssize) (evex : bool) (r : reg) : Prop :=
  match r with
  | (K8, n) => 0 <= n < 4 \/ (8 <= n < 16 /\ mode = USE64)
  | (K8H, n) => 4 <= n < 8
  | (K8U, n) => 4 <= n < 8 /\ mode = USE64
  | (K16, n) | (K32, n) => 0 <= n < 16 /\ (8 <= n -> mode = USE64)
  | (K64, n) => 0 <= n < 16 /\ mode = USE64
  | (KX, n) | (KY, n) | (KZ, n) => 0 <= n < 32 /\ (8 <= n -> mode = USE64) /\ (16 <= n -> evex = true)
  | (KSEG, n) => 0 <= n < 6
  | (KCR, n) => 0 <= n <= 8 /\ (8 <= n -> mode = USE64)
  | (_, n) => 0 <= n < 8
  end.
(** a register in an address; an index is not (E/R)SP; a vector only where the instruction takes one *)
Definition addr_reg (mode : ofssize) (r : reg) : Prop :=
  match r with
  | (K16, n) => (n = 3 \/ n = 5 \/ n = 6 \/ n = 7) /\ mode = USE32
  | (K32, n) => 0 <= n < 16 /\ (8 <= n -> mode = USE64)
  | (K64, n) => 0 <= n < 16 /\ mode = USE64
  | (KIP, _) => mode = USE64
  | _ => False
  end.
(** [vec]: what VSIB index the instruction takes; evex: whether it is encoded with EVEX *)
Record mem_ok (mode : ofssize) (evex : bool) (vec : option rk) (m : memx) : Prop := {
  mk_base : forall r, src_base m = Some r -> addr_reg mode r;
  mk_idx : forall r, src_idx m = Some r ->
             match vec with
             | Some k => fst r = k /\ 0 <= snd r < 32 /\ (8 <= snd r -> mode = USE64) /\ (16 <= snd r -> evex = true)
             | None => addr_reg mode r /\ fst r <> KIP /\ (fst r <> K16 -> snd r <> 4)
             end;
  mk_vec : vec <> None -> src_idx m <> None;
  mk_scale : x_scale m = 0 \/ x_scale m = 1 \/ x_scale m = 2 \/ x_scale m = 4 \/ x_scale m = 8;
  mk_noidx : src_idx m = None -> x_scale m <= 1;
  mk_value : - 2 ^ 63 <= x_value m < 2 ^ 63 /\ (mode = USE64 -> - 2 ^ 31 <= x_value m < 2 ^ 31);
  (* a local variable has a base register; a label is an address *)
  mk_sym : x_sym m <> None -> x_addr m = true;
  mk_stack : x_sym m = Some true -> x_base m <> None;
  mk_fix : x_fix m = true -> label m = true;
  mk_ind : x_indirect m = false -> x_base m = None /\ x_idx m = None;
  mk_q : x_q m = match x_size m with Sz64 => true | _ => false end;
  (* the address size prefix is missing with 32-bit registers behind a symbol, and without base: C39_aso_refuted *)
  mk_a32 : mode = USE64 -> src_asize mode m = 32 -> x_base m <> None /\ x_sym m = None;
  (* 16-bit addresses in 32-bit code: C39_a16_refuted *)
  mk_a16 : forall n, x_base m = Some (K16, n) ->
             vec = None /\ x_sym m = None /\ -128 <= x_value m <= 127 /\ (evex = true -> x_value m = 0) /\ x_scale m <= 1 /\
             match x_idx m with Some (k, i) => k = K16 /\ (n = 3 \/ n = 5) /\ (i = 6 \/ i = 7) | None => n <> 5 end;
  mk_x16 : forall n, src_base m = None -> src_idx m <> Some (K16, n) }.
Definition evex_used (d : row) (c : ci) : bool := has EVEX_ONLY (d_evex d) || (c_evex c && has EVEX (d_vex d)).
Definition vex_used (d : row) (c : ci) : bool := has VEX (d_vex d) && negb (has EVEX_ONLY (d_evex d)) && negb (c_evex c).
(** the gather instructions; their index has the length of the destination *)
Definition gather (d : row) : bool := same_name (d_name d) "vgatherdps".
Definition row_vec (d : row) : option rk :=
  if gather d then match d_types d with T_R_XMM :: _ => Some KX | T_R_YMM :: _ => Some KY | _ => Some KZ end else None.
(** EVEX: the displacement is written as a byte without being divided by N, or divided and written as doubleword: C41_disp_refuted,
    C41_disp32_refuted; or divided by the wrong N: C41_scale_refuted *)
Definition forced32 (m : memx) : bool := label m || match src_base m with None | Some (KIP, _) => true | _ => false end.
Definition wrong_n (d : row) : bool :=
  let dst := nth 0 (d_types d) T_R_RIP in
  (same_name (d_name d) "vcvtdq2pd" && negb (optype_beq (nth 1 (d_types d) T_R_RIP) T_M256)) || (same_name (d_name d) "vpmovzxbq" && negb (optype_beq dst T_R_ZMM)) ||
  (same_name (d_name d) "vbroadcastsd" && optype_beq dst T_R_YMM).
Definition evex_disp (d : row) (c : ci) (m : memx) : Prop :=
  x_value m = 0 \/ (c_evex c = true /\ forced32 m = false /\ wrong_n d = false) \/ (c_evex c = false /\ ~ -128 <= swrap 32 (x_value m) <= 127).
Definition opnd_ok (d : row) (c : ci) (o : opnd) : Prop :=
  match o with
  | OReg r => reg_ok (c_mode c) (c_evex c) r
  | OMem m => mem_ok (c_mode c) (evex_used d c) (row_vec d) m /\
              (* EVEX.X is set by a store to a plain label, which is something else in 32-bit code: C41_label_refuted *)
              (evex_used d c = true -> d_dir d = RM_DST -> x_indirect m = true \/ (c_mode c = USE64 /\ label m = true))
  | OImm _ v _ => - 2 ^ 63 <= v < 2 ^ 64
  | ONone => False
  end.
(** REX changes the meaning of AH-BH: such operands are refused by ParseLine (parser.c:4013) *)
Definition rex_mem (m : memx) : bool := match x_base m with Some (_, n) => 8 <=? n | None => false end || match x_idx m with Some (_, n) => 8 <=? n | None => false end.
Definition high_byte (o : opnd) : bool := match o with OReg (K8H, _) => true | _ => false end.
Record written_ok (d : row) (c : ci) (l : list opnd) : Prop := {
  wo_mode : c_mode c = USE32 \/ c_mode c = USE64;
  wo_cpu : In (mode_bit (c_mode c)) (d_modes d);
  wo_types : map MatchOperand l = d_types d \/ map DemoteOperand (map MatchOperand l) = d_types d;
  wo_opnds : Forall (opnd_ok d c) l;
  (* rows for a memory operand of any size behind rows for each size are not for quadwords: C42_assembled *)
  wo_untyped : has REXP_MEM (d_flags d) = true -> In T_M_ANY (d_types d) -> forall m, In (OMem m) l -> x_size m <> Sz64;
  wo_high : forall m, existsb high_byte l = true -> In (OMem m) l -> rex_mem m = false;
  (* a row that stands for absolute addresses *)
  wo_abs : has NO_MEM_REG (d_flags d) = true -> existsb (has_memreg (c_mode c)) l = false /\ forall m, In (OMem m) l -> x_base m = None /\ x_idx m = None;
  wo_seg : forall s, c_seg c = Some s -> 0 <= s < 6;
  (* decorations make the instruction an EVEX instruction *)
  wo_deco : 0 <= c_deco c < 256;
  wo_plain : c_evex c = false -> c_deco c = 0 /\ c_broad c = 0 /\ c_sae c = 0;
  wo_broad : In (c_broad c) [0; 0x10; 0x20; 0x30; 0x40] /\ (c_broad c <> 0 -> c_sae c = 0 /\ exists m, In (OMem m) l);
  wo_sae : In (c_sae c) [0; 0x20; 0x40; 0x60; 0x80];
  (* C41_rounding_refuted, C41_length_refuted *)
  wo_rnd : c_sae c <> 0 -> has EVEX_RND (d_evex d) = true /\ (d_size d = 64 \/ same_name (d_name d) "vcvtsi2ss" = true);
  (* C41_zero_refuted *)
  wo_z : Z.testbit (c_deco c) 7 = true -> match l with OMem _ :: _ => False | _ => True end;
  (* C39_mpsadbw_refuted *)
  wo_mpsadbw : same_name (d_name d) "mpsadbw" = false;
  (* C41_dup_refuted *)
  wo_dup : has VEX_DUP_NDS (d_vex d) = true -> c_evex c = false;
  (* C40_gather_refuted *)
  wo_gather : gather d = true -> forall k n, nth 2 l ONone = OReg (k, n) -> n < 8;
  (* C39_qword_refuted *)
  wo_qword : c_mode c = USE32 -> Forall (fun t => t <> T_M64) (d_types d);
  (* a 64-bit operand and a constant that is not extended from 32 bits: C39_constant_refuted *)
  wo_imm : forall t v f, In (OImm t v f) l -> In T_M64 (d_types d) \/ (In T_R64 (d_types d) \/ In T_R64E (d_types d)) /\ t <> I64 -> - 2 ^ 31 <= v < 2 ^ 31 }.

(** the instruction decoded is the one written, its displacement being [v] *)
Definition decodes_to (d : row) (c : ci) (l : list opnd) (v : memx -> Z) (bytes : list Z) : Prop :=
  exists i, disasm (c_mode c) bytes = Some i /\ i_name i = mnemonic (d_name d) /\
            Forall2 (fun to => agrees (c_mode c) (c_seg c) v (fst to) (snd to)) (full (d_name d) (combine (d_types d) l)) (i_ops i) /\ same_deco d c i.

(** the bytes in the program: [v] is stored where the fixup of the displacement says; without such a fixup v is the displacement written *)
Definition linked (d : row) (c : ci) (l : list opnd) (o : out) (v : memx -> Z) (bytes : list Z) : Prop :=
  match o_dfix o with
  | None => bytes = o_bytes o /\ forall m, In (OMem m) l -> v m = x_value m /\ (evex_used d c = true -> evex_disp d c m)
  | Some p => exists k, (forall m, In (OMem m) l -> v m = k) /\ (c_mode c = USE64 -> - 2 ^ 31 <= k < 2 ^ 31) /\
                        bytes = firstn (Z.to_nat p) (o_bytes o) ++ le_bytes 4 k ++ skipn (Z.to_nat p + 4) (o_bytes o)
  end.

(** ** Instructions without operands: their bytes *)
Definition plain : list (string * list Z) := [
  ("clc", [0xF8]); ("cld", [0xFC]); ("cli", [0xFA]); ("clts", [0x0F; 0x06]); ("cmc", [0xF5]); ("cpuid", [0x0F; 0xA2]); ("daa", [0x27]); ("das", [0x2F]); ("hlt", [0xF4]);
  ("invd", [0x0F; 0x08]); ("lahf", [0x9F]); ("leave", [0xC9]); ("stc", [0xF9]); ("std", [0xFD]); ("sti", [0xFB]);
  ("f2xm1", [0xD9; 0xF0]); ("fabs", [0xD9; 0xE1]); ("fchs", [0xD9; 0xE0]); ("fclex", [0x9B; 0xDB; 0xE2]); ("fnclex", [0xDB; 0xE2]); ("fcos", [0xD9; 0xFF]);
  ("fdecstp", [0xD9; 0xF6]); ("fincstp", [0xD9; 0xF7]); ("finit", [0x9B; 0xDB; 0xE3]); ("fninit", [0xDB; 0xE3]); ("fld1", [0xD9; 0xE8]); ("fldl2t", [0xD9; 0xE9]);
  ("fldl2e", [0xD9; 0xEA]); ("fldpi", [0xD9; 0xEB]); ("fldlg2", [0xD9; 0xEC]); ("fldln2", [0xD9; 0xED]); ("fldz", [0xD9; 0xEE]); ("fnop", [0xD9; 0xD0]); ("fpatan", [0xD9; 0xF3]);
  ("fprem", [0xD9; 0xF8]); ("fprem1", [0xD9; 0xF5]); ("fptan", [0xD9; 0xF2]); ("frndint", [0xD9; 0xFC]); ("fscale", [0xD9; 0xFD]); ("fsin", [0xD9; 0xFE]);
  ("fsincos", [0xD9; 0xFB]); ("fsqrt", [0xD9; 0xFA]); ("ftst", [0xD9; 0xE4]); ("fxam", [0xD9; 0xE5]); ("fxch", [0xD9; 0xC9]); ("fxtract", [0xD9; 0xF4]); ("fyl2x", [0xD9; 0xF1]);
  ("fyl2xp1", [0xD9; 0xF9])]%string.
(** daa and das are not instructions of 64-bit code; lahf is left to the older generator there *)
Definition modes_of (name : string) : list ofssize := if existsb (String.eqb name) ["daa"; "das"; "lahf"]%string then [USE32] else [USE32; USE64].

(** ** The operands each type of the table stands for *)
Definition takes (t : optype) (o : opnd) : Prop :=
  let r k P := exists n, o = OReg (k, n) /\ P n in
  let m sz := exists x, o = OMem x /\ x_size x = sz in
  let i k := exists v f, o = OImm k v f in
  match t with
  | T_R8 => r K8 (fun n => n < 8) | T_R8_AL => o = OReg (K8, 0) | T_R8_CL => o = OReg (K8, 1) | T_R8E => r K8 (fun n => 8 <= n) | T_R8H => r K8H (fun _ => True) | T_R8U => r K8U (fun _ => True)
  | T_R16 => r K16 (fun n => n < 8) | T_R16_AX => o = OReg (K16, 0) | T_R16_DX => o = OReg (K16, 2) | T_R16E => r K16 (fun n => 8 <= n)
  | T_R32 => r K32 (fun n => n < 8) | T_R32_EAX => o = OReg (K32, 0) | T_R32E => r K32 (fun n => 8 <= n)
  | T_R64 => r K64 (fun n => n < 8) | T_R64_RAX => o = OReg (K64, 0) | T_R64E => r K64 (fun n => 8 <= n)
  | T_R_RIP => r KIP (fun _ => True)
  | T_R_XMM => r KX (fun _ => True) | T_R_YMM => r KY (fun _ => True) | T_R_ZMM => r KZ (fun _ => True) | T_R_K => r KM (fun _ => True)
  | T_R_SEG => r KSEG (fun n => n < 4) | T_R_SEGE => r KSEG (fun n => 4 <= n)
  | T_R_CR => r KCR (fun n => n <> 8) | T_R_CR8 => o = OReg (KCR, 8) | T_R_DR => r KDR (fun _ => True)
  | T_R_ST0 | T_R_XMME | T_R_YMME => False
  | T_M_ANY => exists x, o = OMem x
  | T_M8 => m Sz8 | T_M16 => m Sz16 | T_M32 => m Sz32 | T_M48 => m Sz48 | T_M64 => m Sz64 | T_M80 => m Sz80 | T_M128 => m Sz128 | T_M256 => m Sz256 | T_M512 => m Sz512
  | T_IMM8 => i I8 | T_IMM16 => i I16 | T_IMM32 => i I32 | T_IMM48 => i I48 | T_IMM64 => i I64
  end.
Definition typeable (o : opnd) : Prop := match o with OReg (k, _) => k <> KMM /\ k <> KST | ONone => False | _ => True end.

(** ** The row chosen: the first that fits *)
Record fits (name : string) (types : list optype) (memreg : bool) (c : ci) (src dst : Z) (d : row) : Prop := {
  ft_name : lowers (d_name d) = lowers name;
  ft_types : d_types d = types;
  ft_mode : In (mode_bit (c_mode c)) (d_modes d);
  (* rows for absolute addresses *)
  ft_abs : memreg = true -> has NO_MEM_REG (d_flags d) = false;
  (* rows with source and destination exchanged, which make a VEX prefix shorter *)
  ft_swap : has SRCHDSTL (d_flags d) = true -> 7 < src /\ dst <= 7 /\ c_evex c = false }.
Definition first_fit (P : row -> Prop) (t : list row) (r : option row) : Prop :=
  match r with
  | Some d => exists before behind, t = before ++ d :: behind /\ P d /\ Forall (fun e => ~ P e) before
  | None => Forall (fun e => ~ P e) t
  end.
(** the address of a memory operand has a register or, in 64-bit code, a label *)
Definition located (mode : ofssize) (m : memx) : bool :=
  match x_base m, x_idx m with None, None => false | _, _ => true end || match mode, x_sym m with USE64, Some _ => true | _, _ => false end.
Definition opnd_num (o : opnd) : Z := match o with OReg r => regno (Some r) | OMem m => match x_base m with Some r => regno (Some r) | None => 0 end | _ => 0 end.
(** operands by their own types first, then by the general ones *)
Definition chosen (t : list row) (name : string) (c : ci) (l : list opnd) (r : option row) : Prop :=
  let f ty := fits name ty (existsb (fun o => match o with OMem m => located (c_mode c) m | _ => false end) l) c (opnd_num (opn l 1)) (opnd_num (opn l 0)) in
  match r with
  | Some d => first_fit (f (map MatchOperand l)) t (Some d) \/ (Forall (fun e => ~ f (map MatchOperand l) e) t /\ first_fit (f (map (fun o => DemoteOperand (MatchOperand o)) l)) t (Some d))
  | None => Forall (fun e => ~ f (map MatchOperand l) e) t /\ Forall (fun e => ~ f (map (fun o => DemoteOperand (MatchOperand o)) l) e) t
  end.
(** what x_addr and x_indirect say of the registers *)
Definition flags_ok (o : opnd) : Prop :=
  match o with OMem m => (x_indirect m = false -> x_base m = None /\ x_idx m = None) /\ (x_addr m = false -> x_indirect m = true -> x_base m <> None \/ x_idx m <> None) | _ => True end.
(** constant addresses of 64-bit code which MOV and the like leave to the legacy generator *)
Definition short_address (name : string) (c : ci) (l : list opnd) (d : row) : Prop :=
  c_mode c = USE64 /\ lowers name <> "movabs"%string /\ gp_group (d_group d) = true /\ (forall m, In (OMem m) l -> located USE64 m = false) /\
  exists i m, (d_mem d = MemOpnd i \/ d_mem d = MemAbs i) /\ opn l i = OMem m /\ x_value m mod 2 ^ 64 < 2 ^ 32 - 1 /\ x_value m mod 2 ^ 32 <> 2 ^ 31.
(** the conditions of [written_ok] that do not follow from the choice of the row *)
Record rest_ok (d : row) (c : ci) (l : list opnd) : Prop := {
  ro_mode : c_mode c = USE32 \/ c_mode c = USE64;
  ro_opnds : Forall (opnd_ok d c) l;
  ro_high : forall m, existsb high_byte l = true -> In (OMem m) l -> rex_mem m = false;
  ro_seg : forall s, c_seg c = Some s -> 0 <= s < 6;
  ro_deco : 0 <= c_deco c < 256;
  ro_plain : c_evex c = false -> c_deco c = 0 /\ c_broad c = 0 /\ c_sae c = 0;
  ro_broad : In (c_broad c) [0; 0x10; 0x20; 0x30; 0x40] /\ (c_broad c <> 0 -> c_sae c = 0 /\ exists m, In (OMem m) l);
  ro_sae : In (c_sae c) [0; 0x20; 0x40; 0x60; 0x80];
  ro_rnd : c_sae c <> 0 -> has EVEX_RND (d_evex d) = true /\ (d_size d = 64 \/ same_name (d_name d) "vcvtsi2ss" = true);
  ro_z : Z.testbit (c_deco c) 7 = true -> match l with OMem _ :: _ => False | _ => True end;
  ro_mpsadbw : same_name (d_name d) "mpsadbw" = false;
  ro_dup : has VEX_DUP_NDS (d_vex d) = true -> c_evex c = false;
  ro_gather : gather d = true -> forall k n, nth 2 l ONone = OReg (k, n) -> n < 8;
  ro_qword : c_mode c = USE32 -> Forall (fun t => t <> T_M64) (d_types d);
  ro_imm : forall t v f, In (OImm t v f) l -> In T_M64 (d_types d) \/ (In T_R64 (d_types d) \/ In T_R64E (d_types d)) /\ t <> I64 -> - 2 ^ 31 <= v < 2 ^ 31 }.

(** ** Instructions accepted *)
(** an address that can be encoded *)
Record encodable (mode : ofssize) (m : memx) : Prop := {
  en_kind : forall k n k' n', x_base m = Some (k, n) -> x_idx m = Some (k', n') -> simd (Some (k', n')) = true \/ k' = k;
  en_rip : forall n, x_base m = Some (KIP, n) -> x_idx m = None;
  (* a vector written in front of another register: C40_vector_first_refuted *)
  en_vec : simd (x_base m) = true -> x_idx m = None;
  (* a label with index in 64-bit code: C39_index_refuted *)
  en_label : mode = USE64 -> label m = true -> src_base m = None -> src_idx m = None }.
Definition bc_bits (d : row) : Z := if same_name (d_name d) "vblendmpd" || same_name (d_name d) "vcvtdq2pd" then 64 else 32.
Record allowed (d : row) (c : ci) (l : list opnd) : Prop := {
  aw_ins : c_ins c = None;
  (* the general instructions take FS, GS and SS; absolute addresses and 32-bit code any segment register *)
  aw_seg : forall s, c_seg c = Some s -> gp_group (d_group d) = true /\ (exists m, In (OMem m) l) /\ (c_mode c = USE32 \/ s = 2 \/ s = 4 \/ s = 5 \/ has NO_MEM_REG (d_flags d) = true);
  aw_evex : c_evex c = true -> d_evex d <> [];
  aw_mem : forall m, In (OMem m) l -> has NO_MEM_REG (d_flags d) = true \/ encodable (c_mode c) m;
  (* EVEX decorations of the manual *)
  aw_mask : evex_used d c = true -> (c_deco c) mod 8 <> 0 -> same_name (d_name d) "vcvtsi2ss" = false;
  aw_gather : evex_used d c = true -> gather d = true -> (c_deco c) mod 8 <> 0;
  aw_z : evex_used d c = true -> Z.testbit (c_deco c) 7 = true -> same_name (d_name d) "vcvtsi2ss" = false /\ gather d = false;
  aw_broad : evex_used d c = true -> c_broad c <> 0 ->
               existsb (same_name (d_name d)) ["vmulps"; "vpshufd"; "vblendmpd"; "vcvtdq2pd"]%string = true /\ In T_M_ANY (d_types d) /\
               (written_bc (c_broad c) = 8 * d_size d / bc_bits d \/ (same_name (d_name d) "vcvtdq2pd" = true /\ written_bc (c_broad c) = 2 * (8 * d_size d / bc_bits d)));
  aw_sae : evex_used d c = true -> c_sae c <> 0 -> forall m, ~ In (OMem m) l }.
