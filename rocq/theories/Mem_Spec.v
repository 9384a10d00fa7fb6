(** Specification for C28: how the processor decodes a memory operand (Intel SDM
    volume 2, 2.1.5 tables 2-1 to 2-3, 2.2.1 REX prefixes), and what an operand
    written in the source means. *)
From Verif Require Import Base Mem_Model.

(** ** The processor *)
Inductive abase := BNone | BIP | BReg (n : Z).
(** an effective address: address size in bits, base, index and scale, displacement, segment (ES=0,CS,SS,DS,FS,GS) *)
Record ea := { a_size : Z; a_base : abase; a_index : option (Z * Z); a_disp : Z; a_seg : Z }.
Definition addr (rf : Z -> Z) (ip : Z) (a : ea) : Z :=
  (match a_base a with BNone => 0 | BIP => ip | BReg n => rf n end + match a_index a with Some (n, s) => s * rf n | None => 0 end + a_disp a) mod 2 ^ a_size a.

Definition bits (s : ofssize) : Z := match s with USE16 => 16 | USE32 => 32 | USE64 => 64 end.
(** 3.6.1: the effect of the prefix 67 *)
Definition addrbits (mode : ofssize) (p67 : bool) : Z :=
  match mode, p67 with USE16, false => 16 | USE16, true => 32 | USE32, false => 32 | USE32, true => 16 | USE64, false => 64 | USE64, true => 32 end.

(** table 2-1: 16-bit addressing: base, index, size of the displacement *)
Definition shape16 (md rm : Z) : abase * option (Z * Z) * nat :=
  let dsz := if md =? 0 then 0%nat else if md =? 1 then 1%nat else 2%nat in
  if rm =? 0 then (BReg 3, Some (6, 1), dsz) else if rm =? 1 then (BReg 3, Some (7, 1), dsz)
  else if rm =? 2 then (BReg 5, Some (6, 1), dsz) else if rm =? 3 then (BReg 5, Some (7, 1), dsz)
  else if rm =? 4 then (BReg 6, None, dsz) else if rm =? 5 then (BReg 7, None, dsz)
  else if rm =? 6 then (if md =? 0 then (BNone, None, 2%nat) else (BReg 5, None, dsz)) else (BReg 3, None, dsz).
(** tables 2-2, 2-3 and 2.2.1.3-2.2.1.6: 32- and 64-bit addressing; [rx], [rb]: REX.X, REX.B (0 or 8) *)
Definition shape32 (mode : ofssize) (md rm rx rb sib : Z) : abase * option (Z * Z) * nat :=
  let dsz := if md =? 0 then 0%nat else if md =? 1 then 1%nat else 4%nat in
  if rm =? 4 then
    let x := (sib / 8) mod 8 + rx in
    let idx := if x =? 4 then None else Some (x, 2 ^ (sib / 64)) in
    if (sib mod 8 =? 5) && (md =? 0) then (BNone, idx, 4%nat) else (BReg (sib mod 8 + rb), idx, dsz)
  else if (rm =? 5) && (md =? 0) then ((match mode with USE64 => BIP | _ => BNone end), None, 4%nat)
  else (BReg (rm + rb), None, dsz).
Definition has_sib (asize md rm : Z) : bool := negb (asize =? 16) && (rm =? 4).

(** the segment used without override: SS if the base is (E/R)BP or (E/R)SP, otherwise DS *)
Definition cpu_seg (b : abase) : Z := match b with BReg n => if (n =? 4) || (n =? 5) then 2 else 3 | _ => 3 end.

Definition seg_of_prefix (b : Z) : option Z :=
  if b =? 0x26 then Some 0 else if b =? 0x2E then Some 1 else if b =? 0x36 then Some 2 else if b =? 0x3E then Some 3 else if b =? 0x64 then Some 4
  else if b =? 0x65 then Some 5 else None.
(** the legacy prefixes 66, 67 and the segment overrides *)
Fixpoint legacy (p67 : bool) (seg : option Z) (l : list Z) : bool * option Z * list Z :=
  match l with
  | b :: t => if b =? 0x67 then legacy true seg t else if b =? 0x66 then legacy p67 seg t
              else match seg_of_prefix b with Some s => legacy p67 (Some s) t | None => (p67, seg, l) end
  | [] => (p67, seg, l)
  end.
Fixpoint strip (p l : list Z) : option (list Z) :=
  match p, l with [], _ => Some l | a :: p, b :: l => if a =? b then strip p l else None | _, [] => None end.
Definition sext (n : nat) (v : Z) : Z := match n with O => 0 | _ => swrap (8 * Z.of_nat n) v end.

(** what is found in an instruction: the register field (with REX.R), REX.W, the address and the bytes behind *)
Definition dec_modrm (mode : ofssize) (p67 : bool) (seg : option Z) (rex : Z) (l : list Z) : option (Z * bool * ea * list Z) :=
  match l with
  | m :: l =>
      let md := m / 64 in let reg := (m / 8) mod 8 in let rm := m mod 8 in
      let asize := addrbits mode p67 in
      if md =? 3 then None
      else
        match (if has_sib asize md rm then match l with s :: l => Some (s, l) | [] => None end else Some (0, l)) with
        | Some (sib, l) =>
            let '(b, x, n) := if asize =? 16 then shape16 md rm else shape32 mode md rm (8 * ((rex / 2) mod 2)) (8 * (rex mod 2)) sib in
            if (Z.of_nat n <=? zlen l) then
              Some (reg + 8 * ((rex / 4) mod 2), 8 <=? rex,
                    {| a_size := asize; a_base := b; a_index := x; a_disp := sext n (le_val (firstn n l)); a_seg := match seg with Some s => s | None => cpu_seg b end |},
                    skipn n l)
            else None
        | None => None
        end
  | [] => None
  end.
Definition decode (mode : ofssize) (opcode l : list Z) : option (Z * bool * ea * list Z) :=
  let '(p67, seg, l) := legacy false None l in
  let '(rex, l) := match mode, l with
                   | USE64, b :: t => if (0x40 <=? b) && (b <=? 0x4F) then (b - 0x40, t) else (0, l)
                   | _, _ => (0, l)
                   end in
  match strip opcode l with Some l => dec_modrm mode p67 seg rex l | None => None end.

(** ** The operand in the source *)
Definition regval (rf : Z -> Z) (ip : Z) (r : reg) : Z :=
  match r with R8 n => rf n mod 2 ^ 8 | R16 n => rf n mod 2 ^ 16 | R32 n => rf n mod 2 ^ 32 | R64 n => rf n mod 2 ^ 64 | RIP => ip end.
Definition regbits (r : reg) : Z := match r with R8 _ => 8 | R16 _ => 16 | R32 _ => 32 | R64 _ | RIP => 64 end.
(** the address size: that of the registers, or the offset size of the symbol or of the segment *)
Definition asize (e : env) (o : memop) : Z :=
  match o_base o, o_index o with
  | Some b, _ => regbits b
  | None, Some x => regbits x
  | None, None => match o_sym o with Some s => bits s | None => bits (e_dofs e) end
  end.
(** a symbol without registers is addressed relative to RIP in 64-bit code *)
Definition rip_relative (e : env) (o : memop) : bool :=
  match e_ofs e, o_base o, o_index o, o_sym o with USE64, None, None, Some _ => true | _, _, _, _ => false end.
(** the address written; [d] is the displacement (if there is a symbol: what the linker stores) *)
Definition written (e : env) (o : memop) (d : Z) (rf : Z -> Z) (ip : Z) : Z :=
  ((match o_base o with Some b => regval rf ip b | None => 0 end) +
   (match o_index o with Some x => (if o_scale o =? 0 then 1 else o_scale o) * regval rf ip x | None => 0 end) +
   (if rip_relative e o then ip else 0) + d) mod 2 ^ asize e o.
(** the segment meant: the override, the register assumed for the symbol's segment, or the default *)
Definition stack_reg (r : reg) : bool := match r with R16 n => n =? 5 | R32 n | R64 n => (n =? 4) || (n =? 5) | _ => false end.
Definition source_seg (e : env) (o : memop) : Z :=
  let d := match o_base o, o_index o with
           | Some b, Some (R16 5) => 2
           | Some b, _ => if stack_reg b then 2 else 3
           | None, _ => 3
           end in
  match o_over o with
  | Some s => s
  | None => match o_sym o, e_chk e with Some _, Some s => s | _, _ => d end
  end.
(** in 64-bit code only FS and GS have a base *)
Definition same_seg (e : env) (a b : Z) : Prop := a = b \/ (e_ofs e = USE64 /\ 0 <= a <= 3 /\ 0 <= b <= 3).
(** the kind of fixup *)
Definition source_fix (e : env) (o : memop) : option fixtype :=
  match o_sym o with
  | None => None
  | Some _ => Some (if rip_relative e o then FIX_RELOFF32 else if asize e o =? 16 then FIX_OFF16 else FIX_OFF32)
  end.
Definition fixwidth (t : fixtype) : nat := match t with FIX_OFF16 => 2%nat | _ => 4%nat end.

(** registers that can be used for addressing, in the given code *)
Definition areg (s : ofssize) (r : reg) : Prop :=
  match r with
  | R8 _ => False
  | R16 n => (n = 3 \/ n = 5 \/ n = 6 \/ n = 7) /\ s <> USE64
  | R32 n => 0 <= n < 16 /\ (8 <= n -> s = USE64)
  | R64 n => 0 <= n < 16 /\ s = USE64
  | RIP => s = USE64
  end.
Definition in_seg (s : Z) : Prop := 0 <= s < 6.
(** operands considered. The exceptions are the subject of the _refuted theorems. *)
Record operand_ok (e : env) (o : memop) : Prop := {
  ok_base : forall b, o_base o = Some b -> areg (e_ofs e) b;
  ok_index : forall x, o_index o = Some x -> areg (e_ofs e) x;
  ok_disp : - 2 ^ 63 <= o_disp o < 2 ^ 63;
  ok_over : forall s, o_over o = Some s -> in_seg s;
  ok_chk : forall s, e_chk e = Some s -> in_seg s;
  (* the expression evaluator uses the index only for a scaled or a second register *)
  ok_scale : o_base o = None -> o_index o <> None -> o_scale o <> 0;
  (* without register there is a symbol or a segment override *)
  ok_direct : o_base o = None -> o_index o = None -> o_sym o <> None \/ o_over o <> None;
  (* a symbol, or segment, with an offset size that can be used in this code *)
  ok_sym : forall s, o_sym o = Some s -> (s = USE64 -> e_ofs e = USE64) /\ (s = USE16 -> e_ofs e <> USE64);
  ok_dofs : (e_dofs e = USE64 -> e_ofs e = USE64) /\ (e_dofs e = USE16 -> e_ofs e <> USE64);
  (* exceptions *)
  ok_si : e_ofs e = USE32 -> o_base o = Some (R16 6) -> o_index o <> None;
  ok_rip : o_base o = Some RIP -> o_index o = None /\ o_sym o = None;
  ok_ripx : o_index o <> Some RIP;
  ok_sym32 : e_ofs e = USE64 -> o_sym o = Some USE32 -> asize e o = 32 -> o_base o = None /\ o_index o = None;
  ok_disp64 : asize e o = 64 -> o_base o <> None \/ o_index o <> None -> - 2 ^ 31 <= o_disp o < 2 ^ 31 }.

(** ** Which operands can be encoded *)
Definition pair16 (b x : reg) : Prop :=
  match b, x with R16 b, R16 x => ((b = 3 \/ b = 5) /\ (x = 6 \/ x = 7)) \/ ((x = 3 \/ x = 5) /\ (b = 6 \/ b = 7)) | _, _ => False end.
Definition scale_ok (s : Z) : Prop := s = 0 \/ s = 1 \/ s = 2 \/ s = 4 \/ s = 8.
Definition fits32 (v : Z) : Prop := - 2 ^ 31 <= v < 2 ^ 31.
Definition encodable (e : env) (o : memop) : Prop :=
  match o_base o, o_index o with
  | Some b, Some x => (pair16 b x /\ o_scale o = 0) \/
                      (regbits b = regbits x /\ 32 <= regbits b /\ regno x <> 4 /\ scale_ok (o_scale o) /\ e_386 e = true)
  | None, Some x => 32 <= regbits x /\ regno x <> 4 /\ scale_ok (o_scale o) /\ e_386 e = true
  | _, None => True
  end /\
  (* the range of the displacement *)
  match o_base o, o_index o with
  | None, None => if asize e o =? 16 then -65535 <= swrap 32 (o_disp o) <= 65535 else e_ofs e = USE64 -> fits32 (o_disp o)
  | Some RIP, _ | None, Some _ => e_ofs e = USE64 -> fits32 (o_disp o)
  | Some _, _ => e_ofs e = USE64 -> - 2 ^ 31 <= o_disp o < 2 ^ 32
  end.

(** forms of instructions and opcodes that exist *)
Definition form_ok (s : ofssize) (f : form) : Prop :=
  match f with
  | FM d w => 0 <= d < 8 /\ (w = true -> s = USE64)
  | FMR r | FRM r => r <> RIP /\ 0 <= regno r < 16 /\ (is_p64 r = true -> s = USE64)
  end.
Definition form_field (f : form) : Z := match f with FM d _ => d | FMR r | FRM r => regno r end.
Definition form_w (f : form) : bool := match f with FM _ w => w | FMR r | FRM r => is_r64 r end.
Definition opcode_ok (s : ofssize) (op : list Z) : Prop :=
  exists b t, op = b :: t /\ b <> 0x66 /\ b <> 0x67 /\ seg_of_prefix b = None /\ ~ (s = USE64 /\ 0x40 <= b <= 0x4F).

(** the instruction when [v] is stored in its displacement: v is the displacement written, or if there
    is a fixup, any value that fits *)
Definition linked (mode : ofssize) (k : code) (disp v : Z) (l : list Z) : Prop :=
  match k_fix k with
  | None => l = k_bytes k /\ v = disp
  | Some (t, p) => l = firstn (Z.to_nat p) (k_bytes k) ++ le_bytes (fixwidth t) v ++ skipn (Z.to_nat p + fixwidth t) (k_bytes k) /\ (mode = USE64 -> fits32 v)
  end.
