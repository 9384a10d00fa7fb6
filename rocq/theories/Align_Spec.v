(** A small part of the x86 instruction set, enough to execute padding.
    Registers are numbered as in ModR/M; 16, 32 or 64 bit mode without REX. *)
From Verif Require Import Base.

Inductive mode := M16 | M32 | M64.
Definition width (m : mode) : Z := match m with M16 => 16 | M32 => 32 | M64 => 64 end.

(** effect of one instruction on the registers; no flags are touched by any *)
Inductive effect := E_none | E_mov (d s : Z) | E_lea (d base disp : Z).

Definition modrm (b : Z) : Z * Z * Z := (b / 64, b / 8 mod 8, b mod 8).

(** disp8 sign extension and disp32 *)
Definition sx8 (b : Z) : Z := if b <? 128 then b else b - 256.

(** memory operand without index, 32 and 64 bit addressing: (base, disp, rest);
    mod 0 with rm 5 (no base) is not supported *)
Definition mem_op (md rm : Z) (l : list Z) : option (Z * Z * list Z) :=
  let k base l :=
    if (md =? 0) && negb (base =? 5) then Some (base, 0, l)
    else if md =? 1 then match l with d :: l => Some (base, sx8 d, l) | _ => None end
    else if md =? 2 then match l with
           | d0 :: d1 :: d2 :: d3 :: l => Some (base, d0 + 256 * d1 + 65536 * d2 + 16777216 * sx8 d3, l)
           | _ => None end
    else None in
  if rm =? 4 then
    match l with
    | sib :: l => if sib / 8 mod 8 =? 4 then k (sib mod 8) l else None
    | [] => None
    end
  else k rm l.
(** the same for an operand whose address does not matter *)
Definition any_mem (md rm : Z) (l : list Z) : option (list Z) :=
  let k base l :=
    if (md =? 0) && negb (base =? 5) then Some l
    else if md =? 1 then match l with _ :: l => Some l | _ => None end
    else if md =? 2 then match l with _ :: _ :: _ :: _ :: l => Some l | _ => None end
    else None in
  if rm =? 4 then match l with sib :: l => k (sib mod 8) l | [] => None end
  else k rm l.

(** one instruction behind the prefixes; [p66] operand size prefix seen *)
Definition decode_op (m : mode) (p66 : bool) (l : list Z) : option (effect * list Z) :=
  match l with
  | 0x90 :: l => Some (E_none, l)
  | 0x8b :: b :: l => (* mov r, r/m *)
      let '(md, reg, rm) := modrm b in
      match m with
      | M64 => None
      | _ => if (md =? 3) && negb p66 then Some (E_mov reg rm, l) else None
      end
  | 0x8d :: b :: l => (* lea r, m *)
      let '(md, reg, rm) := modrm b in
      match m with
      | M32 => if p66 then None
               else match mem_op md rm l with
                    | Some (base, disp, l) => Some (E_lea reg base disp, l)
                    | None => None end
      | _ => None
      end
  | 0x0f :: 0x1f :: b :: l => (* multi-byte nop *)
      let '(md, reg, rm) := modrm b in
      match m with
      | M16 => None
      | _ => match any_mem md rm l with Some l => Some (E_none, l) | None => None end
      end
  | _ => None
  end.
Definition decode (m : mode) (l : list Z) : option (effect * list Z) :=
  match l with
  | 0x2e :: l => decode_op m false l
  | 0x66 :: l => decode_op m true l
  | l => decode_op m false l
  end.

Definition regs := Z -> Z.
Definition apply (m : mode) (e : effect) (r : regs) : regs :=
  match e with
  | E_none => r
  | E_mov d s => fun x => if x =? d then r s else r x
  | E_lea d base disp => fun x => if x =? d then (r base + disp) mod 2 ^ width m else r x
  end.

(** execute straight-line code up to its end *)
Fixpoint run (fuel : nat) (m : mode) (l : list Z) (r : regs) : option regs :=
  match l with
  | [] => Some r
  | _ => match fuel with
         | O => None
         | S fuel => match decode m l with
                     | Some (e, l) => run fuel m l (apply m e r)
                     | None => None
                     end
         end
  end.
Definition regs_ok (m : mode) (r : regs) : Prop := forall x, 0 <= r x < 2 ^ width m.

(** padding that does nothing when executed *)
Definition executable_padding (m : mode) (l : list Z) : Prop :=
  forall r, regs_ok m r -> exists r', run (length l) m l r = Some r' /\ forall x, r' x = r x.
