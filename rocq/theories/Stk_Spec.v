(** What the stack frame of a procedure is for, independent of the code that makes it. *)
From Coq Require Import List ZArith Bool.
From Verif Require Import Base Stk_Model.
Import ListNotations.
Open Scope Z_scope.

(** * The processor
    General registers of 32 bits by number (4 is not used, the stack pointer is
    [sp]), segment registers, memory in bytes.  The stack pointer does not wrap. *)
Record machine := { sp : Z; g : Z -> Z; sg : Z -> Z; mem : Z -> Z }.
Definition upd (f : Z -> Z) (k v : Z) : Z -> Z := fun x => if x =? k then v else f x.
Definition load (m : Z -> Z) (a : Z) (n : nat) : Z := le_val (map (fun k => m (a + Z.of_nat k)) (seq 0 n)).
Definition store (m : Z -> Z) (a : Z) (n : nat) (v : Z) : Z -> Z :=
  fun x => if (a <=? x) && (x <? a + Z.of_nat n) then nth (Z.to_nat (x - a)) (le_bytes n v) 0 else m x.
Definition low (n v : Z) : Z := v mod 2 ^ (8 * n).
(** the low [n] bytes of a register replaced *)
Definition set_low (n old v : Z) : Z := old - low n old + low n v.
(** bytes a register takes on the stack: segment registers take a word *)
Definition width (w : Z) (u : ureg) : Z := match u with UG n _ => n | US _ => w end.
Definition value (m : machine) (u : ureg) : Z := match u with UG n r => low n (g m r) | US r => low 2 (sg m r) end.
Definition set_reg (m : machine) (u : ureg) (v : Z) : machine :=
  match u with
  | UG n r => {| sp := sp m; g := upd (g m) r (set_low n (g m r) v); sg := sg m; mem := mem m |}
  | US r => {| sp := sp m; g := g m; sg := upd (sg m) r (low 2 v); mem := mem m |}
  end.
Definition set_sp (m : machine) (a : Z) : machine := {| sp := a; g := g m; sg := sg m; mem := mem m |}.
Definition push (w : Z) (m : machine) (u : ureg) : machine :=
  let a := sp m - width w u in
  {| sp := a; g := g m; sg := sg m; mem := store (mem m) a (Z.to_nat (width w u)) (value m u) |}.
Definition pop (w : Z) (m : machine) (u : ureg) : machine :=
  set_reg (set_sp m (sp m + width w u)) u (load (mem m) (sp m) (Z.to_nat (width w u))).
Definition the_base (o : options) (m : machine) : Z := low (ws o) (g m (basereg o)).
(** [dgroup] is the address of DGROUP.  A return takes the return address from the
    stack; this is seen with [return_address] *)
Definition step (o : options) (dgroup : Z) (m : machine) (l : line) : machine :=
  match l with
  | LPush u => push (ws o) m u
  | LPop u => pop (ws o) m u
  | LMov => set_reg m (UG (ws o) (basereg o)) (sp m)
  | LMovSp => set_sp m (the_base o m)
  | LSub n => set_sp m (sp m - n)
  | LAdd n | LLea n => set_sp m (sp m + n)
  | LLeave => pop (ws o) (set_sp m (the_base o m)) (UG (ws o) (basereg o))
  | LLoadDs => set_reg (set_reg m (UG 2 0) dgroup) (US 3) dgroup
  | LSubRsp n => m
  | LRet f n => set_sp m (sp m + (if f then 2 else 1) * ws o + n)
  end.
Definition run o dgroup m l : machine := fold_left (step o dgroup) l m.

(** * The procedure *)
Definition ra (o : options) (p : proc) : Z := (if far p then 2 else 1) * ws o.
(** bytes of an argument on the stack *)
Definition slot (w n : Z) : Z := (n + w - 1) / w * w.
(** which parameters a convention passes in registers: with Microsoft's FASTCALL the
    first ones that fit, two of them in 32-bit code and three in 16-bit code *)
Definition fits (o : options) (q : param) : bool := (p_size q <=? ws o) && negb (p_real q).
Definition registers (o : options) (l : lang) : nat := match l with LFastcall => if ws o =? 2 then 3 else 2 | _ => 0 end.
Definition in_register (o : options) (p : proc) (k : nat) : bool :=
  match nth_error (params p) k with
  | Some q => fits o q && (length (filter (fits o) (firstn k (params p))) <? registers o (plang p))%nat
  | None => false
  end.
(** bytes the parameter with number [k] has on the stack *)
Definition stack_bytes (o : options) (p : proc) (k : nat) : Z :=
  match nth_error (params p) k with
  | Some q => if in_register o p k then 0 else slot (ws o) (p_size q)
  | None => 0
  end.
Definition sum (f : nat -> Z) (l : list nat) : Z := fold_right (fun k s => f k + s) 0 l.
Definition args_size (o : options) (p : proc) : Z := sum (stack_bytes o p) (seq 0 (length (params p))).
(** the first argument is pushed last, or first *)
Definition pascal_order (o : options) (l : lang) : bool :=
  match l with LPascal | LFortran | LBasic => true | LFastcall => ws o =? 2 | _ => false end.
(** where the caller has put argument [k], relative to the return address *)
Definition arg_place (o : options) (p : proc) (k : nat) : Z :=
  ra o p + sum (stack_bytes o p) (if pascal_order o (plang p) then seq (S k) (length (params p) - S k) else seq 0 k).
(** who removes the arguments *)
Definition callee_cleans (l : lang) : bool := match l with LC | LSyscall => false | _ => true end.

(** * Locals *)
Definition size_of (l : local) : Z := l_elem l * l_count l.
(** locals take memory, and not more than there is *)
Definition locals_ok (p : proc) : Prop :=
  Forall (fun l => 0 < l_elem l /\ 0 < l_count l) (locals p) /\ fold_right (fun l s => size_of l + 8 + s) 0 (locals p) < 2 ^ 31.
(** alignment of an element of [n] bytes *)
Definition natural (w n : Z) : Z := if n >=? w then w else if (w =? 4) && (n =? 3) then 4 else n.
Definition ranges (p : proc) (ofs : list Z) (b : Z) : list (Z * Z) := map (fun '(l, x) => (b + x, b + x + size_of l)) (combine (locals p) ofs).

(** SP or the frame register *)
Definition uses_sp (o : options) : bool := basereg o =? 4.
(** a frame is needed for locals and parameters on the stack *)
Definition on_stack (o : options) (p : proc) : Prop := exists k, (k < length (params p))%nat /\ in_register o p k = false.
Definition needs_frame (o : options) (p : proc) : Prop := locals p <> [] \/ on_stack o p \/ forceframe p = true.
Definition base (o : options) (m : machine) : Z := if uses_sp o then sp m else the_base o m.

(** * What is assumed *)
Definition reg_ok (o : options) (u : ureg) : Prop :=
  match u with UG n r => (n = 2 \/ n = 4) /\ 0 <= r < 8 /\ r <> 4 | US r => 0 <= r < 6 end.
Definition word_reg (o : options) (u : ureg) : Prop := match u with UG n _ => n = ws o | US _ => True end.
Definition opts_ok (o : options) : Prop := (ws o = 2 \/ ws o = 4) /\ 0 <= basereg o < 8 /\ (basereg o = 4 -> ws o = 4).
Definition lang_ok (p : proc) : Prop :=
  Forall (fun q => 0 <= p_size q /\ (p_vararg q = true -> p_size q = 0)) (params p) /\
  (existsb p_vararg (params p) = true -> plang p = LC \/ plang p = LSyscall).
(** LOADDS: AX is not kept, the stack pointer is not the base, and there is something
    else to be done at the entry (see the theorems at the end) *)
Definition loadds_ok (o : options) (p : proc) : Prop :=
  loadds p = true -> Forall (fun u => match u with UG _ r => r <> 0 | US _ => True end) (uses p) /\ uses_sp o = false /\ basereg o <> 0 /\
    (uses p <> [] \/ needs_frame o p \/ params p = []).
Definition proc_ok (o : options) (p : proc) : Prop :=
  opts_ok o /\ Forall (reg_ok o) (uses p) /\ (uses_sp o = true -> Forall (word_reg o) (uses p)) /\ locals_ok p /\ lang_ok p /\ loadds_ok o p.

(** bytes of the frame above the locals, and of the registers *)
Definition frame_bytes (o : options) (p : proc) (framed : bool) : Z := if framed then ws o else 0.
Definition saved_bytes (o : options) (p : proc) : Z := fold_right (fun u s => width (ws o) u + s) 0 (uses p) + (if loadds p then ws o else 0).
(** what the body of the procedure did from state [m1] to [m2]: the stack pointer is
    back, the frame register is untouched, and so is the stack but for the locals *)
Definition body (o : options) (p : proc) (m0 m1 m2 : machine) (ofs : list Z) : Prop :=
  sp m2 = sp m1 /\ (needs_frame o p -> the_base o m2 = the_base o m1) /\
  forall a, sp m1 <= a < sp m0 + ra o p -> (forall r, In r (ranges p ofs (base o m1)) -> ~ (fst r <= a < snd r)) -> mem m2 a = mem m1 a.
(** the stack is large enough *)
Definition room (o : options) (p : proc) (L : Z) (m0 : machine) : Prop := ws o + L + saved_bytes o p <= sp m0 < 2 ^ (8 * ws o).
(** parts of registers the procedure restores *)
Definition kept (o : options) (p : proc) (u : ureg) : Prop :=
  In u (uses p) \/ (needs_frame o p /\ uses_sp o = false /\ u = UG (ws o) (basereg o)) \/ (loadds p = true /\ u = US 3).
