(** What a stack frame is for, independent of the code that makes it. *)
From Coq Require Import List ZArith Bool.
From Verif Require Import Base Unwind_Model Unwind_Spec Frame_Model.
Import ListNotations.
Open Scope Z_scope.

(** * The processor
    Registers 0-15 (4 is RSP), vector registers in lanes of 64 bits, memory in
    cells of 64 bits. *)
Record cpu := { g : Z -> Z; v : Z -> Z -> Z; mm : Z -> Z }.
Definition sp (m : cpu) : Z := g m 4.
Definition set_g m r x := {| g := upd (g m) r x; v := v m; mm := mm m |}.
Definition put m a x := {| g := g m; v := v m; mm := upd (mm m) a x |}.
(** the low [n] bytes of a cell replaced *)
Definition merge (n old new : Z) : Z := old - old mod 2 ^ (8 * n) + new mod 2 ^ (8 * n).
Definition lane_at (a k x : Z) : option Z :=
  if ((x - a) mod 8 =? 0) && (0 <=? (x - a) / 8) && ((x - a) / 8 <? k) then Some ((x - a) / 8) else None.
(** a load of an xmm register by an AVX instruction clears the upper lanes *)
Definition step (avx : bool) (m : cpu) (l : line) : cpu :=
  match l with
  | LHot | LDir _ => m
  | LPush r => put (set_g m 4 (sp m - 8)) (sp m - 8) (g m r)
  | LPop r => set_g (set_g m 4 (sp m + 8)) r (mm m (sp m))
  | LSub _ n => set_g m 4 (sp m - n)
  | LAdd _ n => set_g m 4 (sp m + n)
  | LLeaSp b n => set_g m 4 (g m b + n)
  | LMovSp b => set_g m 4 (g m b)
  | LLea r n => set_g m r (sp m + n)
  | LMov r => set_g m r (sp m)
  | LStore _ r k o => {| g := g m; v := v m; mm := fun x => match lane_at (sp m + o) k x with Some j => v m r j | None => mm m x end |}
  | LLoad _ b r k o =>
      {| g := g m; mm := mm m;
         v := upd (v m) r (fun j => if (0 <=? j) && (j <? k) then mm m (g m b + o + 8 * j) else if avx then 0 else v m r j) |}
  | LHome i r n => put m (sp m + 8 + 8 * i) (merge n (mm m (sp m + 8 + 8 * i)) (g m r))
  | LHomeX i n => put m (sp m + 8 + 8 * i) (merge n (mm m (sp m + 8 + 8 * i)) (v m i 0))
  end.
Definition run (avx : bool) (m : cpu) (l : list line) : cpu := fold_left (step avx) l m.
(** aligned accesses meet aligned addresses *)
Fixpoint aligned (avx : bool) (m : cpu) (l : list line) : Prop :=
  match l with
  | [] => True
  | x :: r =>
    match x with LStore true _ _ o => (sp m + o) mod 16 = 0 | LLoad true b _ _ o => (g m b + o) mod 16 = 0 | _ => True end /\
    aligned avx (step avx m x) r
  end.

(** * The procedure *)
Definition vec_of (u : ureg) : list Z := match u with UG _ => [] | UX r | UY r | UZ r => [r] end.
Definition lanes_of (u : ureg) : Z := match u with UG _ => 0 | UX _ => 2 | UY _ => 4 | UZ _ => 8 end.
Definition proc_ok (p : proc) : Prop :=
  Forall (fun u => match u with UG r => 0 <= r < 16 /\ r <> 4 | UX r | UY r | UZ r => 0 <= r < 32 end) (uses p) /\
  NoDup (flat_map vec_of (uses p)) /\ Forall (fun n => 0 <= n) (locals p).
Definition no_zmm (p : proc) : Prop := Forall (fun u => match u with UZ _ => False | _ => True end) (uses p).
(** whether anything needs a frame register, and the register locals and parameters
    are addressed with *)
Definition needs_frame (p : proc) : bool :=
  match locals p, params p with [], [] => handler p || forceframe p | _, _ => true end.
Definition base (p : proc) (m : cpu) : Z := if needs_frame p then g m 5 else sp m.

(** alignment of a local of [n] bytes *)
Definition natural (n : Z) : Z := if n >=? 16 then 16 else if n >=? 8 then 8 else if n >=? 4 then 4 else 1.
(** byte ranges of the locals *)
Definition ranges (p : proc) (ofs : list Z) (b : Z) : list (Z * Z) := map (fun '(n, o) => (b + o, b + o + n)) (combine (locals p) ofs).
Definition meets (a : Z) (r : Z * Z) : Prop := a < snd r /\ fst r < a + 8.
(** cells a procedure may write to: below the stack pointer, the space reserved
    for arguments, its locals, and the caller's side *)
Definition may_write (m0 m1 : cpu) (p : proc) (lay : layout) (res a : Z) : Prop :=
  a < sp m1 + res \/ (exists r, In r (ranges p (local_ofs lay) (base p m1)) /\ meets a r) \/ sp m0 + 8 <= a.
(** what the body of the procedure did from state [m1] to [m2] *)
Definition body (m0 m1 m2 : cpu) (p : proc) (lay : layout) (res : Z) : Prop :=
  base p m2 = base p m1 /\ forall a, a mod 8 = 0 -> ~ may_write m0 m1 p lay res a -> mm m2 a = mm m1 a.

(** stack space for arguments: enough for every INVOKE *)
Definition enough (res : Z) (invokes : list Z) : Prop := Forall (fun n => 32 <= res /\ 8 * n <= res) invokes.

(** what a parameter passed in a register is *)
Definition passed_in (m : cpu) (i : nat) (t : mtype) : Z :=
  match t with MReal4 | MReal8 => v m (Z.of_nat i) 0 | _ => g m (nth i [1; 2; 8; 9] 0) end.
Definition bytes_of (t : mtype) : Z := match t with MByte | MSByte => 1 | MWord | MSWord => 2 | MDword | MSDword | MReal4 => 4 | MReal8 | MOther => 8 end.

(** the cell for parameter [k] after the prologue; from a VARARG parameter on all
    registers are stored *)
Definition home_cell (m : cpu) (l : list param) (k : nat) : Z :=
  let old := mm m (sp m + 8 + 8 * Z.of_nat k) in
  if existsb p_vararg (firstn (S k) l) then merge 8 old (passed_in m k MOther)
  else match nth_error l k with
       | Some q => if p_used q then merge (bytes_of (p_type q)) old (passed_in m k (p_type q)) else old
       | None => old
       end.
(** registers the procedure restores *)
Definition kept (p : proc) (r : Z) : Prop := In (UG r) (uses p) \/ needs_frame p = true /\ r = 5.
(** bytes taken by the registers that are pushed, and by the vector registers *)
Definition pushed_bytes (p : proc) : Z := 8 * zlen (filter (fun u => match u with UG _ => true | _ => false end) (uses p)).
Definition vector_bytes (p : proc) : Z := fold_right (fun u s => 8 * lanes_of u + s) 0 (uses p).

(** * Unwinding
    The lines with the lengths of their code, as prologue and directives in the
    sense of Unwind_Spec.v *)
Definition instr_of (l : line) : list instr :=
  match l with
  | LHot => [IOther (fun m => m)]
  | LPush r => [IPush r]
  | LSub _ n => [ISub n]
  | LStore _ r _ o => [ISaveX r o]
  | LLea r n => [ISetFp r n]
  | LMov r => [ISetFp r 0]
  | LHome i r n => [IOther (fun m => store m (rsp m + 8 + 8 * i) (merge n (mem m (rsp m + 8 + 8 * i)) (gpr m r)))]
  | LHomeX i n => [IOther (fun m => store m (rsp m + 8 + 8 * i) (merge n (mem m (rsp m + 8 + 8 * i)) (fst (xmm m i))))]
  | _ => []
  end.
Definition code_of (l : list (line * Z)) : prologue := flat_map (fun '(x, n) => map (pair n) (instr_of x)) l.
Fixpoint dirs_of (pos : Z) (l : list (line * Z)) : list (Z * directive) :=
  match l with
  | [] => []
  | (LDir d, _) :: r => (pos, d) :: dirs_of pos r
  | (_, n) :: r => dirs_of (pos + n) r
  end.
Definition all_nonvolatile (p : proc) : Prop :=
  Forall (fun u => match u with UG r => nonvolatile r | UX r => nonvolatile_xmm r | _ => False end) (uses p).

(** the same state for both machines *)
Definition same_state (c : cpu) (m : machine) : Prop :=
  (forall r, gpr m r = g c r) /\ (forall r, xmm m r = (v c r 0, v c r 1)) /\ forall a, mem m a = mm c a.
