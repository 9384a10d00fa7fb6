(** Win64 unwind data as the operating system reads it (x64 exception handling,
    UNWIND_INFO), and a machine that executes prologues. *)
From Coq Require Import List ZArith Bool.
From Verif Require Import Base Unwind_Model.
Import ListNotations.
Open Scope Z_scope.

(** * Reading *)
Inductive uop :=
| UPush (r : Z)              (* pop register r *)
| UAlloc (n : Z)             (* n bytes were allocated *)
| USetFp                     (* the frame register was set *)
| USave (r o : Z)            (* r was stored at base + o *)
| USaveX (r o : Z)           (* xmm register r was stored at base + o *)
| UMach (code : bool).       (* machine frame, with error code *)
Record info := { u_flags : Z; u_prolog : Z; u_freg : Z; u_fofs : Z (* in bytes *); u_ops : list (Z * uop) }.

Definition word (b0 b1 : Z) : Z := b0 + 256 * b1.
(** [n] words, and the rest *)
Fixpoint words (n : nat) (l : list Z) : option (list Z * list Z) :=
  match n, l with
  | O, _ => Some ([], l)
  | S n, a :: b :: r => match words n r with Some (w, r) => Some (word a b :: w, r) | None => None end
  | _, _ => None
  end.
(** the array of unwind codes *)
Fixpoint ops (l : list Z) : option (list (Z * uop)) :=
  match l with
  | [] => Some []
  | w :: r =>
    let at_ := w mod 256 in let op := w / 256 mod 16 in let inf := w / 4096 in
    let one u (l : option (list (Z * uop))) := match l with Some l => Some ((at_, u) :: l) | None => None end in
    match op, r with
    | 0, _ => one (UPush inf) (ops r)
    | 1, a :: r => if inf =? 0 then one (UAlloc (8 * a)) (ops r)
                   else if inf =? 1 then match r with b :: r => one (UAlloc (a + 65536 * b)) (ops r) | [] => None end else None
    | 2, _ => one (UAlloc (8 * inf + 8)) (ops r)
    | 3, _ => one USetFp (ops r)
    | 4, a :: r => one (USave inf (8 * a)) (ops r)
    | 5, a :: b :: r => one (USave inf (a + 65536 * b)) (ops r)
    | 8, a :: r => one (USaveX inf (16 * a)) (ops r)
    | 9, a :: b :: r => one (USaveX inf (a + 65536 * b)) (ops r)
    | 10, _ => if inf =? 0 then one (UMach false) (ops r) else if inf =? 1 then one (UMach true) (ops r) else None
    | _, _ => None
    end
  end.
(** UNWIND_INFO at the start of the bytes; also the handler's address, which
    follows the codes, whose number is rounded up to an even one *)
Definition read_info (l : list Z) : option (info * option Z) :=
  match l with
  | vf :: sz :: cnt :: fr :: r =>
    if negb (vf mod 8 =? 1) then None else
    match words (Z.to_nat cnt) r with
    | Some (w, r) =>
      match ops w with
      | Some o =>
        let i := {| u_flags := vf / 8; u_prolog := sz; u_freg := fr mod 16; u_fofs := 16 * (fr / 16); u_ops := o |} in
        let r := if cnt mod 2 =? 0 then Some r else match r with _ :: _ :: r => Some r | _ => None end in
        match r with
        | None => None
        | Some r =>
          if vf / 8 =? 0 then Some (i, None)
          else match r with a :: b :: c :: d :: _ => Some (i, Some (word (word a b) 0 + 65536 * word c d)) | _ => None end
        end
      | None => None
      end
    | None => None
    end
  | _ => None
  end.
(** entry of the function table: begin, end, address of the unwind information *)
Definition dword (l : list Z) : Z := le_val (firstn 4 l).
Definition read_entry (l : list Z) : Z * Z * Z := (dword l, dword (skipn 4 l), dword (skipn 8 l)).

(** * Executing *)
(** registers 0-15 (4 is RSP), xmm registers as two 64-bit halves, memory in
    64-bit units (the stack pointer and all offsets are multiples of 8) *)
Record machine := { gpr : Z -> Z; xmm : Z -> Z * Z; mem : Z -> Z }.
Definition rsp (m : machine) : Z := gpr m 4.
Definition upd {A} (f : Z -> A) (k : Z) (v : A) : Z -> A := fun x => if x =? k then v else f x.
Definition set_gpr m r v := {| gpr := upd (gpr m) r v; xmm := xmm m; mem := mem m |}.
Definition set_xmm m r v := {| gpr := gpr m; xmm := upd (xmm m) r v; mem := mem m |}.
Definition store m a v := {| gpr := gpr m; xmm := xmm m; mem := upd (mem m) a v |}.

Inductive instr :=
| IPush (r : Z)              (* push r *)
| ISub (n : Z)               (* sub rsp, n *)
| ISave (r o : Z)            (* mov [rsp+o], r *)
| ISaveX (r o : Z)           (* movaps [rsp+o], xmm *)
| ISetFp (r o : Z)           (* lea r, [rsp+o] *)
| IOther (f : machine -> machine).
Definition exec (m : machine) (i : instr) : machine :=
  match i with
  | IPush r => store (set_gpr m 4 (rsp m - 8)) (rsp m - 8) (gpr m r)
  | ISub n => set_gpr m 4 (rsp m - n)
  | ISave r o => store m (rsp m + o) (gpr m r)
  | ISaveX r o => store (store m (rsp m + o) (fst (xmm m r))) (rsp m + o + 8) (snd (xmm m r))
  | ISetFp r o => set_gpr m r (rsp m + o)
  | IOther f => f m
  end.
Definition execs (m : machine) (l : list instr) : machine := fold_left exec l m.

(** the operating system: undo what has been done at offset [ip] of the
    procedure, then return to the caller *)
Definition undo (i : info) (base : Z) (m : machine) (u : uop) : machine :=
  match u with
  | UPush r => let v := mem m (rsp m) in set_gpr (set_gpr m r v) 4 (rsp m + 8)
  | UAlloc n => set_gpr m 4 (rsp m + n)
  | USetFp => set_gpr m 4 (gpr m (u_freg i) - u_fofs i)
  | USave r o => set_gpr m r (mem m (base + o))
  | USaveX r o => set_xmm m r (mem m (base + o), mem m (base + o + 8))
  | UMach code => set_gpr m 4 (mem m (rsp m + (if code then 32 else 24)))
  end.
Definition frame_set (i : info) (ip : Z) : bool :=
  negb (u_freg i =? 0) &&
  ((u_prolog i <=? ip) || existsb (fun '(o, u) => match u with USetFp => o <=? ip | _ => false end) (u_ops i)).
Definition unwind (i : info) (ip : Z) (m : machine) : Z * machine :=
  let base := if frame_set i ip then gpr m (u_freg i) - u_fofs i else rsp m in
  let m := fold_left (fun m '(o, u) => if o <=? ip then undo i base m u else m) (u_ops i) m in
  (mem m (rsp m), set_gpr m 4 (rsp m + 8)).

(** * Prologues
    Instructions with their lengths. *)
Definition prologue := list (Z * instr).
Definition length_of (p : prologue) : Z := fold_right (fun '(n, _) s => n + s) 0 p.

Definition nonvolatile (r : Z) : Prop := In r [3; 5; 6; 7; 12; 13; 14; 15].
Definition nonvolatile_xmm (r : Z) : Prop := 6 <= r <= 15.

(** instructions that have nothing to do with the frame, where the stack pointer
    is [sp]; they may write into the space of the caller, above [top] *)
Definition harmless (top sp : Z) (f : machine -> machine) : Prop := forall m, rsp m = sp ->
  rsp (f m) = rsp m /\ (forall r, nonvolatile r -> gpr (f m) r = gpr m r) /\ (forall r, nonvolatile_xmm r -> xmm (f m) r = xmm m r) /\
  forall a, rsp m <= a <= top -> mem (f m) a = mem m a.

(** first pushes and allocations, then registers are stored and the frame
    register is set, once, and not stored any more.  [room]: bytes allocated at
    the end of the stack; [used]: slots taken; [fp]: the frame register; [sp]: the
    stack pointer. *)
Fixpoint second (top sp room : Z) (used : list Z) (fp : option Z) (p : prologue) : Prop :=
  match p with
  | [] => True
  | (n, i) :: p =>
    0 < n /\
    match i with
    | ISave r o => nonvolatile r /\ fp <> Some r /\ 0 <= o /\ o mod 8 = 0 /\ o + 8 <= room /\ ~ In o used /\ second top sp room (o :: used) fp p
    | ISaveX r o => nonvolatile_xmm r /\ 0 <= o /\ o mod 16 = 0 /\ o + 16 <= room /\ ~ In o used /\ ~ In (o + 8) used /\
                    second top sp room (o :: o + 8 :: used) fp p
    | ISetFp r o => nonvolatile r /\ fp = None /\ 0 <= o <= 240 /\ o mod 16 = 0 /\ second top sp room used (Some r) p
    | IOther f => harmless top sp f /\ second top sp room used fp p
    | _ => False
    end
  end.
Fixpoint first (top sp room : Z) (p : prologue) : Prop :=
  match p with
  | (n, IPush r) :: q => 0 < n /\ nonvolatile r /\ first top (sp - 8) 0 q
  | (n, ISub k) :: q => 0 < n /\ 0 < k < 2 ^ 32 /\ k mod 8 = 0 /\ first top (sp - k) (room + k) q
  | (n, IOther f) :: q => 0 < n /\ harmless top sp f /\ first top sp room q
  | _ => second top sp room [] None p
  end.
Definition wf_prologue (top : Z) (p : prologue) : Prop := first top top 0 p.

(** what has been saved, where, and the frame register *)
Definition saves (r : Z) (p : prologue) : Prop := exists n, In (n, IPush r) p \/ exists o, In (n, ISave r o) p.
Definition saves_xmm (r : Z) (p : prologue) : Prop := exists n o, In (n, ISaveX r o) p.
Fixpoint slots (m : machine) (p : prologue) : list Z :=
  match p with
  | [] => []
  | (_, i) :: q =>
    match i with
    | IPush _ => [rsp m - 8] | ISave _ o => [rsp m + o] | ISaveX _ o => [rsp m + o; rsp m + o + 8] | _ => []
    end ++ slots (exec m i) q
  end.
(** a state in which [p] has been executed from state [m], and whatever else:
    the slots and the return address are intact, and so is the stack pointer or,
    if there is one, the frame register *)
Definition intact (m : machine) (p : prologue) (m' : machine) : Prop :=
  let mp := execs m (map snd p) in
  (forall a, In a (rsp m :: slots m p) -> mem m' a = mem mp a) /\
  match find (fun '(_, i) => match i with ISetFp _ _ => true | _ => false end) p with
  | Some (_, ISetFp r _) => gpr m' r = gpr mp r
  | _ => rsp m' = rsp mp
  end.

(** * The directives *)
(** what a directive announces *)
Definition announces (d : directive) : option uop :=
  match d with
  | DAllocStack v => Some (UAlloc v)
  | DEndProlog => None
  | DPushFrame c => Some (UMach c)
  | DPushReg r => Some (UPush r)
  | DSaveReg r v => Some (USave r v)
  | DSaveVec r v => Some (USaveX r v)
  | DSetFrame r v => Some USetFp
  end.
Definition announced (l : list (Z * directive)) : list (Z * uop) :=
  flat_map (fun '(c, d) => match announces d with Some u => [(c, u)] | None => [] end) l.
(** frame register and offset: of the last .SETFRAME *)
Definition frame_of (l : list (Z * directive)) : Z * Z :=
  fold_left (fun f '(_, d) => match d with DSetFrame r v => (r, v) | _ => f end) l (0, 0).
Definition is_reg (r : Z) : Prop := 0 <= r < 16.
(** operands for which the format has a place *)
Definition plain_operands (d : directive) : Prop :=
  match d with
  | DAllocStack v => 0 < v < 2 ^ 32 /\ v mod 8 = 0
  | DEndProlog | DPushFrame _ => True
  | DPushReg r => is_reg r
  | DSaveReg r v => is_reg r /\ 0 <= v < 2 ^ 19 /\ v mod 8 = 0
  | DSaveVec r v => is_reg r /\ 0 <= v < 2 ^ 20 /\ v mod 16 = 0
  | DSetFrame r v => is_reg r /\ 0 <= v <= 240 /\ v mod 16 = 0
  end.
(** room taken in the array of codes *)
Definition room_of (d : directive) : Z :=
  match d with
  | DAllocStack v => if v <=? 128 then 1 else if v <? 2 ^ 19 then 2 else 3
  | DEndProlog => 0
  | DPushFrame _ | DPushReg _ | DSetFrame _ _ => 1
  | DSaveReg _ _ | DSaveVec _ _ => 2
  end.
Definition rooms (l : list (Z * directive)) : Z := fold_right (fun '(_, d) s => room_of d + s) 0 l.
(** offsets in order *)
Fixpoint ordered (from : Z) (l : list (Z * directive)) : Prop :=
  match l with [] => True | (c, _) :: r => from <= c /\ ordered c r end.

(** the source of a prologue: each instruction is followed by its directive *)
Fixpoint source (pos : Z) (p : prologue) : list (Z * directive) :=
  match p with
  | [] => [(pos, DEndProlog)]
  | (n, i) :: q =>
    match i with
    | IPush r => [(pos + n, DPushReg r)]
    | ISub k => [(pos + n, DAllocStack k)]
    | ISave r o => [(pos + n, DSaveReg r o)]
    | ISaveX r o => [(pos + n, DSaveVec r o)]
    | ISetFp r o => [(pos + n, DSetFrame r o)]
    | IOther _ => []
    end ++ source (pos + n) q
  end.
(** .ENDPROLOG only at the end, within the first 255 bytes *)
Fixpoint closed_well (l : list (Z * directive)) : Prop :=
  match l with
  | [] => True
  | (c, DEndProlog) :: r => c <= 255 /\ r = []
  | _ :: r => closed_well r
  end.
(** offsets of saved registers for which there is a place *)
Definition near (p : prologue) : Prop :=
  Forall (fun '(_, i) => match i with ISave _ o => o < 2 ^ 19 | ISaveX _ o => o < 2 ^ 20 | _ => True end) p.
Definition operand_value (d : directive) : Z :=
  match d with DAllocStack v | DSaveReg _ v | DSaveVec _ v | DSetFrame _ v => v | _ => 0 end.
(** values a programmer can write without an error *)
Definition allowed_operand (d : directive) : Prop :=
  match d with
  | DAllocStack v => v <> 0 /\ v mod 8 = 0
  | DSaveReg _ v => v mod 8 = 0
  | DSaveVec _ v => v mod 16 = 0
  | DSetFrame _ v => v <= 240 /\ v mod 16 = 0
  | _ => True
  end.
