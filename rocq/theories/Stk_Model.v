(** Model of the stack frames of 16-bit and 32-bit procedures: proc.c ParseParams
    (lines 1048-1106 parasize, 1116-1162 the order of the list, 1194-1247 the
    offsets), ms32_pcheck and ms32_return (399-449), the choice of LEAVE (1290-1310),
    LocalDir (612, 654-708), check_proc_fpo (3568-3623), write_generic_prologue
    (4714-4836), SetLocalOffsets (4896-5000), write_prologue (5003-5079),
    pop_register (5084-5111), write_generic_epilogue (5174-5283), RetInstr
    (5386-5520), and what INVOKE does with the stack besides pushing the arguments
    (invoke.c 4450-4480, 4677-4689).

    Simplifications: the lines written with AddLineQueueX are modelled by what they
    say; the registers of USES are general or segment registers; FASTCALL is that
    of Microsoft (FCT_MSC), the Watcom and Delphi conventions are left out; prologue
    and epilogue are the default ones; the frame register is as wide as a word. *)
From Coq Require Import List ZArith Bool.
From Verif Require Import Base.
Import ListNotations.
Open Scope Z_scope.

Inductive lang := LC | LSyscall | LStdcall | LPascal | LFortran | LBasic | LFastcall.
(** a register of USES: a general register of 2 or 4 bytes, or a segment register *)
Inductive ureg := UG (size r : Z) | US (r : Z).
(** a parameter: ti.size (0 for VARARG), whether it is REAL4 or REAL8 *)
Record param := { p_size : Z; p_real : bool; p_vararg : bool }.
(** a local: the size of an element and sym.total_length *)
Record local := { l_elem : Z; l_count : Z }.
(** CurrWordSize, the number of the frame register (5 is BP, 4 is SP),
    Options.masm_compat_gencode, Options.frameflags, (curr_cpu & P_CPU_MASK) / 16 *)
Record options := { ws : Z; basereg : Z; o_masm : bool; o_lea : bool; cpu : Z }.
(** struct proc_info and the symbol of the procedure; isleaf is cleared by INVOKE *)
Record proc := { plang : lang; far : bool; uses : list ureg; locals : list local; params : list param;
  forceframe : bool; loadds : bool; isleaf : bool }.

Inductive line :=
| LPush (u : ureg) | LPop (u : ureg)
| LMov | LMovSp                                 (* mov bp, sp; mov sp, bp *)
| LSub (n : Z) | LAdd (n : Z)                   (* sub sp, n or add sp, -n; add sp, n *)
| LLea (n : Z)                                  (* lea sp, [sp+n] *)
| LLeave
| LLoadDs                                       (* mov ax, DGROUP; mov ds, ax *)
| LSubRsp (n : Z)                               (* sub rsp, n *)
| LRet (far : bool) (n : Z).

(** proc.c 275 *)
Definition ROUND_UP (i r : Z) : Z := Z.land (i + (r - 1)) (Z.lnot (r - 1)).

(** * Parameters *)
(** ms32_maxreg (100) *)
Definition ms32_maxreg (o : options) : Z := if ws o =? 2 then 3 else 2.
(** 408-412: whether the parameter is passed in a register *)
Definition ms32_pcheck (o : options) (q : param) (used : Z) : bool :=
  negb ((p_size q >? ws o) || (used >=? ms32_maxreg o) || p_real q).
(** 1023-1046: the parameters, each with whether it is in a register (SYM_TMACRO) *)
Fixpoint classify (o : options) (l : lang) (used : Z) (ps : list param) : list (param * bool) :=
  match ps with
  | [] => []
  | q :: r =>
    match l with
    | LFastcall => if ms32_pcheck o q used then (q, true) :: classify o l (used + 1) r else (q, false) :: classify o l used r
    | _ => (q, false) :: classify o l used r
    end
  end.
(** 1105 *)
Definition parasize (o : options) (p : proc) : Z :=
  fold_left (fun s q => if p_vararg q then s else s + ROUND_UP (p_size q) (ws o)) (params p) 0.
(** 1739-1741 *)
Definition has_vararg (p : proc) : bool := existsb p_vararg (params p).
(** 1119-1162: whether the list keeps the order of the source *)
Definition left_to_right (o : options) (l : lang) : bool :=
  match l with
  | LBasic | LFortran | LPascal => true
  | LFastcall => ws o =? 2
  | _ => false
  end.
Definition paralist (o : options) (p : proc) : list (param * bool) :=
  let l := classify o (plang p) 0 (params p) in
  if left_to_right o (plang p) then l else rev l.
Definition stackparam (o : options) (p : proc) : bool := existsb (fun x => negb (snd x)) (paralist o p).
(** 1232-1245: from the last of the list to the first *)
Fixpoint para_loop (o : options) (ofs : Z) (l : list (param * bool)) : list (option Z) :=
  match l with
  | [] => []
  | (q, true) :: r => None :: para_loop o ofs r
  | (q, false) :: r => Some ofs :: para_loop o (ofs + ROUND_UP (p_size q) (ws o)) r
  end.
(** the offsets in the order of the list *)
Definition para_start (o : options) (p : proc) : list (option Z) :=
  rev (para_loop o ((2 + (if far p then 1 else 0)) * ws o) (rev (paralist o p))).
(** ... and in the order of the source *)
Definition in_source_order {A} (o : options) (p : proc) (l : list A) : list A :=
  if left_to_right o (plang p) then l else rev l.

(** * Locals *)
(** LocalDir 708 *)
Definition total_size (l : local) : Z := wrap 32 (l_elem l * l_count l).
(** 4948-4958; localsize is an int, itemsize is unsigned *)
Definition itemsize (l : local) : Z := if total_size l =? 0 then 0 else total_size l / wrap 32 (l_count l).
Fixpoint local_loop (o : options) (n : Z) (l : list local) : Z * list Z :=
  match l with
  | [] => (n, [])
  | x :: r =>
    let n := swrap 32 (n + total_size x) in
    let item := itemsize x in
    let n :=
      if item >? ws o then swrap 32 (ROUND_UP n (ws o))
      else if negb (item =? 0)
      then let item := if (ws o =? 4) && (item =? 3) then ws o else item in swrap 32 (ROUND_UP n item)
      else n in
    let (m, ofs) := local_loop o n r in (m, - n :: ofs)
  end.

(** what changes from pass to pass *)
Record info := { fpo : bool; localsize : Z; adjusted : bool; local_ofs : list Z; para_ofs : list (option Z) }.
(** 4896-5000 with rspalign = FALSE *)
Definition SetLocalOffsets (o : options) (p : proc) (i : info) : info :=
  let cntstd := if fpo i then zlen (uses p) else 0 in
  let (n, ofs) := local_loop o (localsize i) (locals p) in
  let n := swrap 32 (ROUND_UP n (ws o)) in
  if fpo i then
    let localadj := n + cntstd * ws o in
    let paramadj := n + cntstd * ws o - ws o in
    {| fpo := true; localsize := n; adjusted := true; local_ofs := map (fun x => x + localadj) ofs;
       para_ofs := if adjusted i then para_ofs i else map (option_map (fun x => x + paramadj)) (para_ofs i) |}
  else {| fpo := false; localsize := n; adjusted := adjusted i; local_ofs := ofs; para_ofs := para_ofs i |}.

(** 3568-3623 without an exception handler and with isframe = FALSE *)
Definition check_proc_fpo (o : options) (pass1 : bool) (p : proc) (fpo : bool) : bool :=
  let usedParams := zlen (params p) in
  let usedLocals := zlen (locals p) in
  if (basereg o =? 4) && (ws o =? 4) then true
  else if forceframe p then false
  else if (usedParams >? 0) || (usedLocals >? 0) then false
  else if (usedLocals >? 0) || (usedParams >? 0) || pass1 then false
  else if (usedLocals =? 0) && (usedParams =? 0) then true else fpo.

(** 4723-4746 with pushed_reg = 0 *)
Definition stackadj (fpo : bool) (localsize : Z) : Z :=
  let full := Z.rem localsize 16 =? 0 in
  if fpo then (if full then 8 else 0) else (if full then 0 else 8).

Definition is_nil {A} (l : list A) : bool := match l with [] => true | _ => false end.
Definition has_frame (o : options) (p : proc) : bool :=
  negb (is_nil (locals p)) || stackparam o p || has_vararg p || forceframe p.
Definition frame_reg (o : options) : ureg := UG (ws o) (basereg o).

(** 4714-4836; in pass 1 no INVOKE has been seen yet *)
Definition generic_prologue (o : options) (pass1 : bool) (p : proc) (i : info) : list line :=
  if negb (forceframe p) && (localsize i =? 0) && negb (stackparam o p) && negb (has_vararg p) && is_nil (uses p) && negb (fpo i) then []
  else
    (if fpo i && (stackadj (fpo i) (localsize i) >? 0) && (match plang p with LFastcall => true | _ => false end) && negb (isleaf p || pass1)
     then [LSubRsp (stackadj (fpo i) (localsize i))] else []) ++
    (if has_frame o p && negb (fpo i) then [LPush (frame_reg o); LMov] else []) ++
    (if negb (localsize i =? 0) then [if o_lea o then LLea (- localsize i) else LSub (localsize i)] else []) ++
    (if loadds p then [LPush (US 3); LLoadDs] else []) ++
    map LPush (uses p).

(** 1290-1310; curr_cpu divided by 16: 0 is the 8086, 2 the 286, 3 the 386, 5 the 586 *)
Definition pe_type (o : options) : bool :=
  if negb (basereg o =? 5) then false
  else if o_masm o then (ws o >? 2) || (cpu o =? 2) || (cpu o >=? 5)
  else (cpu o =? 2) || (cpu o =? 7) || (cpu o =? 3).
(** 5174-5283 *)
Definition generic_epilogue (o : options) (p : proc) (i : info) : list line :=
  map LPop (rev (uses p)) ++ (if loadds p then [LPop (US 3)] else []) ++
  if negb (has_frame o p) then []
  else if pe_type o && negb (fpo i) then [LLeave]
  else if fpo i then (if o_lea o then [LLea (localsize i)] else if negb (localsize i =? 0) then [LAdd (localsize i)] else [])
  else (if negb (localsize i =? 0) then [LMovSp] else []) ++ [LPop (frame_reg o)].

(** ms32_return (443-448) *)
Definition ms32_return (o : options) (p : proc) : Z :=
  if parasize o p >? ms32_maxreg o * ws o then parasize o p - ms32_maxreg o * ws o else 0.
(** 5461-5520: [arg] is what the programmer wrote behind RET *)
Definition RetInstr (o : options) (p : proc) (arg : option Z) : line :=
  LRet (far p)
    match arg with
    | Some n => n
    | None =>
      match plang p with
      | LBasic | LFortran | LPascal => parasize o p
      | LFastcall => ms32_return o p
      | LStdcall => if negb (has_vararg p) then parasize o p else 0
      | LC | LSyscall => 0
      end
    end.

(** lines the assembler refuses: RSP outside 64-bit code, and [SP-n] in 16-bit code *)
Definition line_ok (o : options) (l : line) : bool :=
  match l with LSubRsp _ => false | LLea _ => negb (ws o =? 2) | _ => true end.

(** * Passes *)
(** 5003-5079 and, for the epilogue, 5180: the procedure in one pass *)
Definition one_pass (o : options) (p : proc) (pass1 : bool) (i : info) : info * list line * list line :=
  let i := {| fpo := if pass1 then false else fpo i; localsize := if pass1 then localsize i else 0; adjusted := adjusted i; local_ofs := local_ofs i; para_ofs := para_ofs i |} in
  let i := SetLocalOffsets o p i in
  let i := {| fpo := check_proc_fpo o pass1 p (fpo i); localsize := localsize i; adjusted := adjusted i; local_ofs := local_ofs i; para_ofs := para_ofs i |} in
  (i, generic_prologue o pass1 p i, generic_epilogue o p i).
(** the state PROC and LOCAL leave *)
Definition info0 (o : options) (p : proc) : info :=
  {| fpo := false; localsize := 0; adjusted := false; local_ofs := map (fun _ => 0) (locals p); para_ofs := para_start o p |}.
Fixpoint later_passes (n : nat) (o : options) (p : proc) (i : info) : info :=
  match n with O => i | S n => later_passes n o p (fst (fst (one_pass o p false i))) end.
(** [n] passes between the first and the last; the last one writes the code.  The
    result is an error if a line is refused. *)
Definition assembled (o : options) (n : nat) (p : proc) (arg : option Z) : res (info * list line * list line) :=
  let '(i1, pro1, epi1) := one_pass o p true (info0 o p) in
  let '(i, pro, epi) := one_pass o p false (later_passes n o p i1) in
  if forallb (line_ok o) (pro1 ++ epi1 ++ pro ++ epi) then Ok (i, pro, epi ++ [RetInstr o p arg]) else Err.

(** * INVOKE
    the arguments in the order they are pushed (invoke.c 4456-4480: the list from
    its head, with the numbers of the arguments from the last or from the first) *)
Definition push_order (o : options) (p : proc) : list nat :=
  let l := in_source_order o p (seq 0 (length (params p))) in
  filter (fun k => match nth_error (classify o (plang p) 0 (params p)) k with Some (_, r) => negb r | None => false end) l.
(** 4677-4689: what is added to SP after the call; [varargs] is size_vararg *)
Definition cleanup (o : options) (p : proc) (varargs : Z) : Z :=
  match plang p with
  | LC | LSyscall =>
    if negb (parasize o p =? 0) || (has_vararg p && negb (varargs =? 0))
    then (if has_vararg p then parasize o p + varargs else parasize o p) else 0
  | _ => 0
  end.
