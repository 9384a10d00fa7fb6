(** Model of the stack frames of Win64 FRAME procedures with the frame register
    RBP: proc.c SetLocalOffsets_RBP (lines 3938-4090), check_proc_fpo (3568-3623),
    win64_SaveRegParams_RBP (2938-2971), write_win64_default_prologue_RBP
    (2976-3212), write_win64_default_epilogue_RBP (3629-3773), pop_register
    (5084-5111), the calls in write_prologue (5007-5079) and
    write_default_prologue/epilogue, and invoke.c ms64_fcstart (420-457).

    Simplifications: the lines written with AddLineQueueX are modelled by what
    they say; sizes are unbounded integers (the sum of the locals is below 2^31);
    the registers of USES are 64-bit or vector registers; @ReservedStack is
    replaced by its value (it changes in pass 1 only, see [reserved]). *)
From Coq Require Import List ZArith Bool.
From Verif Require Import Base Unwind_Model.
Import ListNotations.
Open Scope Z_scope.

(** a register of USES: general (the number), xmm, ymm, zmm *)
Inductive ureg := UG (r : Z) | UX (r : Z) | UY (r : Z) | UZ (r : Z).
(** mem_type of a parameter *)
Inductive mtype := MByte | MSByte | MWord | MSWord | MDword | MSDword | MReal4 | MReal8 | MOther.
Record param := { p_type : mtype; p_used : bool; p_vararg : bool }.
(** win64_flags, Options.frameflags, ModuleInfo.frame_auto *)
Record options := { o_save : bool; o_autosp : bool; o_align16 : bool; o_smart : bool; o_lea : bool; o_auto : bool }.
(** struct proc_info: locals are given by total_size *)
Record proc := { uses : list ureg; locals : list Z; params : list param; handler : bool; forceframe : bool; has_vararg : bool; stackparam : bool }.

Inductive line :=
| LHot                                          (* db 48h *)
| LPush (r : Z) | LPop (r : Z)
| LSub (lea : bool) (n : Z)                     (* sub rsp, n or lea rsp, [rsp-n] *)
| LAdd (lea : bool) (n : Z)                     (* add rsp, n or lea rsp, [rsp+n] *)
| LLeaSp (b n : Z) | LMovSp (b : Z)             (* lea rsp, [b+n]; mov rsp, b *)
| LLea (r n : Z) | LMov (r : Z)                 (* lea r, [rsp+n]; mov r, rsp *)
| LStore (aligned : bool) (r lanes ofs : Z)     (* mov [rsp+ofs], vector register of 8*lanes bytes *)
| LLoad (aligned : bool) (b r lanes ofs : Z)    (* mov vector register, [b+ofs] *)
| LHome (i r size : Z)                          (* mov [rsp+8+8*i], register r, [size] bytes *)
| LHomeX (i size : Z)                           (* movss/movsd [rsp+8+8*i], xmm i *)
| LDir (d : directive).

(** proc.c 275 *)
Definition ROUND_UP (i r : Z) : Z := Z.land (i + (r - 1)) (Z.lnot (r - 1)).

(** invoke.c 420-457: parameters of an INVOKE; the result is the number of
    quadwords needed and the new value of @ReservedStack *)
Definition ms64_fcstart (o : options) (sym numparams : Z) : Z * Z :=
  let numparams := if numparams <? 4 then 4 else if Z.odd numparams then numparams + 1 else numparams in
  (numparams, if o_autosp o then (if numparams * 8 >? sym then numparams * 8 else sym) else sym).
(** write_prologue (5018-5026) and ProcFini (2136-2142): @ReservedStack in the
    later passes is what the INVOKEs of pass 1 made of 0 *)
Definition reserved (o : options) (invokes : list Z) : Z := fold_left (fun s n => snd (ms64_fcstart o s n)) invokes 0.

(** proc.c 3568-3623, isframe set and RBP the frame register *)
Definition check_proc_fpo (o : options) (pass1 : bool) (p : proc) : bool :=
  let usedParams := zlen (params p) in
  let usedLocals := zlen (locals p) in
  if handler p then false
  else if forceframe p then false
  else if negb (o_auto o) then true
  else if (usedLocals >? 0) || (usedParams >? 0) || pass1 then false
  else true.

(** 3985-3991 and other places *)
Definition totalsize (n : Z) : Z :=
  if n >=? 16 then ROUND_UP n 16
  else if (n >=? 8) && (n <? 16) then ROUND_UP n 8
  else if (n >=? 4) && (n <? 8) then ROUND_UP n 4 else n.
(** registers counted in units of 16 bytes *)
Definition units (u : ureg) : Z := match u with UG _ => 0 | UX _ => 1 | UY _ => 2 | UZ _ => 4 end.
Definition cntxmm (l : list ureg) : Z := fold_left (fun n u => n + units u) l 0.
Definition cntstd (l : list ureg) : Z := fold_left (fun n u => match u with UG _ => n + 1 | _ => n end) l 0.

(** 3054-3075, 3636-3657, 4009-4030 *)
Definition stackadj (fpo : bool) (pushed localsize : Z) : Z :=
  let even := pushed mod 2 =? 0 in
  let full := localsize mod 16 =? 0 in
  if fpo then
    if even && full then 8 else if even && negb full then 0 else if negb even && full then 0 else 8
  else
    if even && full then 0 else if even && negb full then 8 else if negb even && full then 8 else 0.

(** 4044-4087: one of the four loops over the locals, [sel] is its condition;
    a local is its size with its offset *)
Fixpoint place (sel : Z -> bool) (cur : Z) (l : list (Z * Z)) : Z * list (Z * Z) :=
  match l with
  | [] => (cur, [])
  | (n, o) :: r =>
    if sel n
    then let (c, r) := place sel (cur - totalsize n) r in (c, (n, cur - totalsize n) :: r)
    else let (c, r) := place sel cur r in (c, (n, o) :: r)
  end.
Record layout := { localsize : Z; frameofs : Z; local_ofs : list Z; param_ofs : list Z }.
(** 3938-4090; [pushed] is info->pushed_reg, left by the previous pass *)
Definition SetLocalOffsets_RBP (o : options) (pass1 : bool) (p : proc) (pushed sym : Z) : layout :=
  let resstack := if o_autosp o then sym else 0 in
  let fpo := check_proc_fpo o pass1 p in
  let localsize := ROUND_UP (fold_left (fun s n => s + totalsize n) (locals p) (16 * cntxmm (uses p))) 16 in
  let frameofs :=
    if fpo then 0
    else let f := ROUND_UP (Z.shiftr localsize 1 + resstack) 16 in if f >? 128 then 128 else f in
  let adj := stackadj fpo pushed localsize in
  let cur := localsize + resstack - 16 * cntxmm (uses p) - frameofs in
  let l := map (fun n => (n, 0)) (locals p) in
  let (cur, l) := place (fun n => n >=? 16) cur l in
  let (cur, l) := place (fun n => (n >=? 8) && (n <? 16)) cur l in
  let (cur, l) := place (fun n => (n >=? 4) && (n <? 8)) cur l in
  let (cur, l) := place (fun n => n <? 4) cur l in
  let base := 8 * cntstd (uses p) + (if fpo then 8 else 16) + localsize + adj + resstack - frameofs in
  {| localsize := localsize; frameofs := frameofs; local_ofs := map snd l;
     param_ofs := map (fun k => base + Z.of_nat k * 8) (seq 0 (length (params p))) |}.

(** ms64_regs (119): rcx, rdx, r8, r9 *)
Definition ms64_reg (i : Z) : Z := if i =? 0 then 1 else if i =? 1 then 2 else if i =? 2 then 8 else 9.
(** 2938-2971; [n] is the number of registers left; at a vararg parameter the list
    is not advanced *)
Fixpoint SaveRegParams (n : nat) (i : Z) (l : list param) : list line :=
  match n, l with
  | O, _ | _, [] => []
  | S n, q :: r =>
    if negb (p_vararg q) then
      (if p_used q then
         [match p_type q with
          | MReal4 => LHomeX i 4
          | MReal8 => LHomeX i 8
          | MByte | MSByte => LHome i (ms64_reg i) 1
          | MWord | MSWord => LHome i (ms64_reg i) 2
          | MDword | MSDword => LHome i (ms64_reg i) 4
          | MOther => LHome i (ms64_reg i) 8
          end] else [])
      ++ SaveRegParams n (i + 1) r
    else LHome i (ms64_reg i) 8 :: SaveRegParams n (i + 1) l
  end.

(** win64_nvgpr, 130 *)
Definition win64_nvgpr := 0xF0E8.
(** 3018-3038 *)
Definition push_lines (l : list ureg) : list line :=
  flat_map (fun u => match u with
    | UG r => LPush r :: (if negb (Z.land (Z.shiftl 1 r) win64_nvgpr =? 0) then [LDir (DPushReg r)] else [])
    | _ => [] end) l.
(** 3142-3183: [i] is the offset of the next register.  Without reserved stack the
    format for zmm registers has more arguments than are passed: undefined. *)
Fixpoint save_lines (resstack i : Z) (l : list ureg) : res (list line) :=
  match l with
  | [] => Ok []
  | u :: l =>
    match u with
    | UG _ => save_lines resstack i l
    | UX r => bindr (save_lines resstack (i + 16) l) (fun k => Ok (LStore true r 2 (i + resstack) :: LDir (DSaveVec r (i + resstack)) :: k))
    | UY r => bindr (save_lines resstack (i + 32) l) (fun k => Ok (LStore false r 4 (i + resstack) :: LDir (DSaveVec r (i + resstack)) :: k))
    | UZ r =>
        if resstack =? 0 then UB
        else bindr (save_lines resstack (i + 64) l) (fun k => Ok (LStore false r 8 (i + resstack) :: LDir (DSaveVec r (i + resstack)) :: k))
    end
  end.
(** 3140, 3683: the first location *)
Definition first_loc (localsize cnt : Z) : Z := Z.land (localsize - cnt * 16) (Z.lnot (16 - 1)).
(** 2976-3212.  Without FRAME:AUTO the variable cntxmm is read without a value. *)
Definition prologue_RBP (o : options) (pass1 : bool) (p : proc) (lay : layout) (sym : Z) : res (list line) :=
  let resstack := if o_autosp o then sym else 0 in
  let fpo := check_proc_fpo o pass1 p in
  let home := if o_save o then SaveRegParams 4 0 (params p) else [] in
  if negb (o_auto o) then UB
  else
    let pushed := cntstd (uses p) in
    let cnt := cntxmm (uses p) in
    let adj := if o_align16 o || o_autosp o || o_auto o then stackadj fpo pushed (localsize lay) else 0 in
    let alloc :=
      if negb fpo || stackparam p || has_vararg p || o_align16 o || o_autosp o then
        if localsize lay + adj + resstack >? 0
        then [LSub (o_lea o) (localsize lay + adj + resstack); LDir (DAllocStack (localsize lay + adj + resstack))] else []
      else if (adj + localsize lay >? 0) && o_auto o
        then [LSub (o_lea o) (adj + localsize lay); LDir (DAllocStack (adj + localsize lay))] else [] in
    bindr (if cnt =? 0 then Ok [] else save_lines resstack (first_loc (localsize lay) cnt) (uses p)) (fun saves =>
    Ok (home ++ (if fpo then [] else [LHot; LPush 5; LDir (DPushReg 5)]) ++ push_lines (uses p) ++ alloc ++ saves ++
        (if fpo then [] else [if negb (frameofs lay =? 0) then LLea 5 (frameofs lay) else LMov 5; LDir (DSetFrame 5 (frameofs lay))]) ++
        [LDir DEndProlog])).

(** 5084-5111 *)
Fixpoint pops_counted (cnt : nat) (l : list ureg) : res (list line) :=
  match cnt with
  | O => Ok []
  | S c =>
    match l with
    | [] => UB
    | UG r :: l => bindr (pops_counted c l) (fun k => Ok (LPop r :: k))
    | _ :: l => pops_counted cnt l
    end
  end.
Definition pops_all (l : list ureg) : list line := flat_map (fun u => match u with UG r => [LPop r] | _ => [] end) l.
Definition pop_register (o : options) (pushed : Z) (l : list ureg) : res (list line) :=
  if o_smart o then pops_counted (Z.to_nat pushed) (rev l) else Ok (pops_all (rev l)).
(** 3687-3714 *)
Fixpoint load_lines (b add i : Z) (l : list ureg) : list line :=
  match l with
  | [] => []
  | UG _ :: l => load_lines b add i l
  | UX r :: l => LLoad true b r 2 (i + add) :: load_lines b add (i + 16) l
  | UY r :: l => LLoad false b r 4 (i + add) :: load_lines b add (i + 32) l
  | UZ r :: l => LLoad false b r 8 (i + add) :: load_lines b add (i + 64) l
  end.
(** 3629-3773 *)
Definition epilogue_RBP (o : options) (pass1 : bool) (p : proc) (lay : layout) (sym : Z) : res (list line) :=
  let resstack := if o_autosp o then sym else 0 in
  let fpo := check_proc_fpo o pass1 p in
  let pushed := cntstd (uses p) in
  let adj := stackadj fpo pushed (localsize lay) in
  if negb (o_auto o) then Ok []
  else
    let cnt := cntxmm (uses p) in
    let loads :=
      if cnt =? 0 then []
      else load_lines (if fpo then 4 else 5) ((if o_autosp o then sym else 0) - frameofs lay) (first_loc (localsize lay) cnt) (uses p) in
    let free :=
      if negb fpo || stackparam p || has_vararg p || o_align16 o || o_autosp o then
        if negb fpo then
          if localsize lay + adj + resstack >? 0 then [LLeaSp 5 (adj + localsize lay - frameofs lay + resstack)] else [LMovSp 5]
        else if localsize lay + adj + resstack >? 0 then [LAdd (o_lea o) (adj + localsize lay + sym)] else []
      else if (adj + localsize lay >? 0) && o_auto o then
        if negb fpo then [LLeaSp 5 (adj + localsize lay - frameofs lay)] else [LAdd (o_lea o) (adj + localsize lay)]
      else [] in
    bindr (pop_register o pushed (uses p)) (fun pops =>
    Ok (loads ++ free ++ pops ++ (if fpo then [] else [LPop 5]))).

(** write_prologue in one pass: layout, prologue and (for each RET) epilogue *)
Definition frame_pass (o : options) (pass1 : bool) (p : proc) (pushed sym : Z) : res (layout * list line * list line) :=
  let lay := SetLocalOffsets_RBP o pass1 p pushed sym in
  bindr (prologue_RBP o pass1 p lay sym) (fun a =>
  bindr (epilogue_RBP o pass1 p lay sym) (fun b => Ok (lay, a, b))).
(** pass 1 with nothing pushed and nothing reserved, then [n] further passes;
    the result of the last one *)
Fixpoint later (o : options) (n : nat) (p : proc) (pushed sym : Z) : res (layout * list line * list line) :=
  match n with
  | O => frame_pass o false p pushed sym
  | S n => bindr (frame_pass o false p pushed sym) (fun _ => later o n p (cntstd (uses p)) sym)
  end.
Definition assembled (o : options) (n : nat) (p : proc) (invokes : list Z) : res (layout * list line * list line) :=
  bindr (frame_pass o true p 0 0) (fun _ => later o n p (cntstd (uses p)) (reserved o invokes)).
