(** Model of the Win64 exception directives: proc.c ExcFrameDirective (lines
    2333-2597), WriteSEHData (2228-2322), reset in ProcDir (2044-2051).

    Simplifications: operands are constants (forward references are left out);
    the kind of register is right (an operand of the wrong kind is an error
    before anything is stored).  The lines written with AddLineQueue are modelled
    by the bytes they stand for; IMAGEREL references are resolved with given
    addresses. *)
From Coq Require Import List ZArith Bool.
From Verif Require Import Base.
Import ListNotations.
Open Scope Z_scope.

(** .ALLOCSTACK, .ENDPROLOG, .PUSHFRAME [CODE], .PUSHREG, .SAVEREG,
    .SAVEXMM128/.SAVEYMM256/.SAVEZMM512, .SETFRAME; a value is the 64-bit value
    of the expression *)
Inductive directive :=
| DAllocStack (v : Z)
| DEndProlog
| DPushFrame (code : bool)
| DPushReg (r : Z)
| DSaveReg (r v : Z)
| DSaveVec (r v : Z)
| DSetFrame (r v : Z).

(** H/win64seh.h 15-27 *)
Definition UWOP_PUSH_NONVOL := 0.
Definition UWOP_ALLOC_LARGE := 1.
Definition UWOP_ALLOC_SMALL := 2.
Definition UWOP_SET_FPREG := 3.
Definition UWOP_SAVE_NONVOL := 4.
Definition UWOP_SAVE_NONVOL_FAR := 5.
Definition UWOP_SAVE_XMM128 := 8.
Definition UWOP_SAVE_XMM128_FAR := 9.
Definition UWOP_PUSH_MACHFRAME := 10.

(** unw_info, unw_code and endprolog_found (proc.c 78-81); CountOfCodes is the
    length of [codes] *)
Record unw := { codes : list Z; size_of_prolog : Z; frame_reg : Z; frame_ofs : Z; endprolog : bool }.
(** proc.c 2046-2048 *)
Definition unw0 : unw := {| codes := []; size_of_prolog := 0; frame_reg := 0; frame_ofs := 0; endprolog := false |}.

(** union _UNWIND_CODE, H/win64seh.h 29-36: bit fields of 8, 4 and 4 bits *)
Definition code_word (ofs op info : Z) : Z := wrap 8 ofs + 256 * (wrap 4 op + 16 * wrap 4 info).
(** 16-bit assignment to FrameOffset *)
Definition frame_word (v : Z) : Z := wrap 16 v.

(** proc.c 2592-2595: CountOfCodes is 8 bits wide *)
Definition add_codes (s : unw) (l : list Z) : res unw :=
  let n := wrap 8 (zlen (codes s) + zlen l) in
  if n <? zlen (codes s) then Err
  else Ok {| codes := codes s ++ l; size_of_prolog := size_of_prolog s; frame_reg := frame_reg s; frame_ofs := frame_ofs s; endprolog := endprolog s |}.

(** proc.c 2500-2572: [op] and [far] are the operations, [size] the alignment *)
Definition save (s : unw) (ofs size op far r v : Z) : res unw :=
  let value := swrap 32 v in      (* int_32 *)
  if negb (Z.land value (size - 1) =? 0) then Err
  else
    let sh := Z.log2 size in
    if wrap 32 value >? 65536 * size
    then add_codes s [frame_word (Z.shiftr value (16 + sh)); frame_word (Z.shiftr value sh); code_word ofs far r]
    else add_codes s [frame_word (Z.shiftr value sh); code_word ofs op r].

(** proc.c 2333-2597; [cur] is GetCurrOffset() - CurrProc->sym.offset *)
Definition ExcFrameDirective (s : unw) (cur : Z) (d : directive) : res unw :=
  if endprolog s then Err
  else
    let ofs := wrap 8 cur in
    match d with
    | DAllocStack v =>
        let hvalue := wrap 32 (Z.shiftr v 32) in
        let u := wrap 32 v in
        if negb (hvalue =? 0) then Err
        else if u =? 0 then Err
        else if negb (Z.land u 7 =? 0) then Err
        else if u >? 16 * 8 then
          if u >=? 65536 * 8 then add_codes s [frame_word (Z.shiftr u 16); frame_word (Z.land u 0xFFFF); code_word ofs UWOP_ALLOC_LARGE 1]
          else add_codes s [frame_word (Z.shiftr u 3); code_word ofs UWOP_ALLOC_LARGE 0]
        else add_codes s [code_word ofs UWOP_ALLOC_SMALL (Z.shiftr (u - 8) 3)]
    | DEndProlog =>
        if wrap 32 cur >? 255 then Err
        else Ok {| codes := codes s; size_of_prolog := wrap 8 cur; frame_reg := frame_reg s; frame_ofs := frame_ofs s; endprolog := true |}
    | DPushFrame code => add_codes s [code_word ofs UWOP_PUSH_MACHFRAME (if code then 1 else 0)]
    | DPushReg r => add_codes s [code_word ofs UWOP_PUSH_NONVOL r]
    | DSaveReg r v => save s ofs 8 UWOP_SAVE_NONVOL UWOP_SAVE_NONVOL_FAR r v
    | DSaveVec r v => save s ofs 16 UWOP_SAVE_XMM128 UWOP_SAVE_XMM128_FAR r v
    | DSetFrame r v =>
        let value := swrap 32 v in
        if negb (Z.land value 15 =? 0) then Err
        else if wrap 32 v >? 240 then Err
        else
          add_codes {| codes := codes s; size_of_prolog := size_of_prolog s; frame_reg := wrap 4 r; frame_ofs := wrap 4 (Z.shiftr (wrap 32 v) 4); endprolog := endprolog s |}
            [code_word ofs UWOP_SET_FPREG r]
    end.

(** the directives of a procedure, each with the offset where it stands *)
Fixpoint directives (s : unw) (l : list (Z * directive)) : res unw :=
  match l with
  | [] => Ok s
  | (cur, d) :: r => bindr (ExcFrameDirective s cur d) (fun s => directives s r)
  end.

(** proc.c 2262-2292: the item in .xdata, at position [pos] of the segment:
    "db", the codes as "dw" from the last to the first, "align 4", and the
    handler's address with a zero behind it *)
Definition UNW_VERSION := 1.
Definition UNW_FLAG_FHANDLER := 3.
Definition xdata_item (s : unw) (handler : option Z) (pos : Z) : list Z :=
  let flags := match handler with Some _ => UNW_FLAG_FHANDLER | None => 0 end in
  let head := [UNW_VERSION + Z.shiftl flags 3; size_of_prolog s; zlen (codes s); frame_reg s + Z.shiftl (frame_ofs s) 4] in
  let body := head ++ concat (map (le_bytes 2) (rev (codes s))) in
  body ++ repeat 0 (Z.to_nat ((- (pos + zlen body)) mod 4))
       ++ match handler with Some a => le_bytes 4 a ++ le_bytes 4 0 | None => [] end.

(** procedures with FRAME: address (relative to the image), size, handler and
    what the directives left behind *)
Record frame_proc := { p_begin : Z; p_size : Z; p_handler : option Z; p_unw : unw }.
(** proc.c 2244-2318: one procedure; [label] is the offset of $xdatasym once it is
    defined, [base] the address of .xdata.  Result: the contents of .xdata, the
    label and the item of .pdata. *)
Definition WriteSEHData (base : Z) (xdata : list Z) (label : option Z) (p : frame_proc) : res (list Z * option Z * list Z) :=
  if negb (endprolog (p_unw p)) then Err
  else
    let label := match label with None => zlen xdata | Some l => l end in
    let xdataofs := zlen xdata in
    let item := xdata_item (p_unw p) (p_handler p) (zlen xdata) in
    Ok (xdata ++ item, Some label,
        le_bytes 4 (p_begin p) ++ le_bytes 4 (p_begin p + p_size p) ++ le_bytes 4 (base + label + xdataofs)).
Fixpoint write_procs (base : Z) (xdata : list Z) (label : option Z) (l : list frame_proc) : res (list Z * list (list Z)) :=
  match l with
  | [] => Ok (xdata, [])
  | p :: r =>
    bindr (WriteSEHData base xdata label p) (fun '(xdata, label, e) =>
    bindr (write_procs base xdata label r) (fun '(xdata, t) => Ok (xdata, e :: t)))
  end.
