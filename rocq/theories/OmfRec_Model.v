(** Model of omfint.c: buffered OMF record output. *)
From Verif Require Import Base.

(** omfint.h:49  OBJ_BUFFER_SIZE *)
Definition OBJ_BUFFER_SIZE : Z := 4080.

(** omfint.c:46-51 struct outbuff.  [in_buf] is the length of [ob_data];
    [reclen] is only computed in WEndRec.  The output file is the list of
    bytes returned by WEndRec. *)
Record outbuff := { ob_cmd : Z; ob_data : list Z }.

(** omfint.c:76-81 WBegRec (uint_8 command) *)
Definition WBegRec (command : Z) : outbuff :=
  {| ob_cmd := wrap 8 command; ob_data := [] |}.

(** omfint.c:119-123 PutByte.  A write behind the buffer (the last slot,
    [OBJ_BUFFER_SIZE-1], is needed for the checksum) is undefined behaviour. *)
Definition PutByte (out : outbuff) (value : Z) : res outbuff :=
  if zlen (ob_data out) <? OBJ_BUFFER_SIZE then
    Ok {| ob_cmd := ob_cmd out; ob_data := ob_data out ++ [wrap 8 value] |}
  else UB.

(** omfint.c:127-134 PutIndex (uint_16 index) *)
Definition PutIndex (out : outbuff) (index : Z) : res outbuff :=
  let index := wrap 16 index in
  if index >? 0x7f then
    bindr (PutByte out (Z.lor 0x80 (Z.shiftr index 8)))
          (fun out => PutByte out (Z.land index 0xff))
  else PutByte out (Z.land index 0xff).

(** omfint.c:138-143 PutWord: WriteU16 through a pointer into the buffer *)
Definition PutWord (out : outbuff) (value : Z) : res outbuff :=
  if zlen (ob_data out) + 2 <=? OBJ_BUFFER_SIZE then
    Ok {| ob_cmd := ob_cmd out; ob_data := ob_data out ++ le_bytes 2 value |}
  else UB.

(** omfint.c:147-152 PutDword *)
Definition PutDword (out : outbuff) (value : Z) : res outbuff :=
  if zlen (ob_data out) + 4 <=? OBJ_BUFFER_SIZE then
    Ok {| ob_cmd := ob_cmd out; ob_data := ob_data out ++ le_bytes 4 value |}
  else UB.

(** omfint.c:156-170 PutMem; the comparison is done in unsigned (32-bit)
    arithmetic; the failure branch is Fatal(INTERNAL_ERROR), here [Err]. *)
Definition PutMem (out : outbuff) (buf : list Z) : res outbuff :=
  if zlen buf <=? wrap 32 (OBJ_BUFFER_SIZE - 1 - zlen (ob_data out)) then
    Ok {| ob_cmd := ob_cmd out; ob_data := ob_data out ++ buf |}
  else Err.

Definition sum_bytes (l : list Z) : Z := fold_left (fun a b => wrap 8 (a + b)) l 0.

(** omfint.c:89-115 WEndRec: checksum over cmd, the two length bytes and the
    contents, negated, stored behind the contents ([*p = checksum] is an
    overflow when the buffer is full); cmd, reclen, contents, checksum are
    written to the file. *)
Definition WEndRec (out : outbuff) : res (list Z) :=
  if zlen (ob_data out) <? OBJ_BUFFER_SIZE then
    let reclen := wrap 16 (zlen (ob_data out) + 1) in
    let c0 := wrap 8 (ob_cmd out + Z.land reclen 0xff + Z.shiftr reclen 8) in
    let checksum := fold_left (fun a b => wrap 8 (a + b)) (ob_data out) c0 in
    let checksum := wrap 8 (- checksum) in
    Ok (ob_cmd out :: le_bytes 2 reclen ++ ob_data out ++ [checksum])
  else UB.

(** omfint.h:105-109 *)
Record base_info := { grp_idx : Z; seg_idx : Z; frame : Z }.

(** omfint.h:84-96 (the unused [idx] is omitted; abs = physref) *)
Record segdef_info := {
  sd_use32 : Z; sd_align : Z; sd_combine : Z;
  sd_abs_frame : Z; sd_abs_offset : Z;
  sd_length : Z;
  sd_seg_lname : Z; sd_class_lname : Z; sd_ovl_lname : Z }.

(** omfint.h:123-131 *)
Record comdat_info := {
  cd_flags : Z; cd_attributes : Z; cd_align : Z; cd_offset : Z;
  cd_type_idx : Z; cd_base : base_info; cd_public_lname : Z }.

(** omfint.h:146-166: the union [d] of struct omf_rec *)
Inductive omf_d :=
| D_none
| D_coment (attr cmt_class : Z)
| D_modend (main_module start_addrs : bool)
| D_segdef (i : segdef_info)
| D_ledata (idx offset : Z)
| D_base (b : base_info)
| D_comdat (i : comdat_info)
| D_linsym (flags public_lname : Z).

(** omfint.h:140-167 struct omf_rec; [length]/[data] become one list *)
Record omf_rec := { r_cmd : Z; r_is32 : Z; r_data : list Z; r_d : omf_d }.

(** omfint.c:176-185 writeMisc *)
Definition writeMisc (r : omf_rec) : res (list Z) :=
  bindr (PutMem (WBegRec (r_cmd r)) (r_data r)) WEndRec.

(** omfint.c:189-198 writeMisc32 *)
Definition writeMisc32 (r : omf_rec) : res (list Z) :=
  bindr (PutMem (WBegRec (Z.lor (r_cmd r) (r_is32 r))) (r_data r)) WEndRec.

(** omfspec.h:174 CMD_COMENT, :182 CMD_SEGDEF, :175 CMD_MODEND, :180 CMD_LINNUM, :203 CMD_LINSYM *)
Definition CMD_COMENT := 0x88.
Definition CMD_MODEND := 0x8a.
Definition CMD_LINNUM := 0x94.
Definition CMD_SEGDEF := 0x98.
Definition CMD_LINSYM := 0xc4.

(** omfint.c:200-211 writeComent *)
Definition writeComent (r : omf_rec) : res (list Z) :=
  match r_d r with
  | D_coment attr cls =>
      bindr (PutByte (WBegRec CMD_COMENT) attr) (fun out =>
      bindr (PutByte out cls) (fun out =>
      bindr (PutMem out (r_data r)) WEndRec))
  | _ => UB
  end.

(** omfint.c:213-290 writeSegdef.  [acbp] and [align] are uint_8. *)
Definition writeSegdef (r : omf_rec) : res (list Z) :=
  match r_d r with
  | D_segdef i =>
      let is32 := r_is32 r in
      let out := WBegRec (CMD_SEGDEF + is32) in
      let acbp := wrap 8 (Z.lor (Z.shiftl (sd_combine i) 2) (sd_use32 i)) in
      let align := sd_align i in
      let acbp := wrap 8 (Z.lor acbp (Z.shiftl align 5)) in
      let acbp := if (is32 =? 0) && (sd_length i =? 0x10000) then Z.lor acbp 2 else acbp in
      bindr (PutByte out acbp) (fun out =>
      bindr (if align =? 0 (* SEGDEF_ALIGN_ABS *) then
               bindr (PutWord out (sd_abs_frame i)) (fun out => PutByte out (sd_abs_offset i))
             else Ok out) (fun out =>
      bindr (if negb (is32 =? 0) then PutDword out (sd_length i)
             else PutWord out (sd_length i)) (fun out =>
      bindr (PutIndex out (sd_seg_lname i)) (fun out =>
      bindr (PutIndex out (sd_class_lname i)) (fun out =>
      bindr (PutIndex out (sd_ovl_lname i)) WEndRec)))))
  | _ => UB
  end.

(** omfint.c:309-324 writeLedata *)
Definition writeLedata (r : omf_rec) : res (list Z) :=
  match r_d r with
  | D_ledata idx offset =>
      bindr (PutIndex (WBegRec (r_cmd r + r_is32 r)) idx) (fun out =>
      bindr (if negb (r_is32 r =? 0) then PutDword out offset else PutWord out offset) (fun out =>
      bindr (PutMem out (r_data r)) WEndRec))
  | _ => UB
  end.

(** omfint.c:326-332 writeTheadr *)
Definition writeTheadr (r : omf_rec) : res (list Z) := writeMisc r.

(** omfint.c:334-365 writeModend *)
Definition writeModend (r : omf_rec) : res (list Z) :=
  match r_d r with
  | D_modend main_module start_addrs =>
      let is32 := if negb (r_is32 r =? 0) && start_addrs then 1 else 0 in
      let out := WBegRec (CMD_MODEND + is32) in
      let mtype := if main_module then 0x80 else 0 in
      if start_addrs then
        bindr (PutByte out (Z.lor mtype 0x41)) (fun out =>
        bindr (PutMem out (r_data r)) WEndRec)
      else bindr (PutByte out mtype) WEndRec
  | _ => UB
  end.

(** omfint.c:369-377 PutBase *)
Definition PutBase (out : outbuff) (b : base_info) : res outbuff :=
  bindr (PutIndex out (grp_idx b)) (fun out =>
  bindr (PutIndex out (seg_idx b)) (fun out =>
  if (grp_idx b =? 0) && (seg_idx b =? 0) then PutWord out (frame b) else Ok out)).

(** omfint.c:379-389 writePubdef *)
Definition writePubdef (r : omf_rec) : res (list Z) :=
  match r_d r with
  | D_base b =>
      bindr (PutBase (WBegRec (r_cmd r + r_is32 r)) b) (fun out =>
      bindr (PutMem out (r_data r)) WEndRec)
  | _ => UB
  end.

(** omfint.c:391-402 writeLinnum *)
Definition writeLinnum (r : omf_rec) : res (list Z) :=
  match r_d r with
  | D_base b =>
      bindr (PutBase (WBegRec (CMD_LINNUM + r_is32 r)) b) (fun out =>
      bindr (PutMem out (r_data r)) WEndRec)
  | _ => UB
  end.

(** omfspec.h: COMDAT_ALLOC_MASK = 0x0f, COMDAT_EXPLICIT = 0 (see
    omfspec.h "COMDAT allocation types") *)
Definition COMDAT_ALLOC_MASK := 0x0f.
Definition COMDAT_EXPLICIT := 0.

(** omfint.c:410-434 writeComdat *)
Definition writeComdat (r : omf_rec) : res (list Z) :=
  match r_d r with
  | D_comdat i =>
      bindr (PutByte (WBegRec (r_cmd r + r_is32 r)) (cd_flags i)) (fun out =>
      bindr (PutByte out (cd_attributes i)) (fun out =>
      bindr (PutByte out (cd_align i)) (fun out =>
      bindr (if negb (r_is32 r =? 0) then PutDword out (cd_offset i)
             else PutWord out (cd_offset i)) (fun out =>
      bindr (PutIndex out (cd_type_idx i)) (fun out =>
      bindr (if Z.land (cd_attributes i) COMDAT_ALLOC_MASK =? COMDAT_EXPLICIT
             then PutBase out (cd_base i) else Ok out) (fun out =>
      bindr (PutIndex out (cd_public_lname i)) (fun out =>
      bindr (PutMem out (r_data r)) WEndRec)))))))
  | _ => UB
  end.

(** omfint.c:438-450 writeLinsym *)
Definition writeLinsym (r : omf_rec) : res (list Z) :=
  match r_d r with
  | D_linsym flags lname =>
      bindr (PutByte (WBegRec (CMD_LINSYM + r_is32 r)) flags) (fun out =>
      bindr (PutIndex out lname) (fun out =>
      bindr (PutMem out (r_data r)) WEndRec))
  | _ => UB
  end.

(** omfint.c:482-497 enum omffiltfuncs *)
Inductive offn := OFF_UNEXP | OFF_MISC | OFF_MISC32 | OFF_SEGDEF | OFF_LEDATA
| OFF_COMENT | OFF_THEADR | OFF_MODEND | OFF_PUBDEF | OFF_LINNUM | OFF_COMDAT | OFF_LINSYM.

(** omfint.c:499-514 func_index[] (COMDATSUPP=1, globals.h:152) *)
Definition func_index : list offn :=
  [ OFF_THEADR; OFF_UNEXP;  OFF_UNEXP;  OFF_UNEXP;
    OFF_COMENT; OFF_MODEND; OFF_MISC;   OFF_UNEXP;
    OFF_PUBDEF; OFF_UNEXP;  OFF_LINNUM; OFF_MISC;
    OFF_SEGDEF; OFF_MISC;   OFF_MISC32; OFF_UNEXP;
    OFF_LEDATA; OFF_LEDATA; OFF_UNEXP;  OFF_UNEXP;
    OFF_UNEXP;  OFF_UNEXP;  OFF_UNEXP;  OFF_UNEXP;
    OFF_MISC;   OFF_MISC32; OFF_MISC;   OFF_PUBDEF;
    OFF_MISC;   OFF_UNEXP;  OFF_MISC;   OFF_UNEXP;
    OFF_UNEXP;  OFF_COMDAT; OFF_LINSYM; OFF_MISC;
    OFF_MISC32; OFF_MISC ].

(** omfint.c:516-528 JUMP_INDEX and omf_write_record.  writeUnexp
    (454-461) is Fatal().  An index outside the table is UB. *)
Definition omf_write_record (r : omf_rec) : res (list Z) :=
  match nth_error func_index (Z.to_nat (Z.shiftr (r_cmd r - 0x80) 1)) with
  | Some OFF_UNEXP => Err
  | Some OFF_MISC => writeMisc r
  | Some OFF_MISC32 => writeMisc32 r
  | Some OFF_SEGDEF => writeSegdef r
  | Some OFF_LEDATA => writeLedata r
  | Some OFF_COMENT => writeComent r
  | Some OFF_THEADR => writeTheadr r
  | Some OFF_MODEND => writeModend r
  | Some OFF_PUBDEF => writePubdef r
  | Some OFF_LINNUM => writeLinnum r
  | Some OFF_COMDAT => writeComdat r
  | Some OFF_LINSYM => writeLinsym r
  | None => UB
  end.

(** the object file produced by a sequence of omf_write_record calls *)
Fixpoint omf_write_records (rs : list omf_rec) : res (list Z) :=
  match rs with
  | [] => Ok []
  | r :: rest => bindr (omf_write_record r) (fun a =>
                 bindr (omf_write_records rest) (fun b => Ok (a ++ b)))
  end.
