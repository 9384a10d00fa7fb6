(** Model of omffixup.c: the subrecords of FIXUPP records and the start address
    of the MODEND record.
    The checks by myassert are not compiled in release versions. *)
From Verif Require Import Base.

(** H/fixup.h:36-55 *)
Definition FIX_RELOFF8 := 1.  Definition FIX_RELOFF16 := 2. Definition FIX_RELOFF32 := 3.
Definition FIX_OFF8 := 4.     Definition FIX_OFF16 := 5.    Definition FIX_OFF32 := 6.
Definition FIX_SEG := 8.      Definition FIX_PTR16 := 9.    Definition FIX_PTR32 := 10.
Definition FIX_HIBYTE := 11.
(** H/omfspec.h:98-124 *)
Definition FRAME_SEG := 0.    Definition FRAME_GRP := 1.    Definition FRAME_EXT := 2.
Definition FRAME_TARG := 5.   Definition FRAME_NONE := 6.
Definition TARGET_SEG := 4.   Definition TARGET_GRP := 5.   Definition TARGET_EXT := 6.
Definition TARGET_WITH_DISPL := -5. (* ~4 *)
(** H/omfspec.h:233-247 *)
Definition LOC_OFFSET_LO := 0. Definition LOC_OFFSET := 1.      Definition LOC_BASE := 2.
Definition LOC_BASE_OFFSET := 3. Definition LOC_OFFSET_HI := 4. Definition LOC_MS_LINK_OFFSET := 5.
Definition LOC_MS_OFFSET_32 := 9. Definition LOC_MS_BASE_OFFSET_32 := 11. Definition LOC_MS_LINK_OFFSET_32 := 13.

(** what the functions read of a symbol. [segm] is the segment's comdat_selection
    (!= 0) and seg_idx (GetSegIdx); [grp] of an external is omf_GetGrpIdx() *)
Inductive symref :=
| NoSym
| Undefined
| Group (grp_idx : Z)
| Segment (seg_idx : Z)
| External (ext_idx1 grp : Z)
| Internal (variable : bool) (segm : option (bool * Z)).
(** H/fixup.h:103-150 struct fixup *)
Record fixup := { f_type : Z; f_loader_resolved : bool; f_frame_type : Z; f_frame_datum : Z (* uint_16 *); f_sym : symref; f_sym_offset : Z (* sym->offset, uint_32 *); f_locofs : Z (* uint_32 *) }.
(** omffixup.c:44-51 struct logref *)
Record logref := { frame : Z; frame_datum : Z; is_secondary : bool; target : Z; target_datum : Z; target_offset : Z (* int_32 *) }.

(** omffixup.c:54-61 *)
Definition putIndex (index : Z) : list Z :=
  if index >? 0x7f then [wrap 8 (Z.lor 0x80 (Z.shiftr index 8)); wrap 8 index] else [wrap 8 index].
(** omffixup.c:77-91 *)
Definition putFrameDatum (method datum : Z) : list Z :=
  if (method =? FRAME_SEG) || (method =? FRAME_GRP) || (method =? FRAME_EXT) then putIndex datum else [].
(** omffixup.c:93-103 *)
Definition putTargetDatum (method datum : Z) : list Z := putIndex datum.
(** omffixup.c:118-159 TranslateLogref; [ms386]: type == FIX_GEN_MS386 *)
Definition TranslateLogref (lr : logref) (ms386 : bool) : list Z :=
  let t := if (target_offset lr =? 0) && is_secondary lr then Z.lor (target lr) 4 else target lr in
  wrap 8 (Z.lor (Z.shiftl (frame lr) 4) t) ::
  putFrameDatum (frame lr) (frame_datum lr) ++
  putTargetDatum t (target_datum lr) ++
  (if Z.land t 4 =? 0 then if ms386 then le_bytes 4 (target_offset lr) else le_bytes 2 (target_offset lr) else []).

(** omffixup.c:192-232 OmfFixGenFixModend; [sym]: External or Internal; offset and displ are uint_32 *)
Definition OmfFixGenFixModend (fx : fixup) (offset displ : Z) (ms386 : bool) : res (list Z) :=
  let frm := if negb (f_frame_type fx =? FRAME_NONE) && negb (f_frame_type fx =? FRAME_SEG) then f_frame_type fx else FRAME_TARG in
  let lr t td fd := {| frame := frm; frame_datum := fd; is_secondary := false; target := t; target_datum := td; target_offset := swrap 32 (offset + displ) |} in
  match f_sym fx with
  | External i g =>
      Ok (TranslateLogref (lr (Z.land TARGET_EXT TARGET_WITH_DISPL) i
            (if (f_frame_type fx =? FRAME_GRP) && (f_frame_datum fx =? 0) then g else f_frame_datum fx)) ms386)
  | Internal _ (Some (_, i)) => Ok (TranslateLogref (lr (Z.land TARGET_SEG TARGET_WITH_DISPL) i (f_frame_datum fx)) ms386)
  | Internal _ None => Ok (TranslateLogref (lr (Z.land TARGET_SEG TARGET_WITH_DISPL) 0 (f_frame_datum fx)) ms386)
  | _ => UB (* asserted not to happen *)
  end.

(** omffixup.c:236-347 omf_fill_logref; None: 0 is returned. frame_datum is
    not set where it is 0 here and not read then *)
Definition omf_fill_logref (fx : fixup) : option logref :=
  let lr f fd t td := Some {| frame := if f =? t - TARGET_SEG then FRAME_TARG else f; frame_datum := fd;
                              is_secondary := true; target := t; target_datum := td; target_offset := 0 |} in
  let label fd t td := lr (if negb (f_frame_type fx =? FRAME_NONE) then f_frame_type fx else FRAME_TARG) fd t td in
  match f_sym fx with
  | NoSym => if f_frame_type fx =? FRAME_NONE then None else lr FRAME_TARG 0 (f_frame_type fx) (f_frame_datum fx)
  | Undefined => None
  | Group i => if negb (f_frame_type fx =? FRAME_NONE) then lr (f_frame_type fx) (f_frame_datum fx) TARGET_GRP i else lr FRAME_GRP i TARGET_GRP i
  | Segment i => if negb (f_frame_type fx =? FRAME_NONE) then lr (f_frame_type fx) (f_frame_datum fx) TARGET_SEG i else lr FRAME_SEG i TARGET_SEG i
  | External i g =>
      label (if (f_frame_type fx =? FRAME_GRP) && (f_frame_datum fx =? 0) then g else f_frame_datum fx) TARGET_EXT i
  | Internal true _ => label (f_frame_datum fx) (if f_frame_type fx =? FRAME_GRP then TARGET_GRP else TARGET_SEG) (f_frame_datum fx)
  | Internal false None => None
  | Internal false (Some (true, i)) => (* return( 1 ) before the optimization *)
      Some {| frame := FRAME_TARG; frame_datum := f_frame_datum fx; is_secondary := true; target := TARGET_EXT; target_datum := i; target_offset := 0 |}
  | Internal false (Some (false, i)) => label (f_frame_datum fx) TARGET_SEG i
  end.
(** omffixup.c:383-417: locat1 and self_relative *)
Definition locat (fx : fixup) : option (Z * bool) :=
  let t := f_type fx in
  if (t =? FIX_RELOFF8) || (t =? FIX_OFF8) then Some (LOC_OFFSET_LO, t =? FIX_RELOFF8)
  else if (t =? FIX_RELOFF16) || (t =? FIX_OFF16) then Some (if f_loader_resolved fx then LOC_MS_LINK_OFFSET else LOC_OFFSET, t =? FIX_RELOFF16)
  else if (t =? FIX_RELOFF32) || (t =? FIX_OFF32) then Some (if f_loader_resolved fx then LOC_MS_LINK_OFFSET_32 else LOC_MS_OFFSET_32, t =? FIX_RELOFF32)
  else if t =? FIX_HIBYTE then Some (LOC_OFFSET_HI, false)
  else if t =? FIX_SEG then Some (LOC_BASE, false)
  else if t =? FIX_PTR16 then Some (LOC_BASE_OFFSET, false)
  else if t =? FIX_PTR32 then Some (LOC_MS_BASE_OFFSET_32, false)
  else None.
(** omffixup.c:368-435 OmfFixGenFix; [] = 0 returned *)
Definition OmfFixGenFix (fx : fixup) (start_loc : Z) (ms386 : bool) : list Z :=
  match locat fx with
  | None => []
  | Some (loc, self_relative) =>
      let locat1 := Z.lor (wrap 8 (Z.shiftl loc 2)) (if self_relative then 0x80 else 0xc0) in
      match omf_fill_logref fx with
      | None => []
      | Some lr =>
          let data_rec_offset := wrap 32 (f_locofs fx - start_loc) in
          wrap 8 (Z.lor locat1 (Z.shiftr data_rec_offset 8)) :: wrap 8 data_rec_offset :: TranslateLogref lr ms386
      end
  end.
