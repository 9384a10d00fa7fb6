(** Model of the OMF data records: OutputByte, OutputBytes, OutputInterleavedBytes,
    OutputBinBytes, SetCurrOffset (assemble.c) for the OMF format while the object
    module is written (write_to_file, pass > 1), store_fixup (fixup.c),
    omf_write_fixupp, omf_write_ledata, omf_FlushCurrSeg (omf.c).
    Left out: COMDAT segments, line numbers, bytes_written, the COMENT records
    for data in code segments, OutputSegmentBytes (never called).
    A switch of segments (SegmentDir, CloseSeg) flushes the current one. *)
From Verif Require Import Base OmfRec_Model OmfFix_Model.

(** seginfo; all segments share codebuf (segment.c:96, 1212) *)
Record seg := { sg_idx : Z; start_loc : Z; current_loc : Z; max_offset : Z; fixups : list fixup }.
Record state := { segs : list seg; cur : nat; codebuf : list Z; recs : list omf_rec }.
Definition no_seg : seg := {| sg_idx := 0; start_loc := 0; current_loc := 0; max_offset := 0; fixups := [] |}.
Definition CurrSeg (s : state) : seg := nth (cur s) (segs s) no_seg.
Fixpoint set_nth {A} (n : nat) (x : A) (l : list A) : list A :=
  match l, n with [], _ => [] | _ :: r, O => x :: r | y :: r, S n => y :: set_nth n x r end.
Definition set_seg (s : state) (g : seg) : state := {| segs := set_nth (cur s) g (segs s); cur := cur s; codebuf := codebuf s; recs := recs s |}.

Definition CODEBUF_SIZE := 1024. (* segment.c:96 *)
Definition MAX_LEDATA_THRESHOLD := 1024 - 10. (* H/omf.h:9 *)
Definition CMD_LEDATA := 0xa0.
Definition CMD_FIXUPP := 0x9c.
Definition FIX_GEN_MAX := 11. (* H/omfint.h:171 *)

(** omf.c:392-400 *)
Definition wide_fixup (fx : fixup) : bool := (f_type fx =? FIX_RELOFF32) || (f_type fx =? FIX_OFF32) || (f_type fx =? FIX_PTR32).
Definition fixupp (is32 : bool) (data : list Z) : omf_rec := {| r_cmd := CMD_FIXUPP; r_is32 := if is32 then 1 else 0; r_data := data; r_d := D_none |}.
(** omf.c:388-412: the loops; [data] is the buffer. A fixup that finds the buffer
    full is the first one of the next record. *)
Fixpoint fixup_loop (is32 : bool) (start : Z) (fl : list fixup) (data : list Z) : list omf_rec :=
  match fl with
  | [] => if zlen data =? 0 then [] else [fixupp is32 data]
  | fx :: fl =>
      if negb (Bool.eqb (wide_fixup fx) is32) then fixup_loop is32 start fl data
      else if zlen data >? 1020 - FIX_GEN_MAX then fixupp is32 data :: fixup_loop is32 start fl (OmfFixGenFix fx start is32)
      else fixup_loop is32 start fl (data ++ OmfFixGenFix fx start is32)
  end.
(** omf.c:379-413 *)
Definition omf_write_fixupp (g : seg) (is32 : bool) : list omf_rec := fixup_loop is32 (start_loc g) (fixups g) [].
(** omf.c:420-495 omf_write_ledata *)
Definition omf_write_ledata (s : state) : res state :=
  let g := CurrSeg s in
  let size := swrap 32 (current_loc g - start_loc g) in
  let g' fx := {| sg_idx := sg_idx g; start_loc := current_loc g; current_loc := current_loc g; max_offset := max_offset g; fixups := fx |} in
  if size >? 0 then
    if size >? CODEBUF_SIZE then UB (* reads behind the buffer *)
    else
      let obj := {| r_cmd := CMD_LEDATA; r_is32 := if start_loc g >? 0xffff then 1 else 0; r_data := firstn (Z.to_nat size) (codebuf s);
                    r_d := D_ledata (sg_idx g) (start_loc g) |} in
      let s' := set_seg s (g' []) in
      Ok {| segs := segs s'; cur := cur s'; codebuf := codebuf s'; recs := recs s ++ obj :: omf_write_fixupp g false ++ omf_write_fixupp g true |}
  else Ok (set_seg s (g' (fixups g))).
(** omf.c:501-517 *)
Definition omf_FlushCurrSeg := omf_write_ledata.

(** CodeBuffer[idx ... ] = bs *)
Definition poke (idx : Z) (bs : list Z) (s : state) : res state :=
  if idx + zlen bs <=? CODEBUF_SIZE then
    Ok {| segs := segs s; cur := cur s; codebuf := firstn (Z.to_nat idx) (codebuf s) ++ bs ++ skipn (Z.to_nat (idx + zlen bs)) (codebuf s); recs := recs s |}
  else UB.
Definition index (s : state) : Z := wrap 32 (current_loc (CurrSeg s) - start_loc (CurrSeg s)).
(** current_loc += len and max_offset *)
Definition advance (len : Z) (s : state) : state :=
  let g := CurrSeg s in
  let loc := wrap 32 (current_loc g + len) in
  set_seg s {| sg_idx := sg_idx g; start_loc := start_loc g; current_loc := loc; max_offset := if loc >? max_offset g then loc else max_offset g; fixups := fixups g |}.
(** assemble.c:240-272 *)
Definition OutputByte (b : Z) (s : state) : res state :=
  bindr (if index s >=? MAX_LEDATA_THRESHOLD then omf_FlushCurrSeg s else Ok s) (fun s =>
  bindr (poke (index s) [b] s) (fun s => Ok (advance 1 s))).
(** fixup.c:194-300 store_fixup, OMF: *pdata is an int_32 *)
Definition store_fixup (fx : fixup) (bs : list Z) (s : state) : list Z * state :=
  let add := match f_sym fx with NoSym => false | _ => negb (f_type fx =? FIX_SEG) end in
  let bs' := if add then firstn (length bs) (le_bytes 4 (le_val (firstn 4 bs) + f_sym_offset fx)) ++ skipn 4 bs else bs in
  let g := CurrSeg s in
  (bs', set_seg s {| sg_idx := sg_idx g; start_loc := start_loc g; current_loc := current_loc g; max_offset := max_offset g; fixups := fixups g ++ [fx] |}).
(** assemble.c:372-405; the callers have set locofs to the current offset (codegen.c:2820,
    codegenv2.c:1916 and 1955, CreateFixup in fixup.c) *)
Definition set_locofs (fx : fixup) (loc : Z) : fixup :=
  {| f_type := f_type fx; f_loader_resolved := f_loader_resolved fx; f_frame_type := f_frame_type fx; f_frame_datum := f_frame_datum fx; f_sym := f_sym fx;
     f_sym_offset := f_sym_offset fx; f_locofs := loc |}.
Definition OutputBytes (bs : list Z) (fx : option fixup) (s : state) : res state :=
  bindr (if wrap 32 (index s + zlen bs) >? MAX_LEDATA_THRESHOLD then omf_FlushCurrSeg s else Ok s) (fun s =>
  let '(bs, s) := match fx with Some fx => store_fixup (set_locofs fx (current_loc (CurrSeg s))) bs s | None => (bs, s) end in
  bindr (poke (index s) bs s) (fun s => Ok (advance (zlen bs) s))).
(** assemble.c:408-449; a string with interleaved zeros *)
Definition OutputInterleavedBytes (bs : list Z) (s : state) : res state :=
  bindr (if wrap 32 (index s + zlen bs) >? MAX_LEDATA_THRESHOLD then omf_FlushCurrSeg s else Ok s) (fun s =>
  bindr (poke (index s) (flat_map (fun c => [c; 0]) bs) s) (fun s => Ok (advance (2 * zlen bs) s))).
(** assemble.c:275-312; INCBIN *)
Definition OutputBinBytes (bs : list Z) (s : state) : res state :=
  bindr (if index s >=? MAX_LEDATA_THRESHOLD then omf_FlushCurrSeg s else Ok s) (fun s =>
  bindr (poke (index s) bs s) (fun s => Ok (advance (zlen bs) s))).
(** assemble.c:452-498, seg == CurrSeg *)
Definition SetCurrOffset (value : Z) (relative : bool) (s : state) : res state :=
  let value := if relative then wrap 32 (value + current_loc (CurrSeg s)) else value in
  bindr (omf_FlushCurrSeg s) (fun s =>
  let g := CurrSeg s in
  Ok (set_seg s {| sg_idx := sg_idx g; start_loc := value; current_loc := value; max_offset := if value >? max_offset g then value else max_offset g; fixups := fixups g |})).
(** segment.c:447-463 CloseSeg, 701 SegmentDir *)
Definition switch (n : nat) (s : state) : res state :=
  bindr (omf_FlushCurrSeg s) (fun s => Ok {| segs := segs s; cur := n; codebuf := codebuf s; recs := recs s |}).

Inductive op := OByte (b : Z) | OBytes (bs : list Z) (fx : option fixup) | OWide (bs : list Z) | OBin (bs : list Z) | OOrg (v : Z) | OSkip (v : Z) | OSeg (n : nat).
Definition step (o : op) (s : state) : res state :=
  match o with
  | OByte b => OutputByte b s
  | OBytes bs fx => OutputBytes bs fx s
  | OWide bs => OutputInterleavedBytes bs s
  | OBin bs => OutputBinBytes bs s
  | OOrg v => SetCurrOffset v false s
  | OSkip v => SetCurrOffset v true s
  | OSeg n => switch n s
  end.
Fixpoint run (os : list op) (s : state) : res state := match os with [] => Ok s | o :: os => bindr (step o s) (run os) end.
(** segment.c:1205-1232: the start of a pass; [sizes] are the segments' indices and, for stack segments, their max_offset *)
Definition init (sizes : list (Z * Z)) : state :=
  {| segs := map (fun '(i, m) => {| sg_idx := i; start_loc := 0; current_loc := 0; max_offset := m; fixups := [] |}) sizes; cur := 0;
     codebuf := repeat 0 (Z.to_nat CODEBUF_SIZE); recs := [] |}.
(** the whole pass: the last segment is closed *)
Definition module (sizes : list (Z * Z)) (os : list op) : res state := bindr (run os (init sizes)) omf_FlushCurrSeg.
