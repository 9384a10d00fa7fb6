(** Model of bin.c for the sub formats NONE (flat binary) and MZ: CalcOffset,
    GetSegRelocs, GetImageSize, DoFixup and bin_write_module. PE, the listing and
    OPTION FLAT (ModuleInfo.flat, orgfixup.c) are left out. *)
From Verif Require Import Base Sort_Model.

(** H/globals.h:598-610 *)
Definition SEGTYPE_UNDEF := 0. Definition SEGTYPE_CODE := 1. Definition SEGTYPE_DATA := 2. Definition SEGTYPE_BSS := 3.
Definition SEGTYPE_STACK := 4. Definition SEGTYPE_ABS := 5.
(** H/fixup.h:36-55 *)
Definition FIX_RELOFF8 := 1.  Definition FIX_RELOFF16 := 2. Definition FIX_RELOFF32 := 3.
Definition FIX_OFF8 := 4.     Definition FIX_OFF16 := 5.    Definition FIX_OFF32 := 6.  Definition FIX_OFF64 := 7.
Definition FIX_SEG := 8.      Definition FIX_PTR16 := 9.    Definition FIX_PTR32 := 10.
Definition FIX_HIBYTE := 11.  Definition FIX_OFF32_IMGREL := 12. Definition FIX_OFF32_SECREL := 13.
Definition FRAME_SEG := 0.    Definition FRAME_GRP := 1.

(** segments and groups are numbered; a segment symbol has sym.segment == itself (segment.c:654, 1061) *)
Inductive sym :=
| SNone
| SGrp (g : nat)
| SSeg (k : nat)
| SVar (segment_var : option nat) (* sym->variable *)
| SLab (segment : option nat) (offset : Z).
Record fixup := { f_type : Z; f_locofs : Z; f_offset : Z; f_sym : sym; f_frame : Z; f_addbytes : Z }.
(** dsym/seginfo; [s_buf]: CodeBuffer with its max_offset - start_loc bytes (segment.c:1186-1219) *)
Record seg := {
  s_name : list Z; s_type : Z; s_stack : bool (* combine == COMB_STACK *); s_align : Z; s_grp : option nat; s_use64 : bool; s_info : bool; s_abs_frame : Z;
  s_start_loc : Z; s_max_offset : Z; s_written : Z; s_buf : option (list Z); s_fix : list fixup; s_fileofs : Z; s_start : Z }.
Record group := { g_offset : Z; g_total : Z }.
(** struct calc_param *)
Record calc := { first : bool; fileoffset : Z; sizehdr : Z; entryseg : option nat (* entryoffset != -1 *); imagestart : Z }.
Record image := { segs : list seg; groups : list group; cp : calc }.
Definition no_seg : seg :=
  {| s_name := []; s_type := 0; s_stack := false; s_align := 0; s_grp := None; s_use64 := false; s_info := false; s_abs_frame := 0; s_start_loc := 0; s_max_offset := 0;
     s_written := 0; s_buf := None; s_fix := []; s_fileofs := 0; s_start := 0 |}.
Definition no_group : group := {| g_offset := 0; g_total := 0 |}.
Fixpoint upd {A} (n : nat) (x : A) (l : list A) : list A :=
  match l, n with [], _ => [] | _ :: r, O => x :: r | y :: r, S n => y :: upd n x r end.
Definition segment (im : image) (k : nat) : seg := nth k (segs im) no_seg.
Definition group_of (im : image) (g : nat) : group := nth g (groups im) no_group.
Inductive format := NONE | MZ.
Definition place (s : seg) (loc fo so : Z) : seg :=
  {| s_name := s_name s; s_type := s_type s; s_stack := s_stack s; s_align := s_align s; s_grp := s_grp s; s_use64 := s_use64 s; s_info := s_info s; s_abs_frame := s_abs_frame s;
     s_start_loc := loc; s_max_offset := s_max_offset s; s_written := s_written s; s_buf := s_buf s; s_fix := s_fix s; s_fileofs := fo; s_start := so |}.

(** bin.c:213-306 CalcOffset; cp->alignment is 0 *)
Definition CalcOffset (fmt : format) (flat_grp : option nat) (k : nat) (im : image) : image :=
  let s := segment im k in
  let c := cp im in
  if s_type s =? SEGTYPE_ABS then {| segs := upd k (place s (s_start_loc s) (s_fileofs s) (wrap 32 (Z.shiftl (s_abs_frame s) 4))) (segs im); groups := groups im; cp := c |}
  else if s_info s then im
  else
    let align := Z.shiftl 1 (s_align s) in
    let alignbytes := wrap 32 (Z.land (wrap 32 (fileoffset c + (align - 1))) (wrap 32 (- align)) - fileoffset c) in
    let fo := wrap 32 (fileoffset c + alignbytes) in
    let '(offset, gs) :=
      match s_grp s with
      | None => (wrap 32 (fo - sizehdr c), groups im)
      | Some g =>
          let grp := group_of im g in
          if g_total grp =? 0 then (0, upd g {| g_offset := wrap 32 (fo - sizehdr c); g_total := 0 |} (groups im))
          else (wrap 32 (g_total grp + alignbytes), groups im)
      end in
    let in_flat := match s_grp s, flat_grp with Some g, Some f => Nat.eqb g f | _, _ => false end in
    let dollar := existsb (fun ch => ch =? 36) (s_name s) in
    let loc := if negb (first c) && match s_grp s with Some _ => negb in_flat || dollar | None => false end then 0 else s_start_loc s in
    let size := s_max_offset s - loc in
    let fo' := match fmt with
               | NONE => wrap 32 (fo + size)
               | MZ => if s_type s =? SEGTYPE_BSS then fo else wrap 32 (fo + size)
               end in
    let c' := match fmt with
              | NONE => {| first := false; fileoffset := fo'; sizehdr := sizehdr c; entryseg := match entryseg c with None => Some k | e => e end;
                           imagestart := if first c then loc else imagestart c |}
              | MZ => {| first := false; fileoffset := fo'; sizehdr := sizehdr c; entryseg := entryseg c; imagestart := imagestart c |}
              end in
    let gs' := match s_grp s with
               | None => gs
               | Some g => upd g {| g_offset := g_offset (nth g gs no_group); g_total := wrap 32 (offset + s_max_offset s) |} gs
               end in
    {| segs := upd k (place s loc fo offset) (segs im); groups := gs'; cp := c' |}.

(** bin.c:101-104 *)
Definition dosseg_order : list Z := [SEGTYPE_CODE; SEGTYPE_UNDEF; SEGTYPE_DATA; SEGTYPE_BSS; SEGTYPE_STACK; SEGTYPE_ABS].
Inductive order := SEQ | DOSSEG | ALPHA.
Definition calc_all (fmt : format) (flat_grp : option nat) (ks : list nat) (im : image) : image := fold_left (fun im k => CalcOffset fmt flat_grp k im) ks im.
(** bin.c:1566-1593; [l]: the list of segments, in creation order. The new list and the image *)
Definition layout (fmt : format) (flat_grp : option nat) (o : order) (l : list nat) (im : image) : option (list nat * image) :=
  match o with
  | DOSSEG =>
      let im' := calc_all fmt flat_grp (flat_map (fun t => filter (fun k => s_type (segment im k) =? t) l) dosseg_order) im in
      match SortSegments (fun a b => s_fileofs (segment im' a) >? s_fileofs (segment im' b)) l with Some l' => Some (l', im') | None => None end
  | ALPHA =>
      match SortSegments (fun a b => strcmp_gt (s_name (segment im a)) (s_name (segment im b))) l with Some l' => Some (l', calc_all fmt flat_grp l' im) | None => None end
  | SEQ => Some (l, calc_all fmt flat_grp l im)
  end.

(** bin.c:319-370 GetSegRelocs; the pairs that are stored *)
Definition is_abs (im : image) (k : nat) : bool := s_type (segment im k) =? SEGTYPE_ABS.
Definition sym_segment (y : sym) : option nat := match y with SSeg k => Some k | SLab k _ => k | SVar k => None | _ => None end.
Definition needs_reloc (im : image) (f : fixup) : bool :=
  ((f_type f =? FIX_PTR32) || (f_type f =? FIX_PTR16) || (f_type f =? FIX_SEG)) &&
  negb (match sym_segment (f_sym f) with Some k => is_abs im k | None => false end).
(** [while ( loc >= 0x10000 )] *)
Fixpoint adjust (fuel : nat) (loc valueseg : Z) : Z * Z :=
  match fuel with
  | O => (loc, valueseg)
  | S n => if loc >=? 0x10000 then adjust n (loc - 16) (wrap 16 (valueseg + 1)) else (loc, valueseg)
  end.
Definition reloc_entry (im : image) (s : seg) (f : fixup) : Z * Z :=
  let loc := wrap 32 (f_locofs f + Z.land (s_start s) 0xf) in
  let vs := wrap 16 (Z.shiftr (s_start s) 4) in
  let '(loc, vs) := match s_grp s with
                    | Some g => let o := g_offset (group_of im g) in (wrap 32 (loc + Z.land o 0xf), wrap 16 (vs + Z.shiftr o 4))
                    | None => (loc, vs)
                    end in
  let loc := wrap 32 (if f_type f =? FIX_PTR16 then loc + 2 else if f_type f =? FIX_PTR32 then loc + 4 else loc) in
  let '(loc, vs) := adjust (Z.to_nat (loc / 16)) loc vs in (wrap 16 loc, vs).
Definition GetSegRelocs (l : list nat) (im : image) : list (Z * Z) :=
  flat_map (fun k => let s := segment im k in
                     if s_type s =? SEGTYPE_ABS then [] else map (reloc_entry im s) (filter (needs_reloc im) (s_fix s))) l.

(** bin.c:379-412 GetImageSize; [fst]: first. A segment without data ends the loop if no segment behind it has data *)
Fixpoint image_size (memimage fst : bool) (vsize size : Z) (l : list nat) (im : image) : Z :=
  match l with
  | [] => size
  | k :: r =>
      let s := segment im k in
      if (s_type s =? SEGTYPE_ABS) || s_info s then image_size memimage fst vsize size r im
      else if negb memimage && (s_written s =? 0) && negb (existsb (fun d => negb (s_written (segment im d) =? 0)) r) then size
      else
        let tmp := wrap 32 (s_fileofs s + (s_max_offset s - s_start_loc s)) in
        let vsize := if fst then vsize else wrap 32 (vsize + s_start_loc s) in
        let tmp := if memimage then wrap 32 (tmp + vsize) else tmp in
        image_size memimage false vsize (if size <? tmp then tmp else size) r im
  end.
Definition GetImageSize (memimage : bool) (l : list nat) (im : image) : Z := image_size memimage true 0 0 l im.

(** * DoFixup *)
(** n bytes at position i; outside of the buffer: UB *)
Definition peek (i n : Z) (b : list Z) : res Z :=
  if (0 <=? i) && (i + n <=? zlen b) then Ok (le_val (firstn (Z.to_nat n) (skipn (Z.to_nat i) b))) else UB.
Definition poke (i n v : Z) (b : list Z) : res (list Z) :=
  if (0 <=? i) && (i + n <=? zlen b) then Ok (firstn (Z.to_nat i) b ++ le_bytes (Z.to_nat n) v ++ skipn (Z.to_nat (i + n)) b) else UB.
(** the name up to the '$' *)
Fixpoint stem (name : list Z) : option (list Z) :=
  match name with [] => None | ch :: r => if ch =? 36 then Some [] else match stem r with Some p => Some (ch :: p) | None => None end end.
Fixpoint list_eqb (a b : list Z) : bool := match a, b with [], [] => true | x :: a, y :: b => (x =? y) && list_eqb a b | _, _ => false end.
(** bin.c:455-552: seg and value *)
Definition fix_value (l : list nat) (im : image) (f : fixup) : res (option nat * Z) :=
  let has := match f_sym f with SVar _ => true | SSeg _ => true | SLab (Some _) _ => true | _ => false end in
  if negb has then Ok (None, 0)
  else
    let '(sg, offset) := match f_sym f with SVar k => (k, 0) | SSeg k => (Some k, 0) | SLab k o => (k, o) | _ => (None, 0) end in
    match sg with
    | None => UB (* seg == NULL is dereferenced *)
    | Some k =>
        let s := segment im k in
        let v :=
          if f_type f =? FIX_OFF32_IMGREL then f_offset f + offset + s_start s - imagestart (cp im)
          else if f_type f =? FIX_OFF32_SECREL then
            match stem (s_name s) with
            | None => f_offset f + offset - s_start_loc s
            | Some p => match find (fun d => list_eqb (s_name (segment im d)) p) l with
                        | Some d => f_offset f + offset + s_start s - s_start (segment im d)
                        | None => f_offset f + offset - s_start_loc s
                        end
            end
          else if (f_type f =? FIX_RELOFF8) || (f_type f =? FIX_RELOFF16) || (f_type f =? FIX_RELOFF32) then s_start s + f_offset f + offset
          else match s_grp s with
               | Some g => if negb (f_frame f =? FRAME_SEG) then Z.land (g_offset (group_of im g)) 0xf + s_start s + f_offset f + offset
                           else Z.land (s_start s) 0xf + f_offset f + offset
               | None => Z.land (s_start s) 0xf + f_offset f + offset
               end in
        Ok (Some k, wrap 32 v)
    end.
(** the paragraph of a segment, bin.c:637, 676, 702 *)
Definition seg_para (im : image) (k : nat) : Z :=
  Z.shiftr (wrap 32 (s_start (segment im k) + match s_grp (segment im k) with Some g => g_offset (group_of im g) | None => 0 end)) 4.
Definition grp_para (im : image) (k : nat) : res Z :=
  match s_grp (segment im k) with Some g => Ok (Z.shiftr (g_offset (group_of im g)) 4) | None => UB end.
(** bin.c:554-712 for one fixup; Err: INVALID_FIXUP_TYPE; [pos] = locofs - start_loc *)
Definition fix_apply (fmt : format) (im : image) (s : seg) (f : fixup) (sg : option nat) (value pos : Z) (b : list Z) : res (list Z) :=
  let t := f_type f in
  let rel n locofs := bindr (peek pos n b) (fun old => poke pos n (old + (value - (locofs + s_start s) - n)) b) in
  let abs_seg := match sg with Some k => is_abs im k | None => false end in
  let ptr n sel := bindr (poke pos n value b) (fun b => poke (pos + n) 2 sel b) in
  let ptr32 :=
    if abs_seg then match sg with Some k => ptr 4 (s_abs_frame (segment im k)) | None => UB end
    else match fmt with
         | MZ => match sg with
                 | None => UB
                 | Some k => if f_frame f =? FRAME_GRP then bindr (grp_para im k) (ptr 4) else ptr 4 (seg_para im k)
                 end
         | NONE => Err
         end in
  let ptr16 :=
    if abs_seg then match sg with Some k => ptr 2 (s_abs_frame (segment im k)) | None => UB end
    else match fmt with
         | MZ => match sg with
                 | None => UB
                 | Some k => if f_frame f =? FRAME_GRP then bindr (grp_para im k) (ptr 2) else ptr 2 (seg_para im k)
                 end
         | NONE => ptr32 (* falls through *)
         end in
  if t =? FIX_RELOFF8 then rel 1 (f_locofs f)
  else if t =? FIX_RELOFF16 then rel 2 (f_locofs f)
  else if t =? FIX_RELOFF32 then rel 4 (if s_use64 s then f_locofs f + f_addbytes f - 4 else f_locofs f)
  else if t =? FIX_OFF8 then poke pos 1 value b
  else if t =? FIX_OFF16 then poke pos 2 value b
  else if (t =? FIX_OFF32) || (t =? FIX_OFF32_IMGREL) || (t =? FIX_OFF32_SECREL) then poke pos 4 value b
  else if t =? FIX_OFF64 then poke pos 8 value b
  else if t =? FIX_HIBYTE then poke pos 1 (Z.shiftr value 8) b
  else if t =? FIX_SEG then
    match f_sym f with
    | SSeg k =>
        if is_abs im k then poke pos 2 (s_abs_frame (segment im k)) b
        else match fmt with MZ => poke pos 2 (seg_para im k) b | NONE => ptr16 end
    | y =>
        match fmt with
        | MZ => match y with
                | SNone => UB
                | SGrp g => poke pos 2 (Z.shiftr (g_offset (group_of im g)) 4) b
                | _ => match sg with
                       | None => UB
                       | Some k => if f_frame f =? FRAME_GRP then bindr (grp_para im k) (fun v => poke pos 2 v b) else poke pos 2 (Z.shiftr (s_start (segment im k)) 4) b
                       end
                end
        | NONE => ptr16 (* falls through *)
        end
    end
  else if t =? FIX_PTR16 then ptr16
  else if t =? FIX_PTR32 then ptr32
  else Err.
Fixpoint do_fixups (fmt : format) (l : list nat) (im : image) (s : seg) (fs : list fixup) (b : list Z) : res (list Z) :=
  match fs with
  | [] => Ok b
  | f :: fs =>
      bindr (fix_value l im f) (fun '(sg, value) =>
      bindr (fix_apply fmt im s f sg value (f_locofs f - s_start_loc s) b) (do_fixups fmt l im s fs))
  end.
(** bin.c:428-716: the new contents of a segment's buffer *)
Definition DoFixup (fmt : format) (l : list nat) (im : image) (k : nat) : res (option (list Z)) :=
  let s := segment im k in
  if s_type s =? SEGTYPE_ABS then Ok (s_buf s)
  else match s_buf s with
       | Some b => bindr (do_fixups fmt l im s (s_fix s) b) (fun b => Ok (Some b))
       | None => match s_fix s with [] => Ok None | _ => UB end
       end.
Fixpoint fix_all (fmt : format) (l ks : list nat) (im : image) : res (list (nat * option (list Z))) :=
  match ks with
  | [] => Ok []
  | k :: ks => bindr (DoFixup fmt l im k) (fun b => bindr (fix_all fmt l ks im) (fun r => Ok ((k, b) :: r)))
  end.

(** * the file *)
(** fseek and fwrite; a gap is filled with zeros *)
Definition write_at (pos : Z) (bs file : list Z) : list Z :=
  firstn (Z.to_nat pos) file ++ repeat 0 (Z.to_nat (pos - zlen file)) ++ bs ++ skipn (Z.to_nat (pos + zlen bs)) file.
(** bin.c:1722-1793: the sections, with their buffers *)
Fixpoint write_sections (l : list (nat * option (list Z))) (im : image) (file : list Z) : res (list Z) :=
  match l with
  | [] => Ok file
  | (k, buf) :: r =>
      let s := segment im k in
      if s_type s =? SEGTYPE_ABS then write_sections r im file
      else
        let size := wrap 32 (s_max_offset s - s_start_loc s) in
        let size := if (s_written s =? 0) && negb (existsb (fun '(d, _) => negb (s_written (segment im d) =? 0)) r) then 0 else size in
        match buf with
        | Some b =>
            if size =? 0 then write_sections r im file
            else if size >? zlen b then UB (* reads behind the buffer *)
            else write_sections r im (write_at (s_fileofs s) (firstn (Z.to_nat size) b) file)
        | None => write_sections r im file
        end
  end.

(** struct MZDATA, OPTION MZ *)
Record mzdata := { ofs_fixups : Z; alignment : Z; heapmin : Z; heapmax : Z }.
(** bin.c:1541; reloccnt is a uint_16 *)
Definition mz_sizehdr (d : mzdata) (reloccnt : Z) : Z :=
  wrap 32 (Z.land (reloccnt * 4 + ofs_fixups d + (alignment d - 1)) (Z.lnot (alignment d - 1))).
(** bin.c:1621-1681: the header; [start]: segment and offset of the start label *)
Definition mz_header (d : mzdata) (l : list nat) (im : image) (reloccnt : Z) (start : option (nat * Z)) : res (list Z) :=
  let sizetotal := GetImageSize false l im in
  let sizeheap := wrap 32 (GetImageSize true l im - sizetotal) in
  let minalloc := wrap 16 (sizeheap / 16 + (if sizeheap mod 16 =? 0 then 0 else 1)) in
  let minalloc := if minalloc <? heapmin d then heapmin d else minalloc in
  let maxalloc := if heapmax d <? minalloc then minalloc else heapmax d in
  let base s := match s_grp s with Some g => g_offset (group_of im g) | None => 0 end in
  let '(ss, sp) := match find (fun k => s_stack (segment im k)) l with
                   | Some k => let s := segment im k in
                               let addr := wrap 32 (s_start s + base s) in
                               (Z.shiftr addr 4 + (if Z.land addr 0xf =? 0 then 0 else 1), s_max_offset s)
                   | None => (0, 0)
                   end in
  let '(ip, cs) := match start with
                   | Some (k, o) =>
                       let s := segment im k in
                       match s_grp s with
                       | Some g => let addr := g_offset (group_of im g) in (Z.land addr 0xf + s_start s + o, Z.shiftr addr 4)
                       | None => (Z.land (s_start s) 0xf + o, Z.shiftr (s_start s) 4)
                       end
                   | None => (0, 0)
                   end in
  let fields := [0x5a4d; sizetotal mod 512; sizetotal / 512 + (if sizetotal mod 512 =? 0 then 0 else 1); reloccnt; Z.shiftr (sizehdr (cp im)) 4;
                 minalloc; maxalloc; ss; sp; 0; ip; cs; ofs_fixups d] in
  let head := flat_map (le_bytes 2) fields ++ repeat 0 (Z.to_nat (ofs_fixups d - 26)) in
  let table := flat_map (fun '(o, s) => le_bytes 2 o ++ le_bytes 2 s) (GetSegRelocs l im) in
  if zlen head + zlen table >? sizehdr (cp im) then UB (* behind the end of hdrbuf *)
  else Ok (head ++ table ++ repeat 0 (Z.to_nat (sizehdr (cp im) - zlen head - zlen table))).

(** bin.c:1531-1532: COMB_STACK sets the type; start_offset is cleared *)
Definition prepare (s : seg) : seg :=
  {| s_name := s_name s; s_type := if s_stack s then SEGTYPE_STACK else s_type s; s_stack := s_stack s; s_align := s_align s; s_grp := s_grp s; s_use64 := s_use64 s;
     s_info := s_info s; s_abs_frame := s_abs_frame s; s_start_loc := s_start_loc s; s_max_offset := s_max_offset s; s_written := s_written s; s_buf := s_buf s;
     s_fix := s_fix s; s_fileofs := s_fileofs s; s_start := 0 |}.
Definition initial (fmt : format) (d : mzdata) (ngroups : nat) (ss : list seg) : Z * image :=
  let ss := map prepare ss in
  let im0 := {| segs := ss; groups := repeat no_group ngroups; cp := {| first := true; fileoffset := 0; sizehdr := 0; entryseg := None; imagestart := 0 |} |} in
  let reloccnt := match fmt with MZ => wrap 16 (zlen (GetSegRelocs (seq 0 (length ss)) im0)) | NONE => 0 end in
  let hdr := match fmt with MZ => mz_sizehdr d reloccnt | NONE => 0 end in
  (reloccnt, {| segs := ss; groups := groups im0; cp := {| first := true; fileoffset := hdr; sizehdr := hdr; entryseg := None; imagestart := 0 |} |}).
(** bin.c:1504-1824 bin_write_module *)
Definition bin_write_module (fmt : format) (d : mzdata) (flat_grp : option nat) (o : order) (ngroups : nat) (ss : list seg) (start : option (nat * Z)) : res (list Z) :=
  let '(reloccnt, im0) := initial fmt d ngroups ss in
  match layout fmt flat_grp o (seq 0 (length ss)) im0 with
  | None => UB
  | Some (l, im) =>
      bindr (fix_all fmt l l im) (fun bufs =>
      match fmt with
      | NONE =>
          match start with
          | Some (k, _) => if match entryseg (cp im) with Some e => Nat.eqb e k | None => false end then write_sections bufs im [] else Err (* START_LABEL_INVALID *)
          | None => write_sections bufs im []
          end
      | MZ => bindr (mz_header d l im reloccnt start) (fun h => write_sections bufs im h)
      end)
  end.
