(** Model of coff.c: the COFF object file - header, section table, section data,
    relocations, line numbers, symbol table and string table.
    Not modelled: building the contents of .drectve, .debug$S and .debug$T (they
    are sections with given contents here), name decoration (Mangle, see C34; the
    decorated name is part of the symbol), COMPID (compiled with 0). *)
From Verif Require Import Base Crc_Model.

(** H/globals.h:598-610 *)
Definition SEGTYPE_UNDEF := 0. Definition SEGTYPE_CODE := 1. Definition SEGTYPE_DATA := 2. Definition SEGTYPE_BSS := 3.
(** H/fixup.h:36-55 *)
Definition FIX_VOID := 0.     Definition FIX_RELOFF16 := 2. Definition FIX_RELOFF32 := 3. Definition FIX_OFF16 := 5. Definition FIX_OFF32 := 6.
Definition FIX_OFF64 := 7.    Definition FIX_SEG := 8.      Definition FIX_OFF32_IMGREL := 12. Definition FIX_OFF32_SECREL := 13.
(** H/symbols.h:367 *)
Definition MAX_SEGALIGNMENT := 0xff.

(** what a fixup refers to: fix->sym. Sections and other symbols are numbered.
    [RVar k]: an assembly time variable, k is fix->segment_var *)
Inductive ref := RNone | RSym (n : nat) | RSec (k : nat) | RVar (k : option nat).
Record fixup := { f_type : Z; f_locofs : Z; f_addbytes : Z; f_ref : ref }.
(** H/linnum.h struct line_num_info: number == 0 with sym and line_number, or number and offset *)
Inductive lineitem := LProc (n : nat) (line_number : Z) | LLine (number offset : Z).
(** dsym/seginfo. [s_pad]: the byte behind the code buffer. [s_const]: the class is CONST *)
Record section := {
  s_name : list Z; s_alias : option (list Z); s_info : bool; s_drectve : bool; s_align : Z; s_comdat : Z; s_comdat_number : Z; s_type : Z; s_readonly : bool;
  s_const : bool; s_stack : bool; s_written : Z; s_char : Z; s_use64 : bool; s_max : Z; s_start_loc : Z; s_buf : option (list Z); s_pad : Z; s_fix : list fixup;
  s_lines : option (list lineitem) }.
(** struct asym. [y_seg]: number of sym->segment; None: absolute. [y_file]: debuginfo->file *)
Inductive state := Internal | External | Other.
Record symbol := {
  y_name : list Z (* decorated *); y_state : state; y_seg : option nat; y_public : bool; y_proc : bool; y_near : bool (* mem_type == MT_NEAR *);
  y_comm : bool; y_weak : bool; y_alt : option nat; y_offset : Z; y_total : Z; y_file : Z; y_included : bool }.
Definition no_symbol : symbol :=
  {| y_name := []; y_state := Other; y_seg := None; y_public := false; y_proc := false; y_near := false; y_comm := false; y_weak := false; y_alt := None;
     y_offset := 0; y_total := 0; y_file := 0; y_included := false |}.
Record options := { safeseh : bool; debug4 : bool (* debug_symbols == 4 *); line_numbers : bool; no_file_entry : bool; no_section_aux : bool; no_static_procs : bool; djgpp : bool }.
(** [m_ias], [m_ish]: what is in the uninitialised variables ias and ish.Name. [m_sx]: the section .sxdata *)
Record module := {
  m_opt : options; m_use64 : bool; m_time : Z; m_dot_file : list Z; m_files : list (list Z); m_secs : list section; m_syms : list symbol;
  m_ext : list nat; m_procs : list nat; m_pub : list nat; m_alias : list (nat * option nat) (* and the substitute *); m_safeseh : list nat; m_sx : option nat;
  m_ias : list Z; m_ish : list Z }.
Definition sym (m : module) (n : nat) : symbol := nth n (m_syms m) no_symbol.

(** * the string table *)
(** struct coffmod, LongNames: size and items *)
Record longnames := { l_size : Z; l_items : list (list Z) }.
(** coff.c:78-95 Coff_AllocString *)
Definition Coff_AllocString (l : longnames) (string : list Z) : Z * longnames :=
  (l_size l, {| l_size := wrap 32 (l_size l + (zlen string + 1)); l_items := l_items l ++ [string] |}).
(** coff.c:1239-1246 *)
Definition string_table (l : longnames) : list Z := le_bytes 4 (l_size l) ++ flat_map (fun s => s ++ [0]) (l_items l).

(** * section names *)
(** assemble.c:160-171 *)
Definition cst : list (list Z * bool * list Z * Z) := (* src, CSF_GRPCHK, dst, segtype *)
  [([95; 84; 69; 88; 84], true, [46; 116; 101; 120; 116], SEGTYPE_CODE);        (* _TEXT  .text *)
   ([95; 68; 65; 84; 65], true, [46; 100; 97; 116; 97], SEGTYPE_DATA);          (* _DATA  .data *)
   ([67; 79; 78; 83; 84], true, [46; 114; 100; 97; 116; 97], SEGTYPE_DATA);     (* CONST  .rdata *)
   ([95; 66; 83; 83], false, [46; 98; 115; 115], SEGTYPE_BSS)].                 (* _BSS   .bss *)
Definition dot_const : list Z := [46; 99; 111; 110; 115; 116]. (* .const *)
(** memcmp( name, src, len ) == 0; the rest of the name *)
Fixpoint strip (src name : list Z) : option (list Z) :=
  match src, name with
  | [], r => Some r
  | x :: s, y :: n => if x =? y then strip s n else None
  | _, [] => None
  end.
(** assemble.c:202-240 ConvertSectionName: the name and *pst *)
Fixpoint convert (dj : bool) (written : Z) (t : list (list Z * bool * list Z * Z)) (name : list Z) : list Z * Z :=
  match t with
  | [] => (name, SEGTYPE_UNDEF)
  | (src, grpchk, dst, st) :: t' =>
      let found r :=
        (match r with [] => if dj && (st =? SEGTYPE_DATA) && (zlen dst =? 6) then dot_const else dst | _ => dst ++ r end,
         if (st =? SEGTYPE_BSS) && negb (written =? 0) then SEGTYPE_UNDEF else st) in
      match strip src name with
      | Some [] => found []
      | Some (c :: r) => if (c =? 36) && grpchk then found (c :: r) else convert dj written t' name
      | None => convert dj written t' name
      end
  end.
(** coff.c:131, 428 *)
Definition section_name (o : options) (s : section) : list Z * Z :=
  match s_alias s with Some a => (a, SEGTYPE_UNDEF) | None => convert (djgpp o) (s_written s) cst (s_name s) end.

(** sprintf "%u" *)
Fixpoint decimal (fuel : nat) (n : Z) (acc : list Z) : list Z :=
  match fuel with
  | O => acc
  | S k => let acc := (48 + n mod 10) :: acc in if n / 10 =? 0 then acc else decimal k (n / 10) acc
  end.
(** coff.c:136-139: ish.Name; [old]: its contents so far. sprintf may write behind it, into
    Misc which is set below *)
Definition header_name (l : longnames) (name old : list Z) : list Z * longnames :=
  if zlen name <=? 8 then (firstn 8 (name ++ repeat 0 8), l)
  else let '(ofs, l) := Coff_AllocString l name in
       let txt := 47 :: decimal 10 ofs [] ++ [0] in
       (firstn 8 (txt ++ skipn (length txt) old), l).

(** * the section table *)
(** coff.c:151-190: Characteristics, SizeOfRawData, PointerToRawData and seginfo->segtype *)
Definition characteristics (s : section) (segtype fileoffset : Z) : Z * Z * Z * Z :=
  let ptr := if s_max s =? 0 then 0 else fileoffset in
  if s_info s then (if s_drectve s then Z.lor 0x200 0x800 else Z.lor 0x200 0x40, s_max s, ptr, s_type s)
  else
    let c := if negb (s_align s =? MAX_SEGALIGNMENT) then wrap 32 (Z.shiftl (s_align s + 1) 20) else 0 in
    let c := if negb (s_comdat s =? 0) then Z.lor c 0x1000 else c in
    if s_type s =? SEGTYPE_CODE then (Z.lor c 0x60000020, s_max s, ptr, s_type s)
    else if s_readonly s then (Z.lor c 0x40000040, s_max s, ptr, s_type s)
    else if s_const s then (Z.lor c 0x40000040, s_max s, ptr, s_type s)
    else if (s_type s =? SEGTYPE_BSS) || (segtype =? SEGTYPE_BSS) then (Z.lor c 0xc0000080, s_max s, 0, SEGTYPE_BSS)
    else if s_stack s && (s_written s =? 0) then (Z.lor c 0xc0000080, 0, 0, s_type s)
    else (Z.lor c 0xc0000040, s_max s, ptr, s_type s).
(** coff.c:193-196 *)
Definition manual (s : section) (c : Z) : Z :=
  if s_char s =? 0 then c else Z.lor (Z.land c 0x1ffffff) (wrap 32 (Z.shiftl (Z.land (s_char s) 0xfe) 24)).
(** coff.c:206-219: the fixups without symbol: the stored displacement becomes relative to the
    section start, the type FIX_VOID *)
Definition poke32 (i v : Z) (b : list Z) : res (list Z) :=
  if (0 <=? i) && (i + 4 <=? zlen b) then Ok (firstn (Z.to_nat i) b ++ le_bytes 4 v ++ skipn (Z.to_nat (i + 4)) b) else UB.
Definition peek32 (i : Z) (b : list Z) : Z := le_val (firstn 4 (skipn (Z.to_nat i) b)).
Definition is_none (f : fixup) : bool := match f_ref f with RNone => true | _ => false end.
Definition void (f : fixup) : fixup := {| f_type := FIX_VOID; f_locofs := f_locofs f; f_addbytes := f_addbytes f; f_ref := f_ref f |}.
Fixpoint absolute_fixups (start_loc : Z) (fs : list fixup) (b : option (list Z)) : res (option (list Z)) :=
  match fs with
  | [] => Ok b
  | f :: fs =>
      if is_none f && (f_type f =? FIX_RELOFF32) then
        match b with
        | None => UB
        | Some bs => let i := f_locofs f - start_loc in
                     bindr (poke32 i (peek32 i bs - (f_locofs f + f_addbytes f)) bs) (fun bs => absolute_fixups start_loc fs (Some bs))
        end
      else absolute_fixups start_loc fs b
  end.
Definition num_relocs (s : section) : Z := zlen (filter (fun f => negb (is_none f)) (s_fix s)).
Definition with_data (s : section) (t : Z) (b : option (list Z)) : section :=
  {| s_name := s_name s; s_alias := s_alias s; s_info := s_info s; s_drectve := s_drectve s; s_align := s_align s; s_comdat := s_comdat s; s_comdat_number := s_comdat_number s;
     s_type := t; s_readonly := s_readonly s; s_const := s_const s; s_stack := s_stack s; s_written := s_written s; s_char := s_char s; s_use64 := s_use64 s; s_max := s_max s;
     s_start_loc := s_start_loc s; s_buf := b; s_pad := s_pad s; s_fix := map (fun f => if is_none f then void f else f) (s_fix s); s_lines := s_lines s |}.
(** coff.c:128-239 for one section: the header, and the section as changed *)
Definition section_header (o : options) (s : section) (fileoffset : Z) (l : longnames) (old : list Z) : res (list Z * list Z * longnames * Z * section) :=
  let '(secname, segtype) := section_name o s in
  let '(name, l) := header_name l secname old in
  let '(c, size, ptr, t) := characteristics s segtype fileoffset in
  let c := manual s c in
  let fo := if ptr =? 0 then fileoffset else wrap 32 (fileoffset + size) in
  let nrel := num_relocs s in
  bindr (absolute_fixups (s_start_loc s) (s_fix s) (s_buf s)) (fun buf =>
  let '(prel, n, c, fo) :=
    match s_fix s with
    | [] => (0, 0, c, fo)
    | _ =>
        let fo := Z.land (wrap 32 (fo + 1)) (wrap 32 (Z.lnot 1)) in
        if nrel <=? 0xffff then (fo, nrel, c, wrap 32 (fo + nrel * 10)) else (fo, 0xffff, Z.lor c 0x01000000, wrap 32 (fo + nrel * 10 + 10))
    end in
  let '(plin, nlin, fo) :=
    match s_lines s with
    | Some q => if debug4 o then (0, 0, fo) else (fo, wrap 16 (zlen q), wrap 32 (fo + wrap 16 (zlen q) * 6))
    | None => (0, 0, fo)
    end in
  Ok (name ++ le_bytes 4 0 ++ le_bytes 4 0 ++ le_bytes 4 size ++ le_bytes 4 ptr ++ le_bytes 4 prel ++ le_bytes 4 plin ++ le_bytes 2 n ++ le_bytes 2 nlin ++ le_bytes 4 c,
      name, l, fo, with_data s t buf)).
Fixpoint section_headers (o : options) (ss : list section) (fileoffset : Z) (l : longnames) (old : list Z) : res (list Z * longnames * list section) :=
  match ss with
  | [] => Ok ([], l, [])
  | s :: ss =>
      bindr (section_header o s fileoffset l old) (fun '(h, name, l, fo, s) =>
      bindr (section_headers o ss fo l name) (fun '(hs, l, ss) => Ok (h ++ hs, l, s :: ss)))
  end.
(** coff.c:125-126 *)
Definition start_data (m : module) : Z := wrap 32 (20 + zlen (m_secs m) * 40).

(** * symbol indices *)
(** sizeof( IMAGE_AUX_SYMBOL ) *)
Definition aux_entries (name : list Z) : Z := zlen name / 18 + (if zlen name mod 18 =? 0 then 0 else 1).
Definition file_name (m : module) (f : Z) : list Z := nth (Z.to_nat f) (m_files m) [].
Definition lines_on (o : options) : bool := line_numbers o && negb (debug4 o).
(** sym->debuginfo, without file *)
Record debug := { start_line : Z; end_line : Z; ln_fileofs : Z; ln_count : Z (* uint_16 *); next_proc : Z; next_file : Z }.
Definition no_debug : debug := {| start_line := 0; end_line := 0; ln_fileofs := 0; ln_count := 0; next_proc := 0; next_file := 0 |}.
(** ext_idx, included, the public queue, debug info, lastproc, start_files *)
Record st := { c_idx : nat -> Z; c_inc : nat -> bool; c_pub : list nat; c_dbg : nat -> debug; c_lastproc : option nat; c_start_files : Z }.
Definition set {A} (f : nat -> A) (n : nat) (v : A) (x : nat) : A := if Nat.eqb x n then v else f x.
Definition set_next_file (d : debug) (v : Z) : debug :=
  {| start_line := start_line d; end_line := end_line d; ln_fileofs := ln_fileofs d; ln_count := ln_count d; next_proc := next_proc d; next_file := v |}.
Definition skipped (y : symbol) : bool := negb (y_comm y) && y_weak y.
Definition weak_ext (y : symbol) : bool := negb (y_comm y) && match y_alt y with Some _ => true | None => false end.
(** coff.c:718-726 *)
Fixpoint ext_indices (m : module) (es : list nat) (index : Z) (idx : nat -> Z) : Z * (nat -> Z) :=
  match es with
  | [] => (index, idx)
  | e :: es =>
      if skipped (sym m e) then ext_indices m es index idx
      else ext_indices m es (index + (if weak_ext (sym m e) then 2 else 1)) (set idx e index)
  end.
(** coff.c:728-737 *)
Definition is_internal (y : symbol) : bool := match y_state y with Internal => true | _ => false end.
Fixpoint static_procs (m : module) (ps : list nat) (inc : nat -> bool) (pub : list nat) : (nat -> bool) * list nat :=
  match ps with
  | [] => (inc, pub)
  | p :: ps => if is_internal (sym m p) && negb (y_public (sym m p)) && negb (inc p) then static_procs m ps (set inc p true) (pub ++ [p]) else static_procs m ps inc pub
  end.
(** coff.c:739-758 *)
Fixpoint pub_indices (m : module) (q : list nat) (index lastfile : Z) (lastfproc : option nat) (s : st) : res (Z * st) :=
  match q with
  | [] => Ok (index, s)
  | p :: q =>
      let put i s := {| c_idx := set (c_idx s) p i; c_inc := c_inc s; c_pub := c_pub s; c_dbg := c_dbg s; c_lastproc := c_lastproc s; c_start_files := c_start_files s |} in
      if lines_on (m_opt m) && y_proc (sym m p) then
        if negb (y_file (sym m p) =? lastfile) then
          let i := index + (1 + aux_entries (file_name m (y_file (sym m p)))) in
          if c_start_files s =? 0 then
            let s := {| c_idx := c_idx s; c_inc := c_inc s; c_pub := c_pub s; c_dbg := c_dbg s; c_lastproc := c_lastproc s; c_start_files := index |} in
            pub_indices m q (i + 7) (y_file (sym m p)) (Some p) (put i s)
          else match lastfproc with
               | None => UB
               | Some l =>
                   let s := {| c_idx := c_idx s; c_inc := c_inc s; c_pub := c_pub s; c_dbg := set (c_dbg s) l (set_next_file (c_dbg s l) index);
                               c_lastproc := c_lastproc s; c_start_files := c_start_files s |} in
                   pub_indices m q (i + 7) (y_file (sym m p)) (Some p) (put i s)
               end
        else pub_indices m q (index + 7) lastfile lastfproc (put index s)
      else pub_indices m q (index + 1) lastfile lastfproc (put index s)
  end.
(** coff.c:700-712 *)
Definition section_start (m : module) : Z :=
  (if safeseh (m_opt m) then 1 else 0) + (if no_file_entry (m_opt m) then 0 else aux_entries (m_dot_file m) + 1).
(** coff.c:678-760 SetSymbolIndices *)
Definition SetSymbolIndices (m : module) : res (Z * st) :=
  let n := zlen (m_secs m) in
  let index := section_start m + n + (if no_section_aux (m_opt m) then 0 else n) in
  let '(index, idx) := ext_indices m (m_ext m) index (fun _ => 0) in
  let '(inc, pub) := if no_static_procs (m_opt m) then (fun n => y_included (sym m n), m_pub m)
                     else static_procs m (m_procs m) (fun n => y_included (sym m n)) (m_pub m) in
  pub_indices m pub index 0 None {| c_idx := idx; c_inc := inc; c_pub := pub; c_dbg := fun _ => no_debug; c_lastproc := None; c_start_files := 0 |}.
(** coff.c:917-921 *)
Definition sec_index (m : module) (k : nat) : Z := section_start m + Z.of_nat k + (if no_section_aux (m_opt m) then 0 else Z.of_nat k).

(** * section data *)
(** coff.c:790-842: the relocation type; Some None: skipped. FIX_OFF64 and others: UNKNOWN_FIXUP_TYPE *)
Definition reloc_type (use64 : bool) (f : fixup) : option (option Z) :=
  let t := f_type f in
  if t =? FIX_VOID then Some None
  else if use64 then
    if t =? FIX_RELOFF32 then Some (Some (wrap 16 (4 + (f_addbytes f - 4))))
    else if t =? FIX_OFF32 then Some (Some 2)
    else if t =? FIX_OFF32_IMGREL then Some (Some 3)
    else if t =? FIX_OFF32_SECREL then Some (Some 0xb)
    else if t =? FIX_OFF64 then Some (Some 1)
    else if t =? FIX_SEG then Some (Some 0xa)
    else None
  else
    if t =? FIX_RELOFF16 then Some (Some 2)
    else if t =? FIX_OFF16 then Some (Some 1)
    else if t =? FIX_RELOFF32 then Some (Some 0x14)
    else if t =? FIX_OFF32 then Some (Some 6)
    else if t =? FIX_OFF32_IMGREL then Some (Some 7)
    else if t =? FIX_OFF32_SECREL then Some (Some 0xb)
    else if t =? FIX_SEG then Some (Some 0xa)
    else None.
(** coff.c:760-771 *)
Definition coff_write_fixup (addr index type : Z) : list Z := le_bytes 4 addr ++ le_bytes 4 index ++ le_bytes 2 type.
(** coff.c:846-889: the index of the symbol; a private symbol is added to the queue *)
Definition fixup_index (m : module) (r : ref) (index : Z) (s : st) : res (Z * Z * st) :=
  match r with
  | RNone => UB
  | RVar None => UB
  | RVar (Some k) | RSec k => Ok (sec_index m k, index, s)
  | RSym n =>
      if is_internal (sym m n) && negb (c_inc s n) && negb (y_public (sym m n)) then
        Ok (index, index + (if lines_on (m_opt m) && y_proc (sym m n) then 7 else 1),
            {| c_idx := set (c_idx s) n index; c_inc := set (c_inc s) n true; c_pub := c_pub s ++ [n]; c_dbg := c_dbg s; c_lastproc := c_lastproc s; c_start_files := c_start_files s |})
      else Ok (c_idx s n, index, s)
  end.
Fixpoint write_fixups (m : module) (use64 : bool) (fs : list fixup) (index : Z) (s : st) : res (list Z * Z * st) :=
  match fs with
  | [] => Ok ([], index, s)
  | f :: fs =>
      match reloc_type use64 f with
      | None => Err
      | Some None => write_fixups m use64 fs index s
      | Some (Some t) =>
          bindr (fixup_index m (f_ref f) index s) (fun '(i, index, s) =>
          bindr (write_fixups m use64 fs index s) (fun '(bs, index, s) => Ok (coff_write_fixup (f_locofs f) i t ++ bs, index, s)))
      end
  end.
(** coff.c:773-892 coff_write_fixups *)
Definition coff_write_fixups (m : module) (x : section) (index : Z) (s : st) : res (list Z * Z * st) :=
  bindr (write_fixups m (s_use64 x) (s_fix x) index s) (fun '(bs, index, s) =>
  Ok ((if num_relocs x >? 0xffff then coff_write_fixup (num_relocs x + 1) 0 0 else []) ++ bs, index, s)).

(** coff.c:985-1018: line numbers; [offset]: file position behind start_data *)
Fixpoint write_lines (q : list lineitem) (start offset : Z) (last : option nat) (s : st) : res (list Z * st) :=
  match q with
  | [] => Ok ([], s)
  | LProc n line :: q =>
      let dbg := match c_lastproc s with
                 | Some p => let d := c_dbg s p in
                             set (c_dbg s) p {| start_line := start_line d; end_line := end_line d; ln_fileofs := ln_fileofs d; ln_count := ln_count d;
                                                next_proc := wrap 32 (c_idx s n); next_file := next_file d |}
                 | None => c_dbg s
                 end in
      let d := dbg n in
      let dbg := set dbg n {| start_line := line; end_line := 0; ln_fileofs := wrap 32 (start + offset); ln_count := wrap 16 (ln_count d + 1); next_proc := 0; next_file := next_file d |} in
      let s := {| c_idx := c_idx s; c_inc := c_inc s; c_pub := c_pub s; c_dbg := dbg; c_lastproc := Some n; c_start_files := c_start_files s |} in
      bindr (write_lines q start (offset + 6) (Some n) s) (fun '(bs, s) => Ok (le_bytes 4 (c_idx s n) ++ le_bytes 2 0 ++ bs, s))
  | LLine number ofs :: q =>
      match last with
      | None => UB
      | Some n =>
          let d := c_dbg s n in
          let v := wrap 16 (number - start_line d) in
          let s := {| c_idx := c_idx s; c_inc := c_inc s; c_pub := c_pub s;
                      c_dbg := set (c_dbg s) n {| start_line := start_line d; end_line := number; ln_fileofs := ln_fileofs d; ln_count := wrap 16 (ln_count d + 1); next_proc := next_proc d; next_file := next_file d |};
                      c_lastproc := c_lastproc s; c_start_files := c_start_files s |} in
          bindr (write_lines q start (offset + 6) last s) (fun '(bs, s) => Ok (le_bytes 4 ofs ++ le_bytes 2 (if v =? 0 then 0x7fff else v) ++ bs, s))
      end
  end.
(** coff.c:942-966: the bytes of a section; fseek leaves zeros. The parity is that of the position *)
Definition section_bytes (x : section) (offset : Z) : res (list Z) :=
  let pad := Z.odd (offset + s_max x) && match s_fix x with [] => false | _ => true end in
  let size := s_max x + (if pad then 1 else 0) in
  match s_buf x with
  | None => Ok (repeat 0 (Z.to_nat size))
  | Some b =>
      let n := size - s_start_loc x in
      if (n <? 0) || (n >? zlen b + 1) then UB
      else Ok (repeat 0 (Z.to_nat (s_start_loc x)) ++ firstn (Z.to_nat n) (b ++ [s_pad x]))
  end.
Fixpoint write_data (m : module) (xs : list section) (offset index : Z) (s : st) : res (list Z * st) :=
  match xs with
  | [] => Ok ([], s)
  | x :: xs =>
      if s_stack x && (s_written x =? 0) then write_data m xs offset index s
      else if s_type x =? SEGTYPE_BSS then write_data m xs offset index s
      else
        bindr (if s_max x =? 0 then Ok ([], index, s)
               else bindr (section_bytes x offset) (fun b =>
                    bindr (coff_write_fixups m x index s) (fun '(r, index, s) => Ok (b ++ r, index, s)))) (fun '(b, index, s) =>
        bindr (match s_lines x with
               | Some q => if lines_on (m_opt m) then write_lines q (start_data m) (offset + zlen b) None s else Ok ([], s)
               | None => Ok ([], s)
               end) (fun '(ln, s) =>
        bindr (write_data m xs (offset + zlen b + zlen ln) index s) (fun '(r, s) => Ok (b ++ ln ++ r, s))))
  end.
(** coff.c:903-912: the contents of .sxdata *)
Fixpoint update {A} (n : nat) (f : A -> A) (l : list A) : list A :=
  match l, n with [], _ => [] | x :: r, O => f x :: r | x :: r, S n => x :: update n f r end.
Definition set_buf (b : list Z) (s : section) : section :=
  {| s_name := s_name s; s_alias := s_alias s; s_info := s_info s; s_drectve := s_drectve s; s_align := s_align s; s_comdat := s_comdat s; s_comdat_number := s_comdat_number s;
     s_type := s_type s; s_readonly := s_readonly s; s_const := s_const s; s_stack := s_stack s; s_written := s_written s; s_char := s_char s; s_use64 := s_use64 s; s_max := s_max s;
     s_start_loc := s_start_loc s; s_buf := Some b; s_pad := s_pad s; s_fix := s_fix s; s_lines := s_lines s |}.
Definition fill_sxdata (m : module) (s : st) (xs : list section) : res (list section) :=
  match m_safeseh m with
  | [] => Ok xs
  | q => match m_sx m with None => UB | Some k => Ok (update k (set_buf (flat_map (fun n => le_bytes 4 (c_idx s n)) q)) xs) end
  end.
(** coff.c:894-1024 coff_write_data; xs: the sections as changed by the section table *)
Definition coff_write_data (m : module) (xs : list section) : res (list Z * list section * st) :=
  bindr (SetSymbolIndices m) (fun '(index, s) =>
  bindr (fill_sxdata m s xs) (fun xs =>
  bindr (write_data m xs 0 index s) (fun '(bs, s) => Ok (bs, xs, s)))).

(** * the symbol table *)
(** coff.c:330-348 coff_write_symbol; name: or the position in the string table *)
Definition coff_write_symbol (name : list Z + Z) (value section type storageclass aux : Z) : list Z :=
  (match name with inl n => firstn 8 (n ++ repeat 0 8) | inr strpos => le_bytes 4 0 ++ le_bytes 4 strpos end) ++
  le_bytes 4 value ++ le_bytes 2 section ++ le_bytes 2 type ++ le_bytes 1 storageclass ++ le_bytes 1 aux.
Definition alloc_name (l : longnames) (name : list Z) : (list Z + Z) * longnames :=
  if zlen name >? 8 then let '(p, l) := Coff_AllocString l name in (inr p, l) else (inl name, l).
(** strncpy( ias, p, 18 ) for each part of a file name *)
Fixpoint file_aux (n : nat) (p : list Z) : list (list Z) :=
  match n with O => [] | S n => firstn 18 (p ++ repeat 0 18) :: file_aux n (skipn 18 p) end.
(** fields of the variable ias *)
Definition put (i : nat) (bs ias : list Z) : list Z := firstn i ias ++ bs ++ skipn (i + length bs) ias.
Definition feat00 : list Z := [64; 102; 101; 97; 116; 46; 48; 48].
Definition dot_file : list Z := [46; 102; 105; 108; 101].
Definition dot_bf : list Z := [46; 98; 102]. Definition dot_lf : list Z := [46; 108; 102]. Definition dot_ef : list Z := [46; 101; 102].
Definition IMAGE_SYM_DEBUG := -2. Definition IMAGE_SYM_ABSOLUTE := -1. Definition IMAGE_SYM_UNDEFINED := 0.
Definition CLASS_EXTERNAL := 2. Definition CLASS_STATIC := 3. Definition CLASS_LABEL := 6. Definition CLASS_FUNCTION := 101. Definition CLASS_FILE := 103. Definition CLASS_WEAK := 105.
(** coff.c:245-281 *)
Definition CoffGetType (y : symbol) : Z := if y_proc y then 0x20 else 0.
Definition CoffGetClass (y : symbol) : Z :=
  match y_state y with
  | External => if weak_ext y then CLASS_WEAK else CLASS_EXTERNAL
  | _ => if y_public y then CLASS_EXTERNAL else if y_near y && negb (y_proc y) then CLASS_LABEL else CLASS_STATIC
  end.
(** coff.c:390-396 @feat.00 *)
Definition feat_entry (o : options) : list (list Z) :=
  if safeseh o then [coff_write_symbol (inl feat00) (if debug4 o then 16 else 1) IMAGE_SYM_ABSOLUTE 0 CLASS_STATIC 0] else [].
Definition file_entry (name : list Z) (value : Z) : list (list Z) :=
  coff_write_symbol (inl dot_file) value IMAGE_SYM_DEBUG 0 CLASS_FILE (aux_entries name) :: file_aux (Z.to_nat (aux_entries name)) name.
(** the last record is left in the variable ias *)
Definition last_aux (rs : list (list Z)) (ias : list Z) : list Z := match rs with [] => ias | _ => last rs ias end.
(** coff.c:445-465: ias for a section *)
Definition section_aux (o : options) (x : section) : res (list Z) :=
  bindr (if s_comdat x =? 0 then Ok 0 else CRC32Comdat (s_buf x) (s_max x) 0) (fun crc =>
  Ok (le_bytes 4 (s_max x) ++ le_bytes 2 (if num_relocs x >? 0xffff then 0xffff else num_relocs x) ++
      le_bytes 2 (if lines_on o then match s_lines x with Some q => zlen q | None => 0 end else 0) ++
      (if s_comdat x =? 0 then repeat 0 7 else le_bytes 4 crc ++ le_bytes 2 (s_comdat_number x) ++ le_bytes 1 (s_comdat x)) ++ repeat 0 3)).
(** coff.c:424-468 *)
Fixpoint section_entries (o : options) (xs : list section) (i : Z) (l : longnames) (ias : list Z) : res (list (list Z) * longnames * list Z) :=
  match xs with
  | [] => Ok ([], l, ias)
  | x :: xs =>
      let '(nm, l) := alloc_name l (fst (section_name o x)) in
      let r := coff_write_symbol nm 0 i 0 CLASS_STATIC (if no_section_aux o then 0 else 1) in
      if negb (no_section_aux o) || negb (s_comdat x =? 0) then
        bindr (section_aux o x) (fun ias =>
        bindr (section_entries o xs (i + 1) l ias) (fun '(rs, l, j) => Ok (r :: ias :: rs, l, j)))
      else bindr (section_entries o xs (i + 1) l ias) (fun '(rs, l, j) => Ok (r :: rs, l, j))
  end.
(** coff.c:492-500, 615-622 *)
Definition weak_aux (tag ch : Z) : list Z := le_bytes 4 tag ++ le_bytes 4 ch ++ repeat 0 10.
(** coff.c:473-505 *)
Fixpoint ext_entries (m : module) (s : st) (es : list nat) (l : longnames) (ias : list Z) : list (list Z) * longnames * list Z :=
  match es with
  | [] => ([], l, ias)
  | e :: es =>
      let y := sym m e in
      if skipped y then ext_entries m s es l ias
      else
        let '(nm, l) := alloc_name l (y_name y) in
        let r := coff_write_symbol nm (if y_comm y then y_total y else y_offset y) IMAGE_SYM_UNDEFINED (CoffGetType y) (CoffGetClass y) (if weak_ext y then 1 else 0) in
        match y_alt y with
        | Some a => if weak_ext y then let w := weak_aux (c_idx s a) 2 in let '(rs, l, j) := ext_entries m s es l w in (r :: w :: rs, l, j)
                    else let '(rs, l, j) := ext_entries m s es l ias in (r :: rs, l, j)
        | None => let '(rs, l, j) := ext_entries m s es l ias in (r :: rs, l, j)
        end
  end.
(** coff.c:522-527: SectionNumber; GetSegIdx: segments are numbered from 1 *)
Definition section_number (y : symbol) : Z :=
  if is_internal y then match y_seg y with Some k => Z.of_nat k + 1 | None => wrap 16 IMAGE_SYM_ABSOLUTE end else IMAGE_SYM_UNDEFINED.
(** coff.c:508-598; [cnt]: cntSymbols *)
Fixpoint pub_entries (m : module) (s : st) (q : list nat) (lastfile cnt : Z) (l : longnames) (ias : list Z) : list (list Z) * Z * longnames * list Z :=
  match q with
  | [] => ([], cnt, l, ias)
  | p :: q =>
      let y := sym m p in
      let proc := lines_on (m_opt m) && y_proc y in
      let files := if proc && negb (y_file y =? lastfile) then file_entry (file_name m (y_file y)) (next_file (c_dbg s p)) else [] in
      let lastfile := if proc then y_file y else lastfile in
      let cnt := cnt + zlen files in
      let ias := match files with [] => ias | f :: r => last_aux r ias end in
      let '(nm, l) := alloc_name l (y_name y) in
      let sec := section_number y in
      let r := coff_write_symbol nm (y_offset y) sec (CoffGetType y) (CoffGetClass y) (if proc then 1 else 0) in
      let cnt := cnt + 1 in
      if proc then
        let d := c_dbg s p in
        let ias := put 0 (le_bytes 4 (cnt + 1) ++ le_bytes 4 (y_total y) ++ le_bytes 4 (ln_fileofs d) ++ le_bytes 4 (next_proc d)) ias in
        let a1 := ias in
        let bf := coff_write_symbol (inl dot_bf) (y_offset y) sec 0 CLASS_FUNCTION 1 in
        let ias := put 12 (le_bytes 4 (if next_proc d =? 0 then 0 else next_proc d + 2)) (put 4 (le_bytes 2 (start_line d)) (put 0 (le_bytes 4 0) ias)) in
        let a2 := ias in
        let lf := coff_write_symbol (inl dot_lf) (ln_count d) sec 0 CLASS_FUNCTION 0 in
        let ef := coff_write_symbol (inl dot_ef) (y_offset y + y_total y) sec 0 CLASS_FUNCTION 1 in
        let ias := put 4 (le_bytes 2 (end_line d)) (put 0 (le_bytes 4 0) ias) in
        let '(rs, cnt, l, j) := pub_entries m s q lastfile (cnt + 6) l ias in
        (files ++ r :: a1 :: bf :: a2 :: lf :: ef :: ias :: rs, cnt, l, j)
      else let '(rs, cnt, l, j) := pub_entries m s q lastfile cnt l ias in (files ++ r :: rs, cnt, l, j)
  end.
(** coff.c:602-626 *)
Fixpoint alias_entries (m : module) (s : st) (al : list (nat * option nat)) (l : longnames) : list (list Z) * longnames :=
  match al with
  | [] => ([], l)
  | (n, subst) :: al =>
      let '(nm, l) := alloc_name l (y_name (sym m n)) in
      let r := coff_write_symbol nm 0 IMAGE_SYM_UNDEFINED 0 CLASS_WEAK 1 in
      let w := weak_aux (match subst with Some k => c_idx s k | None => 0 end) 3 in
      let '(rs, l) := alias_entries m s al l in (r :: w :: rs, l)
  end.
(** coff.c:372-629 coff_write_symbols: the records, cntSymbols *)
Definition coff_write_symbols (m : module) (xs : list section) (s : st) (l : longnames) : res (list (list Z) * Z * longnames) :=
  let o := m_opt m in
  let feat := feat_entry o in
  let files := if no_file_entry o then [] else file_entry (m_dot_file m) (if line_numbers o then c_start_files s else 0) in
  let ias := match files with [] => m_ias m | f :: r => last_aux r (m_ias m) end in
  bindr (section_entries o xs 1 l ias) (fun '(secs, l, ias) =>
  let '(exts, l, ias) := ext_entries m s (m_ext m) l ias in
  let cnt := zlen feat + zlen files + zlen secs + zlen exts in
  let '(pubs, cnt, l, ias) := pub_entries m s (c_pub s) 0 cnt l ias in
  let '(als, l) := alias_entries m s (m_alias m) l in
  Ok (feat ++ files ++ secs ++ exts ++ pubs ++ als, cnt + zlen als, l)).

(** coff.c:1148-1256 coff_write_module *)
Definition coff_write_module (m : module) : res (list Z) :=
  bindr (section_headers (m_opt m) (m_secs m) (start_data m) {| l_size := 4; l_items := [] |} (m_ish m)) (fun '(hs, l, xs) =>
  bindr (coff_write_data m xs) (fun '(data, xs, s) =>
  bindr (coff_write_symbols m xs s l) (fun '(recs, cnt, l) =>
  let head := le_bytes 2 (if m_use64 m then 0x8664 else 0x14c) ++ le_bytes 2 (zlen (m_secs m)) ++ le_bytes 4 (m_time m) ++
              le_bytes 4 (if cnt =? 0 then 0 else start_data m + zlen data) ++ le_bytes 4 cnt ++ le_bytes 2 0 ++ le_bytes 2 0 in
  Ok (head ++ hs ++ data ++ concat recs ++ string_table l)))).
