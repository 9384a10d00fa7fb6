(** Model of bin.c for -pe: where pe_set_values puts the segments (RVAs and file
    offsets), the section table, the sizes in the header, the base relocations,
    and the file that bin_write_module writes.

    Simplifications.  All segments are in the FLAT group, none is absolute, none
    is an "info" segment.  The segments .hdr$1, .hdr$2 and .hdr$3 are ordinary
    segments of type HDR here: their contents are given, the header fields are
    values of the record [values], not bytes.  Buffers are the contents after
    DoFixup.  A segment .reloc is made by the assembler only.  The store of -1
    to VirtualAddress in front of the second loop of pe_set_base_relocs is left
    out (it is behind the end of the buffer if there is nothing to relocate).
    LclAlloc is taken to return zeroed memory for the section table (bin.c 858;
    the fields are set by |= and +=). *)
From Coq Require Import ZArith List Bool Lia.
From Verif Require Import Base Sort_Model.
Import ListNotations.
Open Scope Z_scope.

(** H/globals.h 598-610 *)
Definition T_UNDEF := 0. Definition T_CODE := 1. Definition T_DATA := 2. Definition T_BSS := 3.
Definition T_STACK := 4. Definition T_HDR := 6. Definition T_CDATA := 7. Definition T_RELOC := 8.
Definition T_RSRC := 9. Definition T_ERROR := 10.

Record seg := {
  p_name : list Z;            (* the name *)
  p_title : list Z;           (* aliasname, or the result of ConvertSectionName *)
  p_type : Z;                 (* segtype *)
  p_ro : bool;                (* readonly *)
  p_const : bool;             (* the class is CONST *)
  p_stack : bool;             (* combine == COMB_STACK *)
  p_chars : Z;                (* characteristics *)
  p_align : Z;                (* alignment, an exponent *)
  p_loc : Z;                  (* start_loc *)
  p_size : Z;                 (* sym.max_offset *)
  p_written : Z;              (* bytes_written *)
  p_buf : option (list Z);    (* CodeBuffer *)
  p_fix : list (Z * Z)        (* FixupList: type and locofs *)
}.

(** ** Types: bin.c 822-838 (pe_create_section_table) and 1531-1533 *)

Definition starts_rsrc (n : list Z) : bool :=
  match n with
  | 46 :: 114 :: 115 :: 114 :: 99 :: r => match r with [] => true | c :: _ => c =? 36 end
  | _ => false
  end.

Definition retype (s : seg) : Z :=
  if p_stack s then T_STACK
  else if p_type s =? T_DATA then
    if p_ro s || (p_chars s =? 0x40) then T_CDATA else if p_const s then T_CDATA else T_DATA
  else if (p_type s =? T_UNDEF) && starts_rsrc (p_name s) then T_RSRC
  else p_type s.

(** flat_order, bin.c 109-111, and lname_idx, bin.c 823, 1289-1297. *)
Definition lname_idx (t : Z) : Z :=
  if t =? T_HDR then 0 else if t =? T_CODE then 1 else if t =? T_CDATA then 2
  else if t =? T_DATA then 3 else if t =? T_BSS then 4 else if t =? T_RSRC then 5
  else if t =? T_RELOC then 6 else T_ERROR.

Definition idx (s : seg) : Z := lname_idx (p_type s).

Definition set_type (s : seg) (t : Z) : seg :=
  {| p_name := p_name s; p_title := p_title s; p_type := t; p_ro := p_ro s;
     p_const := p_const s; p_stack := p_stack s; p_chars := p_chars s;
     p_align := p_align s; p_loc := p_loc s; p_size := p_size s;
     p_written := p_written s; p_buf := p_buf s; p_fix := p_fix s |}.

(** _stricmp *)
Definition lower (c : Z) : Z := if (65 <=? c) && (c <=? 90) then c + 32 else c.
Definition sort_key (s : seg) : Z * list Z := (idx s, map lower (p_name s)).

(** The section .reloc, bin.c 1269-1283: 8 bytes until its size is known. *)
Definition reloc_seg : seg :=
  {| p_name := [46; 114; 101; 108; 111; 99]; p_title := [46; 114; 101; 108; 111; 99];
     p_type := T_RELOC; p_ro := false; p_const := false; p_stack := false;
     p_chars := 0x42; p_align := 2; p_loc := 0; p_size := 8; p_written := 8;
     p_buf := None; p_fix := [] |}.

(** ** RVAs and file offsets: bin.c 1299-1316 and CalcOffset, bin.c 209-306 *)

Record placed := { q_s : seg; q_rva : Z; q_fo : Z; q_loc : Z }.

(** get_bit, bin.c 1072-1081 *)
Fixpoint get_bit (fuel : nat) (v : Z) : Z :=
  match fuel with
  | O => -1
  | S k => if v =? 0 then -1 else 1 + get_bit k (Z.shiftr v 1)
  end.

(** (x + (a - 1)) & ~(a - 1), 32 bits *)
Definition round_up (x a : Z) : Z := Z.land (wrap 32 (x + (a - 1))) (wrap 32 (Z.lnot (a - 1))).

Fixpoint place (falign malign : Z) (first : bool) (i rva fo : Z) (l : list seg) : list placed * Z :=
  match l with
  | [] => ([], rva)
  | s :: r =>
      let new := (idx s =? T_ERROR) || negb (idx s =? i) in
      let cpa := if new then falign else 0 in
      let rva := round_up rva (if new then malign else Z.shiftl 1 (p_align s)) in
      let align := Z.shiftl 1 (if cpa >? p_align s then cpa else p_align s) in
      let alignbytes := wrap 32 (Z.land (wrap 32 (fo + (align - 1))) (wrap 32 (- align)) - fo) in
      let fo := wrap 32 (fo + alignbytes) in
      let loc := if negb first && existsb (fun c => c =? 36) (p_name s) then 0 else p_loc s in
      let rva' := wrap 32 (rva + (p_size s - loc)) in
      let fo' := if p_type s =? T_BSS then fo else wrap 32 (fo + (p_size s - loc)) in
      let '(t, e) := place falign malign false (idx s) rva' fo' r in
      ({| q_s := s; q_rva := rva; q_fo := fo; q_loc := loc |} :: t, e)
  end.

(** ** Base relocations: pe_set_base_relocs, bin.c 1117-1205 *)

(** IMAGE_REL_BASED_LOW, HIGHLOW and DIR64 for FIX_OFF16, FIX_OFF32, FIX_OFF64 *)
Definition reloc_type (t : Z) : Z := if t =? 5 then 2 else if t =? 6 then 3 else if t =? 7 then 10 else 0.

(** The fixups in the order of the loops: start_offset, type, locofs. *)
Definition fixups (l : list placed) : list (Z * Z * Z) :=
  flat_map (fun q => if p_type (q_s q) =? T_HDR then []
                     else map (fun f => (q_rva q, fst f, snd f)) (p_fix (q_s q))) l.

Definition page (start locofs : Z) : Z := wrap 32 (start + Z.land locofs 0xFFFFF000).

(** The first loop: cnt1 and cnt2. *)
Fixpoint count_relocs (l : list (Z * Z * Z)) (currpage cnt1 cnt2 : Z) : Z * Z :=
  match l with
  | [] => (cnt1, cnt2)
  | (start, t, o) :: r =>
      if (t =? 5) || (t =? 6) || (t =? 7) then
        let currloc := page start o in
        if currloc =? currpage then count_relocs r currpage (cnt1 + 1) cnt2
        else count_relocs r currloc ((if Z.odd cnt1 then cnt1 + 1 else cnt1) + 1) (cnt2 + 1)
      else count_relocs r currpage cnt1 cnt2
  end.

(** The second loop: the blocks finished, and the one at baserel. *)
Record wst := { w_done : list Z; w_va : Z; w_size : Z; w_rel : list Z }.

Definition block (va size : Z) (rel : list Z) : list Z :=
  le_bytes 4 va ++ le_bytes 4 size ++ flat_map (le_bytes 2) rel.

Definition put_reloc (w : wst) (e : Z) : wst :=
  {| w_done := w_done w; w_va := w_va w; w_size := w_size w + 2; w_rel := w_rel w ++ [e] |}.

Definition open_block (w : wst) (va : Z) : wst :=
  if w_va w =? 2 ^ 32 - 1 then {| w_done := w_done w; w_va := va; w_size := 8; w_rel := w_rel w |}
  else
    let w := if Z.land (w_size w) 2 =? 0 then w else put_reloc w 0 in
    {| w_done := w_done w ++ block (w_va w) (w_size w) (w_rel w);
       w_va := va; w_size := 8; w_rel := [] |}.

Fixpoint write_relocs (l : list (Z * Z * Z)) (w : wst) : wst :=
  match l with
  | [] => w
  | (start, t, o) :: r =>
      let ft := reloc_type t in
      if ft =? 0 then write_relocs r w
      else
        let currloc := page start o in
        let w := if currloc =? w_va w then w else open_block w currloc in
        write_relocs r (put_reloc w (Z.lor (Z.land o 0xfff) (Z.shiftl ft 12)))
  end.

(** max_offset of the section and its contents. *)
Definition base_relocs (l : list placed) : Z * list Z :=
  let '(cnt1, cnt2) := count_relocs (fixups l) (2 ^ 32 - 1) 0 0 in
  let w := write_relocs (fixups l) {| w_done := []; w_va := 2 ^ 32 - 1; w_size := 0; w_rel := [] |} in
  (cnt2 * 8 + cnt1 * 2,
   if w_va w =? 2 ^ 32 - 1 then w_done w else w_done w ++ block (w_va w) (w_size w) (w_rel w)).

(** ** The section table: bin.c 1336-1380 *)

(** pe_get_characteristics, bin.c 1083-1113 *)
Definition characteristics (s : seg) : Z :=
  let r :=
    if p_type s =? T_CODE then 0x60000020
    else if p_type s =? T_BSS then 0xC0000080
    else if p_stack s && (p_written s =? 0) then 0xC0000080
    else if p_ro s then 0x40000040
    else if p_const s then 0x40000040
    else 0xC0000040 in
  if p_chars s =? 0 then r
  else Z.lor (Z.land r 0x1FFFFFF) (Z.shiftl (Z.land (p_chars s) 0xFE) 24).

Record sect := { t_name : list Z; t_vsize : Z; t_va : Z; t_raw : Z; t_ptr : Z; t_chars : Z }.
Definition no_sect : sect := {| t_name := []; t_vsize := 0; t_va := 0; t_raw := 0; t_ptr := 0; t_chars := 0 |}.

(** The variables of the loop. *)
Record fst_ := {
  s_done : list sect;     (* the entries before "section" *)
  s_cur : sect;           (* *section *)
  s_i : Z;
  s_hdr : Z; s_cb : Z; s_cs : Z; s_db : Z; s_ds : Z   (* sizehdr, codebase, codesize, database, datasize *)
}.

(** A new section. *)
Definition open_sect (q : placed) (f : fst_) : fst_ :=
  let c := s_cur f in
  {| s_done := s_done f;
     s_cur := {| t_name := firstn 8 (p_title (q_s q)); t_vsize := t_vsize c; t_va := q_rva q; t_raw := t_raw c;
                 t_ptr := if p_type (q_s q) =? T_BSS then t_ptr c else q_fo q; t_chars := t_chars c |};
     s_i := idx (q_s q);
     s_hdr := if s_hdr f =? 0 then q_fo q else s_hdr f;
     s_cb := s_cb f; s_cs := s_cs f; s_db := s_db f; s_ds := s_ds f |}.

Definition add_seg (q : placed) (f : fst_) : fst_ :=
  let c := s_cur f in
  {| s_done := s_done f;
     s_cur := {| t_name := t_name c; t_vsize := wrap 32 (p_size (q_s q) + (q_rva q - t_va c)); t_va := t_va c;
                 t_raw := if p_type (q_s q) =? T_BSS then t_raw c else wrap 32 (t_raw c + p_size (q_s q));
                 t_ptr := t_ptr c; t_chars := Z.lor (t_chars c) (characteristics (q_s q)) |};
     s_i := s_i f; s_hdr := s_hdr f; s_cb := s_cb f; s_cs := s_cs f; s_db := s_db f; s_ds := s_ds f |}.

(** IMAGE_SCN_MEM_EXECUTE, IMAGE_SCN_CNT_INITIALIZED_DATA *)
Definition close_sect (rawpage : Z) (f : fst_) : fst_ :=
  let c := s_cur f in
  let raw := round_up (t_raw c) rawpage in
  let x := negb (Z.land (t_chars c) 0x20000000 =? 0) in
  let d := negb (Z.land (t_chars c) 0x40 =? 0) in
  {| s_done := s_done f;
     s_cur := {| t_name := t_name c; t_vsize := t_vsize c; t_va := t_va c; t_raw := raw; t_ptr := t_ptr c; t_chars := t_chars c |};
     s_i := s_i f; s_hdr := s_hdr f;
     s_cb := if x && (s_cb f =? 0) then t_va c else s_cb f;
     s_cs := if x then wrap 32 (s_cs f + raw) else s_cs f;
     s_db := if d && (s_db f =? 0) then t_va c else s_db f;
     s_ds := if d then wrap 32 (s_ds f + raw) else s_ds f |}.

(** section++ *)
Definition next_sect (f : fst_) : fst_ :=
  {| s_done := s_done f ++ [s_cur f]; s_cur := no_sect; s_i := s_i f; s_hdr := s_hdr f;
     s_cb := s_cb f; s_cs := s_cs f; s_db := s_db f; s_ds := s_ds f |}.

Fixpoint fill (rawpage : Z) (l : list placed) (f : fst_) : fst_ :=
  match l with
  | [] => f
  | q :: r =>
      if (p_type (q_s q) =? T_HDR) || (p_size (q_s q) =? 0) then fill rawpage r f
      else
        let f := if idx (q_s q) =? s_i f then f else open_sect q f in
        let f := add_seg q f in
        let f := match r with
                 | [] => close_sect rawpage f
                 | n :: _ => if idx (q_s n) =? s_i f then f else next_sect (close_sect rawpage f)
                 end in
        fill rawpage r f
  end.

(** The number of entries of the table, bin.c 841-859: types with a segment
    that is not empty. *)
Definition objects (l : list seg) : Z :=
  zlen (filter (fun t => existsb (fun s => (p_type s =? t) && negb (p_size s =? 0)) l)
               [T_CODE; T_CDATA; T_DATA; T_BSS; T_RSRC; T_RELOC]).

(** ** pe_set_values *)

Definition set_reloc (size : Z) (b : list Z) (q : placed) : placed :=
  if p_type (q_s q) =? T_RELOC then
    let s := q_s q in
    {| q_s := {| p_name := p_name s; p_title := p_title s; p_type := p_type s; p_ro := p_ro s;
                 p_const := p_const s; p_stack := p_stack s; p_chars := p_chars s;
                 p_align := p_align s; p_loc := p_loc s; p_size := size;
                 p_written := p_written s; p_buf := Some b; p_fix := p_fix s |};
       q_rva := q_rva q; q_fo := q_fo q; q_loc := q_loc q |}
  else q.

Record values := {
  v_segs : list placed;
  v_table : list sect;         (* the entries up to "section" *)
  v_number : Z;                (* NumberOfSections *)
  v_image : Z; v_headers : Z;  (* SizeOfImage, SizeOfHeaders *)
  v_cb : Z; v_cs : Z; v_db : Z; v_ds : Z
}.

(** [relocs]: IMAGE_FILE_RELOCS_STRIPPED is not set. *)
Definition pe_set_values (relocs : bool) (filealign malign : Z) (segs : list seg) : option values :=
  let segs := map (fun s => set_type s (retype s)) segs in
  let number := objects segs + (if relocs then 1 else 0) in
  match SortSegments (fun a b => lname_gt (sort_key a) (sort_key b)) (segs ++ (if relocs then [reloc_seg] else [])) with
  | None => None
  | Some l =>
      let '(pl, rva) := place (get_bit 32 filealign) malign true (-1) 0 0 l in
      let '(pl, rva) :=
        if relocs then
          let '(size, b) := base_relocs pl in
          (map (set_reloc size b) pl,
           match find (fun q => p_type (q_s q) =? T_RELOC) pl with
           | Some q => wrap 32 (q_rva q + size)
           | None => rva
           end)
        else (pl, rva) in
      let f := fill filealign pl {| s_done := []; s_cur := no_sect; s_i := -1; s_hdr := 0; s_cb := 0; s_cs := 0; s_db := 0; s_ds := 0 |} in
      Some {| v_segs := pl; v_table := s_done f ++ [s_cur f]; v_number := number;
              v_image := round_up rva malign; v_headers := s_hdr f;
              v_cb := s_cb f; v_cs := s_cs f; v_db := s_db f; v_ds := s_ds f |}
  end.

(** AddressOfEntryPoint, bin.c 1383-1391; [k] is the place in the list of the
    segment of the start label. *)
Definition entry_point (v : values) (k : nat) (offset : Z) : option Z :=
  match nth_error (v_segs v) k with
  | Some q => Some (wrap 32 (q_rva q + offset))
  | None => None
  end.

(** ** The file: bin.c 1722-1803 *)

Fixpoint write_segs (l : list placed) (file : list Z) : res (list Z) :=
  match l with
  | [] => Ok file
  | q :: r =>
      let s := q_s q in
      let size := if p_type s =? T_BSS then 0 else wrap 32 (p_size s - q_loc q) in
      let size := if (p_written s =? 0) && negb (existsb (fun d => negb (p_written (q_s d) =? 0)) r) then 0 else size in
      match p_buf s with
      | Some b =>
          if size =? 0 then write_segs r file
          else if size >? zlen b then UB
          else write_segs r (firstn (Z.to_nat (q_fo q)) file ++ repeat 0 (Z.to_nat (q_fo q - zlen file))
                             ++ firstn (Z.to_nat size) b ++ skipn (Z.to_nat (q_fo q + size)) file)
      | None => write_segs r file
      end
  end.

(** The file is filled up to the file alignment (ftell is the end of the file
    if the last write was at its end). *)
Definition write_file (filealign : Z) (v : values) : res (list Z) :=
  bindr (write_segs (v_segs v) []) (fun file =>
  let rest := Z.land (zlen file) (filealign - 1) in
  Ok (file ++ (if rest =? 0 then [] else repeat 0 (Z.to_nat (filealign - rest))))).
