(** Model of elf.c: ELF32 and ELF64 object files - header, section header table,
    section contents, .shstrtab, .symtab, .strtab and relocations.

    The functions for 32 and 64 bits (set_symtab32/64, elf_write_section_table32/64,
    write_relocs32/64) differ in the layout of the records only; they are one
    function with parameter [w] (defOfssize == USE64) here.  Simplifications:
    symbols and segments are numbered in the order of the symbol array resp. of
    SymTables[TAB_SEG], seg_idx of segment k is k + 1 and num_segs their number
    (segment.c); the decorated name (Mangle, see C34) is part of the symbol;
    an error in write_relocs ends the assembly. ELFALIAS, ADDSTARTLABEL and
    OWELFIMPORT are 0, GNURELOCS is 1. *)
From Verif Require Import Base.


(** H/globals.h:598-610 *)
Definition SEGTYPE_CODE := 1. Definition SEGTYPE_BSS := 3.
(** H/globals.h:71, H/symbols.h:367 *)
Definition MAX_ID_LEN := 247. Definition MAX_SEGALIGNMENT := 0xff.
(** H/fixup.h:36-55 *)
Definition FIX_RELOFF8 := 1.  Definition FIX_RELOFF16 := 2. Definition FIX_RELOFF32 := 3. Definition FIX_OFF8 := 4. Definition FIX_OFF16 := 5.
Definition FIX_OFF32 := 6.    Definition FIX_OFF64 := 7.    Definition FIX_OFF32_IMGREL := 12.
Definition FIX_GOTPCREL64 := 14. Definition FIX_GOT64 := 15. Definition FIX_PLT64 := 16.
(** H/elfspec.h:193-202, 231-233 *)
Definition SHT_PROGBITS := 1. Definition SHT_SYMTAB := 2. Definition SHT_STRTAB := 3. Definition SHT_RELA := 4. Definition SHT_NOTE := 7.
Definition SHT_NOBITS := 8.   Definition SHT_REL := 9.
Definition SHF_WRITE := 1.    Definition SHF_ALLOC := 2.    Definition SHF_EXECINSTR := 4.
(** H/elfspec.h:155-160, 277-291 *)
Definition SHN_UNDEF := 0.    Definition SHN_ABS := 0xfff1. Definition SHN_COMMON := 0xfff2.
Definition STB_LOCAL := 0.    Definition STB_GLOBAL := 1.   Definition STB_WEAK := 2.
Definition STT_NOTYPE := 0.   Definition STT_OBJECT := 1.   Definition STT_FUNC := 2. Definition STT_SECTION := 3. Definition STT_FILE := 4. Definition STT_COMMON := 5.

(** fix->sym: NULL, a symbol, a segment, or an assembly time variable (with
    fix->segment_var, fixup.c:279-285) *)
Inductive ref := RNone | RSym (n : nat) | RSec (k : nat) | RVar (k : option nat).
Record fixup := { f_type : Z; f_locofs : Z; f_addbytes : Z; f_ref : ref }.
(** dsym/seginfo; [s_const]: the class is CONST; [s_max]: max_offset *)
Record section := {
  s_name : list Z; s_alias : option (list Z); s_info : bool; s_type : Z; s_readonly : bool; s_const : bool; s_align : Z;
  s_max : Z; s_start : Z; s_buf : option (list Z); s_fix : list fixup }.
Inductive state := Internal | External | Other.
(** struct asym *)
Record symbol := {
  y_name : list Z; y_state : state; y_seg : option nat; y_public : bool; y_comm : bool; y_weak : bool; y_altname : bool;
  y_offset : Z; y_total : Z; y_included : bool }.
Definition no_symbol : symbol :=
  {| y_name := []; y_state := Other; y_seg := None; y_public := false; y_comm := false; y_weak := false; y_altname := false;
     y_offset := 0; y_total := 0; y_included := false |}.
(** [m_path]: CurrFName[ASM] *)
Record module := {
  m_64 : bool; m_osabi : Z; m_path : list Z; m_secs : list section; m_syms : list symbol; m_ext : list nat; m_pub : list nat }.
Definition sym (m : module) (n : nat) : symbol := nth n (m_syms m) no_symbol.

(** * Section names *)
(** elf.c:134-139: src, CSF_GRPCHK, dst *)
Definition cst : list (list Z * bool * list Z) :=
  [([95; 84; 69; 88; 84], true, [46; 116; 101; 120; 116]);                     (* _TEXT  .text *)
   ([95; 68; 65; 84; 65], true, [46; 100; 97; 116; 97]);                       (* _DATA  .data *)
   ([67; 79; 78; 83; 84], true, [46; 114; 111; 100; 97; 116; 97]);             (* CONST  .rodata *)
   ([95; 66; 83; 83], false, [46; 98; 115; 115])].                             (* _BSS   .bss *)
(** memcmp( name, src, len ) == 0; the rest of the name *)
Fixpoint strip (src name : list Z) : option (list Z) :=
  match src, name with
  | [], r => Some r
  | x :: s, y :: n => if x =? y then strip s n else None
  | _, [] => None
  end.
(** elf.c:145-163 ElfConvertSectionName; the buffer has MAX_ID_LEN+1 bytes (elf.c:673) *)
Fixpoint convert (t : list (list Z * bool * list Z)) (name : list Z) : res (list Z) :=
  match t with
  | [] => Ok name
  | (src, grpchk, dst) :: t' =>
      match strip src name with
      | Some [] => Ok dst
      | Some (c :: r) =>
          if grpchk && (c =? 36) then (if MAX_ID_LEN <? zlen (dst ++ c :: r) then UB else Ok (dst ++ c :: r)) else convert t' name
      | None => convert t' name
      end
  end.
Definition section_name (s : section) : res (list Z) := match s_alias s with Some a => Ok a | None => convert cst (s_name s) end.
Fixpoint section_names (ss : list section) : res (list (list Z)) :=
  match ss with [] => Ok [] | s :: ss => bindr (section_name s) (fun n => bindr (section_names ss) (fun ns => Ok (n :: ns))) end.

Definition has_fixups (s : section) : bool := match s_fix s with [] => false | _ => true end.
(** elf.c:86-90, 168-180 *)
Definition internal_names : list (list Z) :=
  [[46; 115; 104; 115; 116; 114; 116; 97; 98];   (* .shstrtab *)
   [46; 115; 121; 109; 116; 97; 98];             (* .symtab *)
   [46; 115; 116; 114; 116; 97; 98]].            (* .strtab *)
Definition get_num_reloc_sections (ss : list section) : Z := zlen (filter has_fixups ss).
Definition rel_prefix (w : bool) : list Z := if w then [46; 114; 101; 108; 97] else [46; 114; 101; 108]. (* .rela .rel *)

(** strcpy *)
Definition asciiz (s : list Z) : list Z := s ++ [0].
(** elf.c:664-735 set_shstrtab_values: size and contents. Writing behind the
    allocated buffer is UB. *)
Definition shstr_size (w : bool) (sn : list (section * list Z)) : Z :=
  fold_left (fun size '(s, n) =>
    let size := size + (zlen n + 1) in
    if has_fixups s then size + (zlen n + (zlen (rel_prefix w) + 1)) else size) sn 1
  + fold_left (fun size n => size + (zlen n + 1)) internal_names 0.
Definition shstr_data (w : bool) (sn : list (section * list Z)) : list Z :=
  [0] ++ flat_map (fun '(s, n) => asciiz n) sn ++ flat_map asciiz internal_names
      ++ flat_map (fun '(s, n) => if has_fixups s then asciiz (rel_prefix w ++ n) else []) sn.
Definition fill (size : Z) (d : list Z) : res (list Z) :=
  if zlen d <=? size then Ok (d ++ repeat 0 (Z.to_nat (size - zlen d))) else UB.
Definition set_shstrtab_values (w : bool) (sn : list (section * list Z)) : res (list Z) :=
  fill (wrap 32 (shstr_size w sn)) (shstr_data w sn).

(** * The symbol table *)
(** uint_32 resp. 64 bit fields *)
Definition u32 (v : Z) : list Z := le_bytes 4 v.
Definition u16 (v : Z) : list Z := le_bytes 2 v.
Definition u8 (v : Z) : list Z := le_bytes 1 v.
Definition uw (w : bool) (v : Z) : list Z := if w then le_bytes 8 v else le_bytes 4 v.
Record elfsym := { st_name : Z; st_info : Z; st_shndx : Z; st_value : Z }.
(** H/elfspec.h:246-262; st_size and st_other are 0 *)
Definition sym_bytes (w : bool) (e : elfsym) : list Z :=
  if w then u32 (st_name e) ++ u8 (st_info e) ++ u8 0 ++ u16 (st_shndx e) ++ uw true (st_value e) ++ uw true 0
  else u32 (st_name e) ++ u32 (st_value e) ++ u32 0 ++ u8 (st_info e) ++ u8 0 ++ u16 (st_shndx e).
Definition sizeof_sym (w : bool) : Z := if w then 24 else 16.
(** H/elfspec.h:268 *)
Definition ST_INFO (b t : Z) : Z := Z.shiftl b 4 + Z.land t 0xf.
(** elf.c:1283-1290: the path is stripped *)
Fixpoint srcname (acc path : list Z) : list Z :=
  match path with [] => acc | c :: r => if (c =? 47) || (c =? 92) then srcname r r else srcname acc r end.
(** segment.c:476-483 *)
Definition GetSegIdx (k : nat) : Z := Z.of_nat k + 1.
Definition sec_type (m : module) (k : nat) : Z := match nth_error (m_secs m) k with Some s => s_type s | None => 0 end.
(** elf.c:223-227, 309-313 *)
Definition stt (m : module) (y : symbol) : Z :=
  match y_seg y with Some k => if sec_type m k =? SEGTYPE_CODE then STT_FUNC else STT_OBJECT | None => STT_FUNC end.
(** elf.c:219-247, 402-430 *)
Fixpoint local_entries (m : module) (strsize : Z) (l : list nat) : list elfsym * Z :=
  match l with
  | [] => ([], strsize)
  | n :: l =>
      let y := sym m n in
      let e := {| st_name := strsize; st_info := ST_INFO STB_LOCAL (stt m y);
                  st_shndx := match y_seg y with Some k => GetSegIdx k | None => SHN_ABS end; st_value := y_offset y |} in
      let '(es, z) := local_entries m (wrap 32 (strsize + (zlen (y_name y) + 1))) l in (e :: es, z)
  end.
(** elf.c:249-278, 432-461 *)
Definition skipped (y : symbol) : bool := negb (y_comm y) && y_weak y.
Definition IsWeak (y : symbol) : bool := negb (y_comm y) && y_altname y.
Fixpoint ext_entries (m : module) (strsize : Z) (l : list nat) : list elfsym * Z :=
  match l with
  | [] => ([], strsize)
  | n :: l =>
      let y := sym m n in
      if skipped y then ext_entries m strsize l
      else
        let e := if y_comm y then {| st_name := strsize; st_info := ST_INFO STB_GLOBAL STT_COMMON; st_shndx := SHN_COMMON; st_value := y_total y |}
                 else {| st_name := strsize; st_info := ST_INFO (if IsWeak y then STB_WEAK else STB_GLOBAL) STT_NOTYPE; st_shndx := SHN_UNDEF; st_value := y_offset y |} in
        let '(es, z) := ext_entries m (wrap 32 (strsize + (zlen (y_name y) + 1))) l in (e :: es, z)
  end.
(** elf.c:303-337, 485-520 *)
Fixpoint pub_entries (m : module) (strsize : Z) (l : list nat) : list elfsym * Z :=
  match l with
  | [] => ([], strsize)
  | n :: l =>
      let y := sym m n in
      let e := {| st_name := strsize; st_info := ST_INFO STB_GLOBAL (stt m y);
                  st_shndx := match y_state y with
                              | Internal => match y_seg y with Some k => GetSegIdx k | None => SHN_ABS end
                              | _ => SHN_UNDEF end;
                  st_value := y_offset y |} in
      let '(es, z) := pub_entries m (wrap 32 (strsize + (zlen (y_name y) + 1))) l in (e :: es, z)
  end.
(** elf.c:197-350, 379-540 set_symtab32/64: the entries, and the size of .strtab *)
Definition set_symtab (m : module) (locals : list nat) : list elfsym * Z :=
  let file := {| st_name := 1; st_info := ST_INFO STB_LOCAL STT_FILE; st_shndx := SHN_ABS; st_value := 0 |} in
  let strsize := wrap 32 (1 + (zlen (srcname (m_path m) (m_path m)) + 1)) in
  let secs := map (fun k => {| st_name := 0; st_info := ST_INFO STB_LOCAL STT_SECTION; st_shndx := GetSegIdx k; st_value := 0 |}) (seq 0 (length (m_secs m))) in
  let '(l1, z) := local_entries m strsize locals in
  let '(l2, z) := ext_entries m z (m_ext m) in
  let '(l3, z) := pub_entries m z (m_pub m) in
  ({| st_name := 0; st_info := 0; st_shndx := 0; st_value := 0 |} :: file :: secs ++ l1 ++ l2 ++ l3, z).
(** elf.c:629-656 *)
Definition strtab_data (m : module) (locals : list nat) : list Z :=
  [0] ++ asciiz (srcname (m_path m) (m_path m)) ++ flat_map (fun n => asciiz (y_name (sym m n))) locals
      ++ flat_map (fun n => if skipped (sym m n) then [] else asciiz (y_name (sym m n))) (m_ext m)
      ++ flat_map (fun n => asciiz (y_name (sym m n))) (m_pub m).

(** elf.c:545-600: ext_idx of the symbols, the local symbols. ext_idx is 0 if it
    was never set. *)
Record symtab := { symindex : Z; ext_idx : nat -> Z; included : nat -> bool; locals : list nat }.
Definition set_idx (t : symtab) (n : nat) : symtab :=
  {| symindex := wrap 32 (symindex t + 1); ext_idx := fun k => if Nat.eqb k n then symindex t else ext_idx t k; included := included t; locals := locals t |}.
Definition add_local (t : symtab) (n : nat) : symtab :=
  let t := set_idx t n in
  {| symindex := symindex t; ext_idx := ext_idx t; included := fun k => if Nat.eqb k n then true else included t k; locals := locals t ++ [n] |}.
Definition is_internal (y : symbol) : bool := match y_state y with Internal => true | _ => false end.
(** fix->sym == NULL is dereferenced *)
Definition scan_fixup (m : module) (t : symtab) (f : fixup) : res symtab :=
  match f_ref f with
  | RNone => UB
  | RSym n => if is_internal (sym m n) && negb (included t n) && negb (y_public (sym m n)) then Ok (add_local t n) else Ok t
  | _ => Ok t
  end.
Fixpoint scan_fixups (m : module) (t : symtab) (l : list fixup) : res symtab :=
  match l with [] => Ok t | f :: l => bindr (scan_fixup m t f) (fun t => scan_fixups m t l) end.
Definition sec_idx (k : nat) : Z := wrap 32 (2 + Z.of_nat k).
Definition count_ext (m : module) (t : symtab) (n : nat) : symtab := if skipped (sym m n) then t else set_idx t n.
(** returns start_globals also *)
Definition set_indices (m : module) : res (symtab * Z) :=
  bindr (scan_fixups m {| symindex := wrap 32 (2 + zlen (m_secs m)); ext_idx := fun _ => 0; included := fun n => y_included (sym m n); locals := [] |}
                     (flat_map s_fix (m_secs m))) (fun t =>
  let start_globals := symindex t in
  let t := fold_left (count_ext m) (m_ext m) t in
  let t := fold_left set_idx (m_pub m) t in
  Ok (t, start_globals)).
(** elf.c:523-660 set_symtab_values: the contents of .symtab and .strtab *)
Definition set_symtab_values (m : module) : res (symtab * Z * list Z * list Z) :=
  bindr (set_indices m) (fun '(t, start_globals) =>
  let '(es, strsize) := set_symtab m (locals t) in
  bindr (fill (wrap 32 (symindex t * sizeof_sym (m_64 m))) (flat_map (sym_bytes (m_64 m)) es)) (fun symdata =>
  bindr (fill strsize (strtab_data m (locals t))) (fun strdata =>
  Ok (t, start_globals, symdata, strdata)))).

(** * The section header table *)
Record shdr := {
  sh_name : Z; sh_type : Z; sh_flags : Z; sh_offset : Z; sh_size : Z; sh_link : Z; sh_info : Z; sh_addralign : Z; sh_entsize : Z }.
(** H/elfspec.h:165-189; sh_addr is 0 *)
Definition shdr_bytes (w : bool) (h : shdr) : list Z :=
  u32 (sh_name h) ++ u32 (sh_type h) ++ uw w (sh_flags h) ++ uw w 0 ++ uw w (sh_offset h) ++ uw w (sh_size h) ++
  u32 (sh_link h) ++ u32 (sh_info h) ++ uw w (sh_addralign h) ++ uw w (sh_entsize h).
Definition sizeof_shdr (w : bool) : Z := if w then 64 else 40.
Definition sizeof_rel (w : bool) : Z := if w then 24 else 8.
Definition null_shdr : shdr :=
  {| sh_name := 0; sh_type := 0; sh_flags := 0; sh_offset := 0; sh_size := 0; sh_link := 0; sh_info := 0; sh_addralign := 0; sh_entsize := 0 |}.
(** strlen *)
Fixpoint strlen (l : list Z) : Z := match l with [] => 0 | x :: r => if x =? 0 then 0 else 1 + strlen r end.
(** "p += strlen( p ) + 1" in the section names *)
Definition next_name (names : list Z) (p : Z) : Z := p + (strlen (skipn (Z.to_nat p) names) + 1).
Definition align16 (fileoffset : Z) : Z := Z.land (wrap 32 (fileoffset + 0xF)) 0xFFFFFFF0.
(** elf.c:746-752 *)
Definition Get_Alignment (s : section) : Z := if s_align s =? MAX_SEGALIGNMENT then 0 else wrap 32 (Z.shiftl 1 (s_align s)).
(** elf.c:807-821 *)
Definition type_flags (s : section) : Z * Z :=
  if s_info s then (SHT_NOTE, 0)
  else (if negb (s_type s =? SEGTYPE_BSS) then SHT_PROGBITS else SHT_NOBITS,
        if s_type s =? SEGTYPE_CODE then Z.lor SHF_EXECINSTR SHF_ALLOC
        else if s_readonly s then SHF_ALLOC
        else if s_const s then SHF_ALLOC
        else Z.lor SHF_WRITE SHF_ALLOC).
(** elf.c:801-858, 965-1010: headers, p, fileoffset *)
Fixpoint prog_headers (names : list Z) (p fileoffset : Z) (ss : list section) : list shdr * Z * Z :=
  match ss with
  | [] => ([], p, fileoffset)
  | s :: ss =>
      let '(ty, fl) := type_flags s in
      let h := {| sh_name := p; sh_type := ty; sh_flags := fl; sh_offset := fileoffset; sh_size := s_max s; sh_link := 0; sh_info := 0;
                  sh_addralign := Get_Alignment s; sh_entsize := 0 |} in
      let fo := if negb (ty =? SHT_NOBITS) then align16 (wrap 32 (fileoffset + s_max s)) else fileoffset in
      let '(hs, p, fo) := prog_headers names (next_name names p) fo ss in
      (h :: hs, p, fo)
  end.
(** elf.c:863-890: [l]: index and size of the internal sections *)
Fixpoint int_headers (w : bool) (num_segs start_globals : Z) (names : list Z) (p fileoffset : Z) (l : list (Z * Z)) : list shdr * Z * Z :=
  match l with
  | [] => ([], p, fileoffset)
  | (i, size) :: l =>
      let h := {| sh_name := p; sh_type := if i =? 1 then SHT_SYMTAB else SHT_STRTAB; sh_flags := 0; sh_offset := fileoffset; sh_size := size;
                  sh_link := if i =? 1 then 1 + num_segs + 2 else 0; sh_info := if i =? 1 then start_globals else 0;
                  sh_addralign := if i =? 1 then 4 else 1; sh_entsize := if i =? 1 then sizeof_sym w else 0 |} in
      let '(hs, p, fo) := int_headers w num_segs start_globals names (next_name names p) (align16 (wrap 32 (fileoffset + size))) l in
      (h :: hs, p, fo)
  end.
(** elf.c:738-745 get_relocation_count *)
Definition num_relocs (s : section) : Z := zlen (s_fix s).
(** elf.c:893-925; [k]: number of the segment *)
Fixpoint rel_headers (w : bool) (num_segs : Z) (names : list Z) (p fileoffset : Z) (k : nat) (ss : list section) : list shdr * Z * Z :=
  match ss with
  | [] => ([], p, fileoffset)
  | s :: ss =>
      if has_fixups s then
        let h := {| sh_name := p; sh_type := if w then SHT_RELA else SHT_REL; sh_flags := 0; sh_offset := fileoffset; sh_size := num_relocs s * sizeof_rel w;
                    sh_link := 1 + num_segs + 1; sh_info := GetSegIdx k; sh_addralign := 4; sh_entsize := sizeof_rel w |} in
        let '(hs, p, fo) := rel_headers w num_segs names (next_name names p) (align16 (wrap 32 (fileoffset + num_relocs s * sizeof_rel w))) (S k) ss in
        (h :: hs, p, fo)
      else rel_headers w num_segs names p fileoffset (S k) ss
  end.

(** * Relocations *)
(** elf.c:937-960 *)
Definition reloc_type (w : bool) (t : Z) : option Z :=
  if w then
    if t =? FIX_RELOFF32 then Some 2 else if t =? FIX_OFF64 then Some 1 else if t =? FIX_GOT64 then Some 6 else if t =? FIX_PLT64 then Some 7
    else if t =? FIX_OFF32_IMGREL then Some 8 else if t =? FIX_GOTPCREL64 then Some 9 else if t =? FIX_OFF32 then Some 10 else if t =? FIX_OFF16 then Some 12
    else if t =? FIX_RELOFF16 then Some 13 else if t =? FIX_OFF8 then Some 14 else if t =? FIX_RELOFF8 then Some 15 else None
  else
    if t =? FIX_OFF32 then Some 1 else if t =? FIX_RELOFF32 then Some 2 else if t =? FIX_OFF32_IMGREL then Some 8 else if t =? FIX_OFF16 then Some 20
    else if t =? FIX_RELOFF16 then Some 21 else if t =? FIX_OFF8 then Some 22 else if t =? FIX_RELOFF8 then Some 23 else None.
(** fixup->sym->ext_idx *)
Definition index_of (t : symtab) (r : ref) : res Z :=
  match r with RSym n => Ok (ext_idx t n) | RSec k | RVar (Some k) => Ok (sec_idx k) | RNone | RVar None => UB end.
(** elf.c:928-978, 1123-1208: r_offset, r_info, r_addend *)
Definition write_reloc (w : bool) (t : symtab) (f : fixup) : res (list Z) :=
  bindr (index_of t (f_ref f)) (fun i =>
  match reloc_type w (f_type f) with
  | None => Err
  | Some ty => Ok (if w then uw true (f_locofs f) ++ uw true (Z.shiftl i 32 + ty) ++ uw true (- f_addbytes f)
                   else u32 (f_locofs f) ++ u32 (wrap 32 (Z.shiftl i 8) + ty))
  end).
Fixpoint write_relocs (w : bool) (t : symtab) (l : list fixup) : res (list Z) :=
  match l with [] => Ok [] | f :: l => bindr (write_reloc w t f) (fun b => bindr (write_relocs w t l) (fun r => Ok (b ++ r))) end.

(** * The file *)
(** fseek and fwrite *)
Definition put (f : list Z) (pos : Z) (d : list Z) : list Z :=
  match d with
  | [] => f
  | _ => let f := f ++ repeat 0 (Z.to_nat (pos - zlen f)) in firstn (Z.to_nat pos) f ++ d ++ skipn (Z.to_nat (pos + zlen d)) f
  end.
(** elf.c:1227-1239: reading behind the code buffer is UB *)
Fixpoint write_data (f : list Z) (l : list (section * shdr)) : res (list Z) :=
  match l with
  | [] => Ok f
  | (s, h) :: l =>
      let size := wrap 32 (s_max s - s_start s) in
      if negb (s_type s =? SEGTYPE_BSS) && negb (size =? 0) then
        match s_buf s with
        | Some b => if size <=? zlen b then write_data (put f (wrap 32 (sh_offset h + s_start s)) (firstn (Z.to_nat size) b)) l else UB
        | None => UB
        end
      else write_data f l
  end.
(** elf.c:1241-1250 *)
Fixpoint write_internal (f : list Z) (l : list (list Z * shdr)) : list Z :=
  match l with [] => f | (d, h) :: l => write_internal (put f (sh_offset h) d) l end.
(** elf.c:1252-1266 *)
Fixpoint write_all_relocs (w : bool) (t : symtab) (f : list Z) (l : list (section * shdr)) : res (list Z) :=
  match l with [] => Ok f | (s, h) :: l => bindr (write_relocs w t (s_fix s)) (fun d => write_all_relocs w t (put f (sh_offset h) d) l) end.

(** elf.c:1294-1365; H/elfspec.h:39-71 *)
Definition ehdr_bytes (w : bool) (osabi shnum shstrndx : Z) : list Z :=
  [0x7f; 0x45; 0x4c; 0x46; if w then 2 else 1; 1; 1] ++ u8 osabi ++ [0; 0; 0; 0; 0; 0; 0; 0] ++
  u16 1 ++ u16 (if w then 62 else 3) ++ u32 1 ++ uw w 0 ++ uw w 0 ++ uw w (if w then 64 else 52) ++ u32 0 ++
  u16 (if w then 64 else 52) ++ u16 0 ++ u16 0 ++ u16 (sizeof_shdr w) ++ u16 shnum ++ u16 shstrndx.
Definition sizeof_ehdr (w : bool) : Z := if w then 64 else 52.
(** elf.c:1272-1370 elf_write_module *)
Definition elf_write_module (m : module) : res (list Z) :=
  let w := m_64 m in
  let ss := m_secs m in
  let num_segs := zlen ss in
  let shnum := wrap 16 (1 + num_segs + 3 + get_num_reloc_sections ss) in
  let f := ehdr_bytes w (m_osabi m) shnum (wrap 16 (1 + num_segs)) in
  let fileoffset := align16 (sizeof_ehdr w + shnum * sizeof_shdr w) in
  bindr (section_names ss) (fun ns =>
  bindr (set_shstrtab_values w (combine ss ns)) (fun names =>
  let '(h1, p, fo) := prog_headers names 1 fileoffset ss in
  bindr (set_symtab_values m) (fun '(t, start_globals, symdata, strdata) =>
  let '(h2, p, fo) := int_headers w num_segs start_globals names p fo [(0, zlen names); (1, zlen symdata); (2, zlen strdata)] in
  let '(h3, p, fo) := rel_headers w num_segs names p fo 0 ss in
  let f := f ++ flat_map (shdr_bytes w) (null_shdr :: h1 ++ h2 ++ h3) in
  bindr (write_data f (combine ss h1)) (fun f =>
  let f := write_internal f (combine [names; symdata; strdata] h2) in
  write_all_relocs w t f (combine (filter has_fixups ss) h3))))).

