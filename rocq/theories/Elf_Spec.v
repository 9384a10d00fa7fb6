(** ELF relocatable files as the System V ABI reads them, and what a module asks for. *)
From Verif Require Import Base Elf_Model.

(** * Reading *)
Notation "' p <- a ;; b" := (match a with Some p => b | None => None end) (at level 90, p pattern, right associativity, only parsing).
Definition slice (i n : Z) (f : list Z) : option (list Z) :=
  if (0 <=? i) && (0 <=? n) && (i + n <=? zlen f) then Some (firstn (Z.to_nat n) (skipn (Z.to_nat i) f)) else None.
Definition field (i n : nat) (l : list Z) : Z := le_val (firstn n (skipn i l)).
(** up to the terminating zero *)
Fixpoint cstring (l : list Z) : option (list Z) :=
  match l with [] => None | x :: r => if x =? 0 then Some [] else match cstring r with Some s => Some (x :: s) | None => None end end.
(** string at an offset of a string table *)
Definition string_at (tab : list Z) (o : Z) : option (list Z) := if 0 <=? o then cstring (skipn (Z.to_nat o) tab) else None.
(** n records of a size *)
Fixpoint records (n : nat) (size : Z) (l : list Z) : option (list (list Z)) :=
  match n with
  | O => match l with [] => Some [] | _ => None end
  | S k => 'r <- slice 0 size l ;; 'rs <- records k size (skipn (Z.to_nat size) l) ;; Some (r :: rs)
  end.
(** a table of such records *)
Definition table (size : Z) (l : list Z) : option (list (list Z)) :=
  if (0 <? size) && (zlen l mod size =? 0) then records (Z.to_nat (zlen l / size)) size l else None.

(** section headers with name and contents; SHT_NULL and SHT_NOBITS have none *)
Record sec := {
  v_name : list Z; v_type : Z; v_flags : Z; v_addr : Z; v_offset : Z; v_size : Z; v_link : Z; v_info : Z; v_align : Z; v_entsize : Z;
  v_data : option (list Z) }.
Definition rd_sec (w : bool) (f : list Z) (shstr : option (list Z)) (h : list Z) : option sec :=
  let n := if w then 8%nat else 4%nat in
  let ofs := field (8 + 2 * n) n h in
  let size := field (8 + 3 * n) n h in
  let ty := field 4 4 h in
  'data <- (if (ty =? 0) || (ty =? 8) then Some None else 'b <- slice ofs size f ;; Some (Some b)) ;;
  'name <- (match shstr with Some t => string_at t (field 0 4 h) | None => Some [] end) ;;
  Some {| v_name := name; v_type := ty; v_flags := field 8 n h; v_addr := field (8 + n) n h; v_offset := ofs; v_size := size;
          v_link := field (8 + 4 * n) 4 h; v_info := field (12 + 4 * n) 4 h; v_align := field (16 + 4 * n) n h; v_entsize := field (16 + 5 * n) n h;
          v_data := data |}.
Fixpoint all {A B} (r : A -> option B) (l : list A) : option (list B) :=
  match l with [] => Some [] | a :: l => 'x <- r a ;; 'xs <- all r l ;; Some (x :: xs) end.
(** symbols *)
Record entry := { e_name : list Z; e_bind : Z; e_type : Z; e_other : Z; e_shndx : Z; e_value : Z; e_size : Z }.
Definition rd_sym (w : bool) (strtab : list Z) (b : list Z) : option entry :=
  'name <- string_at strtab (field 0 4 b) ;;
  let info := if w then field 4 1 b else field 12 1 b in
  Some {| e_name := name; e_bind := info / 16; e_type := info mod 16; e_other := if w then field 5 1 b else field 13 1 b;
          e_shndx := if w then field 6 2 b else field 14 2 b; e_value := if w then field 8 8 b else field 4 4 b; e_size := if w then field 16 8 b else field 8 4 b |}.
(** relocations: place, symbol, type, addend (RELA only) *)
Record reloc := { r_offset : Z; r_sym : Z; r_type : Z; r_addend : option Z }.
Definition rd_rel (w : bool) (b : list Z) : reloc :=
  if w then {| r_offset := field 0 8 b; r_sym := field 8 8 b / 2 ^ 32; r_type := field 8 8 b mod 2 ^ 32; r_addend := Some (swrap 64 (field 16 8 b)) |}
  else {| r_offset := field 0 4 b; r_sym := field 4 4 b / 2 ^ 8; r_type := field 4 4 b mod 2 ^ 8; r_addend := None |}.
(** the relocations of a section, the index of the section they apply to *)
Definition rd_rels (w : bool) (symtab : Z) (v : sec) : option (Z * list reloc) :=
  if (v_link v =? symtab) && (v_entsize v =? if w then 24 else 8) then
    'd <- v_data v ;; 'rs <- table (v_entsize v) d ;; Some (v_info v, map (rd_rel w) rs)
  else None.
Fixpoint find_index {A} (p : A -> bool) (l : list A) (i : Z) : option (Z * A) :=
  match l with [] => None | a :: l => if p a then Some (i, a) else find_index p l (i + 1) end.
Record object := {
  o_64 : bool; o_osabi : Z; o_machine : Z; o_table : Z * Z (* of the section headers: offset, size *);
  o_secs : list sec; o_shstrndx : Z; o_symtab : Z * sec (* index, section *); o_syms : list entry; o_rels : list (Z * list reloc) }.
Definition rd_object (f : list Z) : option object :=
  'id <- slice 0 16 f ;;
  if negb (field 0 4 id =? 0x464c457f) (* 7F "ELF" *) then None else
  let w := field 4 1 id =? 2 in
  if negb ((w || (field 4 1 id =? 1)) && (field 5 1 id =? 1) && (field 6 1 id =? 1)) then None else
  let hs := if w then 64 else 52 in
  'h <- slice 0 hs f ;;
  let n := if w then 8%nat else 4%nat in
  let i := (24 + 3 * n)%nat in (* of e_flags *)
  let shoff := field (24 + 2 * n) n h in
  let shentsize := field (i + 10) 2 h in let shnum := field (i + 12) 2 h in let shstrndx := field (i + 14) 2 h in
  (* relocatable, version 1, no program headers, sizes of the headers *)
  if negb ((field 16 2 h =? 1) && (field 20 4 h =? 1) && (field (i + 4) 2 h =? hs) && (field (i + 8) 2 h =? 0) && (shentsize =? if w then 64 else 40)) then None else
  'tab <- slice shoff (shnum * shentsize) f ;;
  'hs <- table shentsize tab ;;
  'raw <- nth_error hs (Z.to_nat shstrndx) ;;
  's <- rd_sec w f None raw ;;
  if negb (v_type s =? 3) then None else
  'secs <- all (rd_sec w f (v_data s)) hs ;;
  '(ix, st) <- find_index (fun v => v_type v =? 2) secs 0 ;;
  'str <- nth_error secs (Z.to_nat (v_link st)) ;;
  if negb ((v_type str =? 3) && (v_entsize st =? if w then 24 else 16)) then None else
  'strs <- v_data str ;;
  'd <- v_data st ;;
  'recs <- table (v_entsize st) d ;;
  'syms <- all (rd_sym w strs) recs ;;
  'rels <- all (rd_rels w ix) (filter (fun v => v_type v =? if w then 4 else 9) secs) ;;
  Some {| o_64 := w; o_osabi := field 7 1 id; o_machine := field 18 2 h; o_table := (shoff, shnum * shentsize); o_secs := secs; o_shstrndx := shstrndx;
          o_symtab := (ix, st); o_syms := syms; o_rels := rels |}.

(** * What a module asks for *)
(** _TEXT, _DATA, CONST and their $-variants, _BSS *)
Definition new_name (name new : list Z) : Prop :=
  (exists src dst r, In (src, dst) [([95; 84; 69; 88; 84], [46; 116; 101; 120; 116]); ([95; 68; 65; 84; 65], [46; 100; 97; 116; 97]); ([67; 79; 78; 83; 84], [46; 114; 111; 100; 97; 116; 97])] /\
     name = src ++ r /\ (r = [] \/ exists q, r = 36 :: q) /\ new = dst ++ r) \/
  (name = [95; 66; 83; 83] /\ new = [46; 98; 115; 115]) \/
  (new = name /\ name <> [95; 66; 83; 83] /\
   forall src r, In src [[95; 84; 69; 88; 84]; [95; 68; 65; 84; 65]; [67; 79; 78; 83; 84]] -> name = src ++ r -> r <> [] /\ forall q, r <> 36 :: q).
Definition named (s : section) (n : list Z) : Prop := match s_alias s with Some a => n = a | None => new_name (s_name s) n end.
(** the file name behind the last slash *)
Definition base_name (path n : list Z) : Prop :=
  exists d, path = d ++ n /\ ~ In 47 n /\ ~ In 92 n /\ (d = [] \/ exists e c, d = e ++ [c] /\ (c = 47 \/ c = 92)).

(** ** sections *)
Definition nobits (s : section) : bool := negb (s_info s) && (s_type s =? 3).
Definition sec_kind (s : section) : Z := if s_info s then 7 else if s_type s =? 3 then 8 else 1.
(** ALLOC 2, plus WRITE 1 or EXECINSTR 4 *)
Definition sec_flags (s : section) : Z :=
  if s_info s then 0 else if s_type s =? 1 then 6 else if s_readonly s || s_const s then 2 else 3.
(** from offset 0; an ORG leaves a gap *)
Definition image (s : section) : list Z :=
  if s_type s =? 3 then repeat 0 (Z.to_nat (s_max s))
  else repeat 0 (Z.to_nat (s_start s)) ++ firstn (Z.to_nat (s_max s - s_start s)) match s_buf s with Some b => b | None => [] end.
Definition prog_sec (s : section) (v : sec) : Prop :=
  named s (v_name v) /\ v_type v = sec_kind s /\ v_flags v = sec_flags s /\ v_addr v = 0 /\ v_size v = s_max s /\ v_link v = 0 /\ v_info v = 0 /\
  v_align v = (if s_align s =? 255 then 0 else 2 ^ s_align s) /\ v_entsize v = 0 /\
  v_data v = (if nobits s then None else Some (image s)).
Definition null_sec (v : sec) : Prop :=
  v_name v = [] /\ v_type v = 0 /\ v_flags v = 0 /\ v_addr v = 0 /\ v_offset v = 0 /\ v_size v = 0 /\ v_link v = 0 /\ v_info v = 0 /\ v_align v = 0 /\ v_entsize v = 0.
Definition table_sec (name : list Z) (ty link info align entsize : Z) (v : sec) : Prop :=
  v_name v = name /\ v_type v = ty /\ v_flags v = 0 /\ v_addr v = 0 /\ v_link v = link /\ v_info v = info /\ v_align v = align /\ v_entsize v = entsize.
(** the section with the relocations of section number k *)
Definition rel_sec (w : bool) (nsecs : Z) (k : nat) (s : section) (v : sec) : Prop :=
  exists n, named s n /\
  table_sec ((if w then [46; 114; 101; 108; 97] else [46; 114; 101; 108]) ++ n) (if w then 4 else 9) (nsecs + 2) (Z.of_nat k + 1) 4 (if w then 24 else 8) v /\
  v_size v = zlen (s_fix s) * (if w then 24 else 8).
Fixpoint numbered {A} (k : nat) (l : list A) : list (nat * A) := match l with [] => [] | a :: l => (k, a) :: numbered (S k) l end.
Definition relocated (m : module) : list (nat * section) := filter (fun p => match s_fix (snd p) with [] => false | _ => true end) (numbered 0 (m_secs m)).
(** the regions of the file: header, section headers, contents *)
Definition regions (o : object) : list (Z * Z) :=
  (0, if o_64 o then 64 else 52) :: o_table o :: flat_map (fun v => match v_data v with Some _ => [(v_offset v, v_size v)] | None => [] end) (o_secs o).
Definition apart (r s : Z * Z) : Prop := fst r + snd r <= fst s.

(** ** symbols *)
Definition shndx (y : symbol) : Z := match y_seg y with Some k => Z.of_nat k + 1 | None => 0xfff1 end.
Definition in_code (m : module) (y : symbol) : bool :=
  match y_seg y with Some k => match nth_error (m_secs m) k with Some s => s_type s =? 1 | None => false end | None => true end.
Definition width (m : module) : Z := if m_64 m then 64 else 32.
Definition sym_entry (m : module) (n : nat) : entry :=
  let y := sym m n in
  match y_state y with
  | Internal => {| e_name := y_name y; e_bind := if y_public y then 1 else 0; e_type := if in_code m y then 2 else 1; e_other := 0; e_shndx := shndx y;
                   e_value := wrap (width m) (y_offset y); e_size := 0 |}
  | _ => if y_comm y then {| e_name := y_name y; e_bind := 1; e_type := 5; e_other := 0; e_shndx := 0xfff2; e_value := y_total y; e_size := 0 |}
         else {| e_name := y_name y; e_bind := if y_altname y then 2 else 1; e_type := 0; e_other := 0; e_shndx := 0; e_value := wrap (width m) (y_offset y); e_size := 0 |}
  end.
Definition sec_entry (k : nat) : entry := {| e_name := []; e_bind := 0; e_type := 3; e_other := 0; e_shndx := Z.of_nat k + 1; e_value := 0; e_size := 0 |}.
Definition null_entry : entry := {| e_name := []; e_bind := 0; e_type := 0; e_other := 0; e_shndx := 0; e_value := 0; e_size := 0 |}.
Definition file_entry (n : list Z) : entry := {| e_name := n; e_bind := 0; e_type := 4; e_other := 0; e_shndx := 0xfff1; e_value := 0; e_size := 0 |}.
(** private symbols that fixups refer to, each once, in order of their first use *)
Definition private (m : module) (n : nat) : bool := match y_state (sym m n) with Internal => negb (y_public (sym m n)) | _ => false end.
Fixpoint once (l : list nat) : list nat := match l with [] => [] | n :: l => n :: filter (fun k => negb (Nat.eqb k n)) (once l) end.
Definition used (m : module) : list nat := flat_map (fun s => flat_map (fun f => match f_ref f with RSym n => [n] | _ => [] end) (s_fix s)) (m_secs m).
Definition private_symbols (m : module) : list nat := once (filter (private m) (used m)).
(** external symbols which are not used aren't written (COMM ones are) *)
Definition external_symbols (m : module) : list nat := filter (fun n => y_comm (sym m n) || negb (y_weak (sym m n))) (m_ext m).
Definition local_part (m : module) (file : list Z) : list entry :=
  null_entry :: file_entry file :: map sec_entry (seq 0 (length (m_secs m))) ++ map (sym_entry m) (private_symbols m).
Definition global_part (m : module) : list entry := map (sym_entry m) (external_symbols m ++ m_pub m).

(** ** relocations *)
(** relocation types of the processor supplements *)
Definition types32 : list (Z * Z) := [(FIX_OFF32, 1); (FIX_RELOFF32, 2); (FIX_OFF32_IMGREL, 8); (FIX_OFF16, 20); (FIX_RELOFF16, 21); (FIX_OFF8, 22); (FIX_RELOFF8, 23)].
Definition types64 : list (Z * Z) :=
  [(FIX_OFF64, 1); (FIX_RELOFF32, 2); (FIX_GOT64, 6); (FIX_PLT64, 7); (FIX_OFF32_IMGREL, 8); (FIX_GOTPCREL64, 9); (FIX_OFF32, 10); (FIX_OFF16, 12);
   (FIX_RELOFF16, 13); (FIX_OFF8, 14); (FIX_RELOFF8, 15)].
Definition target (m : module) (r : ref) (e : entry) : Prop :=
  match r with RSym n => e = sym_entry m n | RSec k | RVar (Some k) => e = sec_entry k | _ => False end.
Definition reloc_ok (m : module) (syms : list entry) (f : fixup) (r : reloc) : Prop :=
  r_offset r = f_locofs f /\ In (f_type f, r_type r) (if m_64 m then types64 else types32) /\
  r_addend r = (if m_64 m then Some (- f_addbytes f) else None) /\
  0 < r_sym r < zlen syms /\ exists e, nth_error syms (Z.to_nat (r_sym r)) = Some e /\ target m (f_ref f) e.

(** ** the modules considered *)
Definition name_ok (n : list Z) : Prop := Forall (fun x => 1 <= x < 256) n.
Record sec_ok (m : module) (s : section) : Prop := {
  w_name : name_ok (s_name s);
  w_alias : match s_alias s with Some a => name_ok a | None => True end;
  w_align : s_align s = 255 \/ 0 <= s_align s < 32;
  w_max : 0 <= s_start s <= s_max s;
  w_size : s_max s < 2 ^ 31;
  w_fix : Forall (fun f => 0 <= f_locofs f < 2 ^ 32 /\ 0 <= f_addbytes f < 256 /\
     match f_ref f with
     | RSym n => (private m n = true) \/ In n (m_pub m) \/ In n (external_symbols m)
     | RSec k | RVar (Some k) => (k < length (m_secs m))%nat
     | _ => True
     end) (s_fix s) }.
(** an upper bound for the size of the file *)
Definition sum {A} (g : A -> Z) (l : list A) : Z := fold_right (fun a z => g a + z) 0 l.
Definition name_room (s : section) : Z := match s_alias s with Some a => zlen a | None => zlen (s_name s) + 2 end.
Definition fixups (m : module) : list fixup := flat_map s_fix (m_secs m).
Definition nsyms (m : module) : Z := 2 + zlen (m_secs m) + zlen (fixups m) + zlen (m_ext m) + zlen (m_pub m).
Definition room (m : module) : Z :=
  64 * (6 + 2 * zlen (m_secs m)) + sum (fun s => s_max s + 32 + 2 * name_room s + 8) (m_secs m) + 24 * nsyms m +
  zlen (m_path m) + sum (fun n => zlen (y_name (sym m n)) + 1) (used m ++ m_ext m ++ m_pub m) + 24 * zlen (fixups m) + 256.
Record module_ok (m : module) : Prop := {
  k_path : name_ok (m_path m);
  k_osabi : 0 <= m_osabi m < 256;
  k_secs : Forall (sec_ok m) (m_secs m);
  k_names : Forall (fun n => name_ok (y_name (sym m n))) (used m ++ m_ext m ++ m_pub m);
  k_values : Forall (fun n => - 2 ^ 31 <= y_offset (sym m n) < 2 ^ 31 /\ 0 <= y_total (sym m n) < 2 ^ 32) (used m ++ m_ext m ++ m_pub m);
  k_seg : Forall (fun n => match y_seg (sym m n) with Some k => (k < length (m_secs m))%nat | None => True end) (used m ++ m_ext m ++ m_pub m);
  k_ext : NoDup (m_ext m) /\ Forall (fun n => y_state (sym m n) = External) (m_ext m);
  k_pub : NoDup (m_pub m) /\ Forall (fun n => y_state (sym m n) = Internal /\ y_public (sym m n) = true) (m_pub m);
  k_new : Forall (fun n => y_included (sym m n) = false) (used m);
  (* fewer than 65280 section headers, size of the file, symbol indices of 24 bits in ELF32 *)
  k_count : 4 + zlen (m_secs m) + zlen (relocated m) < 0xff00;
  k_room : room m < 2 ^ 32;
  k_index : m_64 m = false -> nsyms m < 2 ^ 24 }.

(** what else the writer needs: the code buffers hold the contents, names fit
    into the buffer of the name conversion, the format knows the types of the
    fixups, and each fixup has a target *)
Record complete (m : module) : Prop := {
  c_filled : Forall (fun s => s_type s <> 3 -> s_start s <> s_max s -> exists b, s_buf s = Some b /\ s_max s - s_start s <= zlen b) (m_secs m);
  c_names : Forall (fun s => s_alias s <> None \/ zlen (s_name s) <= 245) (m_secs m);
  c_fixups : Forall (fun f => (exists ty, In (f_type f, ty) (if m_64 m then types64 else types32)) /\ match f_ref f with RNone | RVar None => False | _ => True end) (fixups m) }.
