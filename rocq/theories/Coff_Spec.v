(** COFF object files as the PE/COFF specification reads them, and what a module
    asks for. *)
From Verif Require Import Base Crc_Model Crc_Spec Coff_Model.

(** * Reading *)
Notation "' p <- a ;; b" := (match a with Some p => b | None => None end) (at level 90, p pattern, right associativity, only parsing).
Definition slice (i n : Z) (f : list Z) : option (list Z) :=
  if (0 <=? i) && (0 <=? n) && (i + n <=? zlen f) then Some (firstn (Z.to_nat n) (skipn (Z.to_nat i) f)) else None.
Definition number (i n : Z) (f : list Z) : option Z := match slice i n f with Some b => Some (le_val b) | None => None end.
(** up to the terminating zero *)
Fixpoint cstring (l : list Z) : option (list Z) :=
  match l with [] => None | x :: r => if x =? 0 then Some [] else match cstring r with Some s => Some (x :: s) | None => None end end.
(** the string table starts with its size *)
Definition rd_string (strs : list Z) (o : Z) : option (list Z) :=
  'size <- number 0 4 strs ;; if (size =? zlen strs) && (4 <=? o) then cstring (skipn (Z.to_nat o) strs) else None.
(** a name field of 8 bytes *)
Fixpoint trim (l : list Z) : list Z := match l with [] => [] | x :: r => if x =? 0 then [] else x :: trim r end.
Definition rd_name (strs nm : list Z) : option (list Z) := if le_val (firstn 4 nm) =? 0 then rd_string strs (le_val (skipn 4 nm)) else Some (trim nm).
Definition digits (l : list Z) : option Z :=
  fold_left (fun a d => match a with Some v => if (48 <=? d) && (d <=? 57) then Some (10 * v + (d - 48)) else None | None => None end) l (Some 0).
(** section names: /decimal is an offset into the string table *)
Definition rd_section_name (strs nm : list Z) : option (list Z) :=
  match trim nm with
  | 47 :: ((_ :: _) as r) => 'o <- digits r ;; rd_string strs o
  | r => Some r
  end.
Fixpoint records (n : nat) (size : Z) (l : list Z) : option (list (list Z) * list Z) :=
  match n with
  | O => Some ([], l)
  | S k => 'r <- slice 0 size l ;; '(rs, l) <- records k size (skipn (Z.to_nat size) l) ;; Some (r :: rs, l)
  end.
(** symbols with their index; the auxiliary records belong to the symbol before *)
Record entry := { e_name : list Z; e_value : Z; e_section : Z; e_type : Z; e_class : Z; e_aux : list (list Z) }.
Definition field (i n : nat) (l : list Z) : Z := le_val (firstn n (skipn i l)).
Fixpoint rd_symbols (fuel : nat) (strs l : list Z) (i : Z) : option (list (Z * entry)) :=
  match l with
  | [] => Some []
  | _ =>
      match fuel with
      | O => None
      | S k =>
          'r <- slice 0 18 l ;;
          'name <- rd_name strs (firstn 8 r) ;;
          let n := field 17 1 r in
          '(aux, l) <- records (Z.to_nat n) 18 (skipn 18 l) ;;
          'rest <- rd_symbols k strs l (i + 1 + n) ;;
          Some ((i, {| e_name := name; e_value := field 8 4 r; e_section := swrap 16 (field 12 2 r); e_type := field 14 2 r; e_class := field 16 1 r; e_aux := aux |}) :: rest)
      end
  end.
(** sections: data, relocations (address, symbol, type) and line numbers (address or symbol, number) with their places in the file *)
Record secview := { v_name : list Z; v_char : Z; v_size : Z; v_raw : Z; v_data : option (list Z); v_prel : Z; v_relocs : list (Z * Z * Z); v_plin : Z; v_lines : list (Z * Z); v_nrel : Z }.
Definition rd_reloc (r : list Z) : Z * Z * Z := (field 0 4 r, field 4 4 r, field 8 2 r).
Definition rd_line (r : list Z) : Z * Z := (field 0 4 r, field 4 2 r).
Definition rd_table (f : list Z) (pos n size : Z) : option (list (list Z)) :=
  if n =? 0 then Some [] else 'b <- slice pos (n * size) f ;; '(rs, _) <- records (Z.to_nat n) size b ;; Some rs.
Definition rd_section (f strs h : list Z) : option secview :=
  'name <- rd_section_name strs (firstn 8 h) ;;
  let size := field 16 4 h in let raw := field 20 4 h in let prel := field 24 4 h in let plin := field 28 4 h in
  let nrel := field 32 2 h in let nlin := field 34 2 h in let ch := field 36 4 h in
  'data <- (if raw =? 0 then Some None else 'b <- slice raw size f ;; Some (Some b)) ;;
  (* more than 65534 relocations: IMAGE_SCN_LNK_NRELOC_OVFL, the first one holds the number *)
  let over := Z.testbit ch 24 && (nrel =? 0xffff) in
  'n <- (if over then number prel 4 f else Some nrel) ;;
  'rel <- rd_table f prel n 10 ;;
  'lin <- rd_table f plin nlin 6 ;;
  Some {| v_name := name; v_char := ch; v_size := size; v_raw := raw; v_data := data; v_prel := prel; v_relocs := map rd_reloc (if over then tl rel else rel);
          v_plin := plin; v_lines := map rd_line lin; v_nrel := n |}.
Fixpoint rd_all (f strs : list Z) (hs : list (list Z)) : option (list secview) :=
  match hs with [] => Some [] | h :: hs => 'v <- rd_section f strs h ;; 'vs <- rd_all f strs hs ;; Some (v :: vs) end.
Record object := { o_machine : Z; o_secs : list secview; o_syms : list (Z * entry); o_psym : Z; o_nsyms : Z; o_strs : list Z }.
Definition rd_object (f : list Z) : option object :=
  'h <- slice 0 20 f ;;
  let nsec := field 2 2 h in let psym := field 8 4 h in let nsyms := field 12 4 h in
  'tab <- slice psym (nsyms * 18) f ;;
  let strs := skipn (Z.to_nat (psym + nsyms * 18)) f in
  'syms <- rd_symbols (length tab) strs tab 0 ;;
  'hs <- rd_table f 20 nsec 40 ;;
  'secs <- rd_all f strs hs ;;
  if field 16 2 h =? 0 then Some {| o_machine := field 0 2 h; o_secs := secs; o_syms := syms; o_psym := psym; o_nsyms := nsyms; o_strs := strs |} else None.
(** the regions of the file: headers, data, relocations, line numbers, symbols, strings *)
Definition regions (o : object) : list (Z * Z) :=
  (0, 20 + 40 * zlen (o_secs o)) ::
  flat_map (fun v => (match v_data v with Some _ => [(v_raw v, v_size v)] | None => [] end) ++ [(v_prel v, 10 * v_nrel v); (v_plin v, 6 * zlen (v_lines v))]) (o_secs o) ++
  [(o_psym o, 18 * o_nsyms o); (o_psym o + 18 * o_nsyms o, zlen (o_strs o))].
Definition apart (r s : Z * Z) : Prop := snd r = 0 \/ snd s = 0 \/ fst r + snd r <= fst s.

(** * What the module asks for *)
(** _TEXT, _DATA, CONST and their $-variants, _BSS *)
Definition new_name (dj : bool) (name new : list Z) : Prop :=
  (exists src dst r, In (src, dst) [([95; 84; 69; 88; 84], [46; 116; 101; 120; 116]); ([95; 68; 65; 84; 65], [46; 100; 97; 116; 97]); ([67; 79; 78; 83; 84], [46; 114; 100; 97; 116; 97])] /\
     name = src ++ r /\ (r = [] \/ exists q, r = 36 :: q) /\
     new = if dj && match r with [] => true | _ => false end && (zlen dst =? 6) then [46; 99; 111; 110; 115; 116] else dst ++ r) \/
  (name = [95; 66; 83; 83] /\ new = [46; 98; 115; 115]) \/
  (new = name /\ name <> [95; 66; 83; 83] /\
   forall src r, In src [[95; 84; 69; 88; 84]; [95; 68; 65; 84; 65]; [67; 79; 78; 83; 84]] -> name = src ++ r -> r <> [] /\ forall q, r <> 36 :: q).
Definition is_bss_name (s : section) : bool :=
  match s_alias s with Some _ => false | None => match s_name s with [95; 66; 83; 83] => s_written s =? 0 | _ => false end end.
(** sections without data in the file *)
Definition uninit (s : section) : bool :=
  negb (s_info s) && negb (s_type s =? SEGTYPE_CODE) && negb (s_readonly s) && negb (s_const s) &&
  ((s_type s =? SEGTYPE_BSS) || is_bss_name s || (s_stack s && (s_written s =? 0))).
Definition bss (s : section) : bool := (s_type s =? SEGTYPE_BSS) || is_bss_name s.
(** the section's size; STACK segments have none *)
Definition raw_size (s : section) : Z := if uninit s && negb (bss s) then 0 else s_max s.
Definition flags (s : section) : Z :=
  let f :=
    if s_info s then 0x200 + (if s_drectve s then 0x800 else 0x40)
    else (if s_align s =? MAX_SEGALIGNMENT then 0 else (s_align s + 1) * 2 ^ 20) + (if s_comdat s =? 0 then 0 else 0x1000) +
         (if s_type s =? SEGTYPE_CODE then 0x60000020 else if s_readonly s || s_const s then 0x40000040 else if uninit s then 0xc0000080 else 0xc0000040) in
  let f := if s_char s =? 0 then f else f mod 2 ^ 25 + s_char s / 2 * 2 ^ 25 in
  f + (if num_relocs s >? 0xffff then 2 ^ 24 else 0).
Definition needs (s : section) : list fixup := filter (fun f => negb (is_none f)) (s_fix s).
(** the bytes of the section from its start; a jump to an absolute address gets its displacement *)
Definition image (s : section) : list Z :=
  match s_buf s with Some b => repeat 0 (Z.to_nat (s_start_loc s)) ++ firstn (Z.to_nat (s_max s - s_start_loc s)) b | None => repeat 0 (Z.to_nat (s_max s)) end.
Definition sub_dword (b : list Z) (i v : Z) : list Z :=
  firstn (Z.to_nat i) b ++ le_bytes 4 (le_val (firstn 4 (skipn (Z.to_nat i) b)) - v) ++ skipn (Z.to_nat (i + 4)) b.
Definition resolved (s : section) : list Z :=
  fold_left (fun b f => if is_none f && (f_type f =? FIX_RELOFF32) then sub_dword b (f_locofs f) (f_locofs f + f_addbytes f) else b) (s_fix s) (image s).

(** ** symbols *)
Definition describes (m : module) (n : nat) (e : entry) : Prop :=
  let y := sym m n in
  e_name e = y_name y /\ e_value e = (if y_comm y then y_total y else y_offset y) /\
  e_section e = match y_state y with Internal => match y_seg y with Some k => Z.of_nat k + 1 | None => -1 end | _ => 0 end /\
  e_type e = (if y_proc y then 0x20 else 0) /\
  e_class e = match y_state y with
              | External => if weak_ext y then 105 else 2
              | _ => if y_public y then 2 else if y_near y && negb (y_proc y) then 6 else 3
              end.
Definition describes_section (m : module) (k : nat) (e : entry) : Prop :=
  exists s, nth_error (m_secs m) k = Some s /\ e_name e = fst (section_name (m_opt m) s) /\ e_value e = 0 /\ e_section e = Z.of_nat k + 1 /\ e_type e = 0 /\ e_class e = 3.
Definition table := list (Z * entry).
Definition designates (m : module) (T : table) (v : Z) (n : nat) : Prop := exists e, In (v, e) T /\ describes m n e.
Definition target_ok (m : module) (T : table) (v : Z) (r : ref) : Prop :=
  match r with
  | RSym n => designates m T v n
  | RSec k | RVar (Some k) => exists e, In (v, e) T /\ describes_section m k e
  | _ => False
  end.
(** relocation types of the PE/COFF specification *)
Definition asked_type (use64 : bool) (f : fixup) (t : Z) : Prop :=
  if use64 then (f_type f = FIX_RELOFF32 /\ t = 4 + (f_addbytes f - 4)) \/ In (f_type f, t) [(FIX_OFF32, 2); (FIX_OFF32_IMGREL, 3); (FIX_OFF32_SECREL, 11); (FIX_OFF64, 1); (FIX_SEG, 10)]
  else In (f_type f, t) [(FIX_RELOFF16, 2); (FIX_OFF16, 1); (FIX_RELOFF32, 20); (FIX_OFF32, 6); (FIX_OFF32_IMGREL, 7); (FIX_OFF32_SECREL, 11); (FIX_SEG, 10)].
Definition reloc_ok (m : module) (T : table) (use64 : bool) (f : fixup) (r : Z * Z * Z) : Prop :=
  let '(addr, idx, t) := r in addr = f_locofs f /\ target_ok m T idx (f_ref f) /\ asked_type use64 f t.
(** line numbers are relative to that of the procedure; 7FFFh stands for 0 *)
Fixpoint lines_ok (m : module) (T : table) (start : Z) (q : list lineitem) (vs : list (Z * Z)) : Prop :=
  match q, vs with
  | [], [] => True
  | LProc n line :: q, (i, l) :: vs => l = 0 /\ designates m T i n /\ lines_ok m T line q vs
  | LLine number ofs :: q, (a, l) :: vs =>
      a = ofs /\ l = (if (number - start) mod 2 ^ 16 =? 0 then 0x7fff else (number - start) mod 2 ^ 16) /\ lines_ok m T start q vs
  | _, _ => False
  end.
Definition asked_lines (m : module) (s : section) : list lineitem := if lines_on (m_opt m) then match s_lines s with Some q => q | None => [] end else [].
(** the contents of .sxdata: the indices of the handlers *)
Definition is_sx (m : module) (k : nat) : bool := match m_safeseh m, m_sx m with _ :: _, Some x => Nat.eqb k x | _, _ => false end.
Definition handlers_ok (m : module) (T : table) (d : list Z) : Prop :=
  exists is, Forall2 (fun i n => designates m T i n) is (m_safeseh m) /\ d = flat_map (le_bytes 4) is.
Definition section_ok (m : module) (T : table) (k : nat) (s : section) (v : secview) : Prop :=
  v_name v = fst (section_name (m_opt m) s) /\ v_char v = flags s /\ v_size v = raw_size s /\
  (if uninit s || (s_max s =? 0) then v_data v = None
   else exists d, v_data v = Some d /\ if is_sx m k then handlers_ok m T d else d = resolved s) /\
  Forall2 (reloc_ok m T (s_use64 s)) (needs s) (v_relocs v) /\
  lines_ok m T 0 (asked_lines m s) (v_lines v).

(** ** the symbol table *)
(** auxiliary records *)
Inductive xaux :=
| XFile (piece : list Z)
| XSection (len nrel nlin crc number selection : Z)
| XWeak (a : option nat) (search : Z)
| XProc (p : nat)
| XBegin (p : nat)
| XEnd (p : nat).
(** the value of .file entries: see [chain] *)
Record xentry := { x_name : list Z; x_value : option Z; x_section : Z; x_type : Z; x_class : Z; x_aux : list xaux }.
(** line number information of a procedure: the lines that follow its item *)
Fixpoint group_lines (q : list lineitem) : list (Z * Z) := match q with LLine n o :: q => (n, o) :: group_lines q | _ => [] end.
Fixpoint groups (q : list lineitem) : list (nat * Z * list (Z * Z)) :=
  match q with [] => [] | LProc n l :: q => (n, l, group_lines q) :: groups q | LLine _ _ :: q => groups q end.
Definition all_groups (m : module) : list (nat * Z * list (Z * Z)) := flat_map (fun s => groups (asked_lines m s)) (m_secs m).
Definition group_of (m : module) (p : nat) : option (Z * list (Z * Z)) :=
  match find (fun '(n, _, _) => Nat.eqb n p) (all_groups m) with Some (_, l, g) => Some (l, g) | None => None end.
Fixpoint follower (p : nat) (l : list nat) : option nat :=
  match l with [] => None | x :: r => if Nat.eqb x p then hd_error r else follower p r end.
Definition next_group (m : module) (p : nat) : option nat := follower p (map (fun '(n, _, _) => n) (all_groups m)).
Definition proc_start (m : module) (p : nat) : Z := match group_of m p with Some (l, _) => l | None => 0 end.
Definition proc_end (m : module) (p : nat) : Z := match group_of m p with Some (_, g) => last (map fst g) 0 | None => 0 end.
Definition proc_count (m : module) (p : nat) : Z := match group_of m p with Some (_, g) => (1 + zlen g) mod 2 ^ 16 | None => 0 end.
Definition next_ok (m : module) (T : table) (v add : Z) (p : nat) : Prop :=
  match next_group m p with Some q => designates m T (v - add) q | None => v = 0 end.
(** [i]: the index of the symbol *)
Definition aux_ok (m : module) (f : list Z) (T : table) (i : Z) (x : xaux) (bs : list Z) : Prop :=
  length bs = 18%nat /\
  match x with
  | XFile piece => bs = piece
  | XSection len nrel nlin crc number selection =>
      field 0 4 bs = len /\ field 4 2 bs = nrel /\ field 6 2 bs = nlin /\ field 8 4 bs = crc /\ field 12 2 bs = number /\ field 14 1 bs = selection
  | XWeak a search => match a with Some n => designates m T (field 0 4 bs) n | None => field 0 4 bs = 0 end /\ field 4 4 bs = search
  | XProc p =>
      (* the index of .bf, the size, the line numbers, the next procedure *)
      field 0 4 bs = i + 2 /\ field 4 4 bs = y_total (sym m p) /\
      match group_of m p with Some _ => slice (field 8 4 bs) 6 f = Some (le_bytes 4 i ++ le_bytes 2 0) | None => field 8 4 bs = 0 end /\
      next_ok m T (field 12 4 bs) 0 p
  | XBegin p => field 4 2 bs = proc_start m p mod 2 ^ 16 /\ next_ok m T (field 12 4 bs) 2 p
  | XEnd p => field 4 2 bs = proc_end m p mod 2 ^ 16
  end.
Definition entry_ok (m : module) (f : list Z) (T : table) (x : xentry) (ie : Z * entry) : Prop :=
  let '(i, e) := ie in
  e_name e = x_name x /\ match x_value x with Some v => e_value e = v | None => True end /\ e_section e = x_section x /\ e_type e = x_type x /\ e_class e = x_class x /\
  Forall2 (aux_ok m f T i) (x_aux x) (e_aux e).
(** pieces of 18 characters *)
Fixpoint pieces (fuel : nat) (name : list Z) : list (list Z) :=
  match fuel with
  | O => []
  | S n => match name with [] => [] | _ => if zlen name <? 18 then [name ++ repeat 0 (18 - length name)] else firstn 18 name :: pieces n (skipn 18 name) end
  end.
Definition x_file (name : list Z) : xentry :=
  {| x_name := [46; 102; 105; 108; 101]; x_value := None; x_section := -2; x_type := 0; x_class := 103; x_aux := map XFile (pieces (length name) name) |}.
(** the checksum is that of the contents *)
Definition checksum (s : section) : Z := if s_comdat s =? 0 then 0 else match s_buf s with Some _ => crc32 0 (resolved s) | None => 0 end.
Definition x_sec (m : module) (k : nat) (s : section) : xentry :=
  {| x_name := fst (section_name (m_opt m) s); x_value := Some 0; x_section := Z.of_nat k + 1; x_type := 0; x_class := 3;
     x_aux := if no_section_aux (m_opt m) then []
              else [XSection (s_max s) (Z.min 0xffff (num_relocs s)) (zlen (asked_lines m s)) (checksum s) (if s_comdat s =? 0 then 0 else s_comdat_number s) (s_comdat s)] |}.
Fixpoint x_secs (m : module) (k : nat) (ss : list section) : list xentry := match ss with [] => [] | s :: ss => x_sec m k s :: x_secs m (S k) ss end.
Definition x_sym (m : module) (n : nat) (aux : list xaux) : xentry :=
  let y := sym m n in
  {| x_name := y_name y; x_value := Some (if y_comm y then y_total y else y_offset y);
     x_section := match y_state y with Internal => match y_seg y with Some k => Z.of_nat k + 1 | None => -1 end | _ => 0 end;
     x_type := if y_proc y then 0x20 else 0;
     x_class := match y_state y with
                | External => if weak_ext y then 105 else 2
                | _ => if y_public y then 2 else if y_near y && negb (y_proc y) then 6 else 3
                end;
     x_aux := aux |}.
Definition x_exts (m : module) : list xentry :=
  map (fun e => x_sym m e (if weak_ext (sym m e) then [XWeak (y_alt (sym m e)) 2] else [])) (filter (fun e => negb (skipped (sym m e))) (m_ext m)).
(** .bf, .lf, .ef behind a procedure *)
Definition x_func (m : module) (p : nat) (name : list Z) (value : Z) (aux : list xaux) : xentry :=
  {| x_name := name; x_value := Some value; x_section := x_section (x_sym m p []); x_type := 0; x_class := 101; x_aux := aux |}.
Fixpoint x_pubs (m : module) (q : list nat) (file : Z) : list xentry :=
  match q with
  | [] => []
  | p :: q =>
      let y := sym m p in
      if lines_on (m_opt m) && y_proc y then
        (if y_file y =? file then [] else [x_file (file_name m (y_file y))]) ++
        x_sym m p [XProc p] :: x_func m p [46; 98; 102] (y_offset y) [XBegin p] :: x_func m p [46; 108; 102] (proc_count m p) [] ::
        x_func m p [46; 101; 102] ((y_offset y + y_total y) mod 2 ^ 32) [XEnd p] :: x_pubs m q (y_file y)
      else x_sym m p [] :: x_pubs m q file
  end.
Definition x_alias (m : module) (a : nat * option nat) : xentry :=
  {| x_name := y_name (sym m (fst a)); x_value := Some 0; x_section := 0; x_type := 0; x_class := 105; x_aux := [XWeak (snd a) 3] |}.
(** private symbols: the procedures, and those that relocations refer to *)
Definition private (m : module) (n : nat) : bool := is_internal (sym m n) && negb (y_public (sym m n)) && negb (y_included (sym m n)).
Definition statics (m : module) : list nat := if no_static_procs (m_opt m) then [] else filter (private m) (m_procs m).
Definition queue (m : module) : list nat := m_pub m ++ statics m.
Fixpoint new_refs (m : module) (rs : list ref) (seen : list nat) : list nat :=
  match rs with
  | [] => []
  | RSym n :: rs => if private m n && negb (existsb (Nat.eqb n) seen) then n :: new_refs m rs (n :: seen) else new_refs m rs seen
  | _ :: rs => new_refs m rs seen
  end.
Definition asked_refs (m : module) : list ref := map f_ref (flat_map needs (m_secs m)).
Definition asked_pubs (m : module) : list nat := queue m ++ new_refs m (asked_refs m) (statics m).
Definition asked_symbols (m : module) : list xentry :=
  (if safeseh (m_opt m) then [{| x_name := [64; 102; 101; 97; 116; 46; 48; 48]; x_value := Some (if debug4 (m_opt m) then 16 else 1); x_section := -1; x_type := 0; x_class := 3; x_aux := [] |}] else []) ++
  (if no_file_entry (m_opt m) then [] else [x_file (m_dot_file m)]) ++
  x_secs m 0 (m_secs m) ++ x_exts m ++ x_pubs m (asked_pubs m) 0 ++ map (x_alias m) (m_alias m).
(** every .file entry has the index of the next one *)
Fixpoint chain (l : list (Z * entry)) : Prop :=
  match l with
  | [] => True
  | (_, e) :: r => e_value e = match r with [] => 0 | (i, _) :: _ => i end /\ chain r
  end.
Definition is_file (ie : Z * entry) : bool := e_class (snd ie) =? 103.

(** * Modules as the assembler builds them *)
Definition name_ok (l : list Z) : Prop := l <> [] /\ Forall (fun x => 1 <= x < 256) l.
Definition u32 (v : Z) : Prop := 0 <= v < 2 ^ 32.
(** symbols with an entry *)
Definition exported (m : module) (n : nat) : Prop :=
  match y_state (sym m n) with External => In n (m_ext m) /\ skipped (sym m n) = false | Internal => In n (queue m) | Other => False end.
Definition linkable (m : module) (n : nat) : Prop :=
  match y_state (sym m n) with
  | External => In n (m_ext m) /\ skipped (sym m n) = false
  | Internal => y_public (sym m n) || y_included (sym m n) = true -> In n (m_pub m)
  | Other => False
  end.
Definition fixup_ok (m : module) (f : fixup) : Prop :=
  u32 (f_locofs f) /\ 0 <= f_addbytes f < 2 ^ 16 /\
  match f_ref f with
  | RNone => True
  | RSym n => f_type f <> FIX_VOID /\ linkable m n
  | RSec k | RVar (Some k) => f_type f <> FIX_VOID /\ (k < length (m_secs m))%nat
  | RVar None => False
  end.
(** the lines start with a procedure *)
Definition line_ok (m : module) (l : lineitem) : Prop :=
  match l with LProc n _ => In n (queue m) | LLine _ ofs => u32 ofs end.
Record section_wf (m : module) (s : section) : Prop := {
  w_name : name_ok (fst (section_name (m_opt m) s)) /\ hd 0 (fst (section_name (m_opt m) s)) <> 47;
  w_size : 0 <= s_start_loc s <= s_max s /\ s_max s < 2 ^ 32;
  w_buf : match s_buf s with Some b => zlen b = s_max s - s_start_loc s /\ Forall is_byte b | None => True end;
  w_flags : (0 <= s_align s <= 13 \/ s_align s = MAX_SEGALIGNMENT) /\ 0 <= s_comdat s < 256 /\ 0 <= s_comdat_number s < 2 ^ 16 /\ 0 <= s_char s < 256 /\ is_byte (s_pad s);
  (* COMDATs have an auxiliary record, even with -zls *)
  w_comdat : no_section_aux (m_opt m) = true -> s_comdat s = 0;
  (* sections that aren't written have no data in the section table *)
  w_skip : s_type s = SEGTYPE_BSS \/ (s_stack s = true /\ s_written s = 0) -> uninit s = true;
  w_uninit : uninit s = true -> s_fix s = [] /\ s_lines s = None;
  w_empty : s_max s = 0 -> s_fix s = [];
  w_fix : Forall (fixup_ok m) (s_fix s) /\ num_relocs s < 2 ^ 32 - 1;
  w_lines : match s_lines s with
            | Some q => line_numbers (m_opt m) = true /\ zlen q < 2 ^ 16 /\ Forall (line_ok m) q /\ match q with LLine _ _ :: _ => False | _ => True end
            | None => True
            end }.
Record symbol_wf (m : module) (y : symbol) : Prop := {
  w_yname : name_ok (y_name y);
  w_yofs : u32 (y_offset y) /\ u32 (y_total y);
  w_yseg : match y_seg y with Some k => (k < length (m_secs m))%nat | None => True end;
  w_ycomm : y_comm y = true -> y_state y = External;
  w_yalt : match y_alt y with Some a => weak_ext y = true -> exported m a | None => True end;
  w_yfile : y_proc y = true -> Forall (fun x => 1 <= x < 256) (file_name m (y_file y)) /\ zlen (file_name m (y_file y)) <= 18 * 255 }.
Record module_ok (m : module) : Prop := {
  w_secs : Forall (section_wf m) (m_secs m) /\ m_secs m <> [] /\ zlen (m_secs m) < 2 ^ 15;
  w_syms : Forall (symbol_wf m) (m_syms m);
  w_known : Forall (fun n => (n < length (m_syms m))%nat) (m_ext m ++ m_pub m ++ m_procs m ++ map fst (m_alias m));
  w_ext : Forall (fun n => y_state (sym m n) = External) (m_ext m);
  w_pub : Forall (fun n => y_state (sym m n) = Internal /\ y_public (sym m n) || y_included (sym m n) = true) (m_pub m) /\ NoDup (queue m);
  (* procedures that aren't in the queue: only without line numbers *)
  w_procs : lines_on (m_opt m) = true -> forall n, private m n = true -> y_proc (sym m n) = true -> In n (statics m);
  w_alias : Forall (fun a => match snd a with Some n => exported m n | None => True end) (m_alias m);
  w_groups : NoDup (map (fun '(n, _, _) => n) (all_groups m));
  w_sx : m_safeseh m <> [] -> exists k s, m_sx m = Some k /\ nth_error (m_secs m) k = Some s /\ s_max s = 4 * zlen (m_safeseh m) /\ s_start_loc s = 0 /\ s_fix s = [] /\
         s_comdat s = 0 /\ uninit s = false /\ Forall (exported m) (m_safeseh m);
  w_file : Forall (fun x => 1 <= x < 256) (m_dot_file m) /\ zlen (m_dot_file m) <= 18 * 255;
  (* section names behind the first 10 million bytes of the string table don't fit into the header *)
  w_names : 4 + fold_right (fun s n => (if zlen (fst (section_name (m_opt m) s)) <=? 8 then 0 else zlen (fst (section_name (m_opt m) s)) + 1) + n) 0 (m_secs m) < 10 ^ 7;
  w_vars : length (m_ias m) = 18%nat /\ length (m_ish m) = 8%nat /\ Forall is_byte (m_ish m) /\ Forall is_byte (m_ias m) }.
(** what the object file can hold: absolute jumps inside the buffer, relocation types that
    exist, COMDATs that start at 0 *)
Record supported (s : section) : Prop := {
  p_abs : Forall (fun f => is_none f = true -> f_type f = FIX_RELOFF32 -> s_buf s <> None /\ s_start_loc s <= f_locofs f /\ f_locofs f + 4 <= s_max s) (s_fix s);
  p_type : Forall (fun f => is_none f = false -> exists t, asked_type (s_use64 s) f t) (s_fix s);
  p_comdat : s_comdat s <> 0 -> s_start_loc s = 0 }.
