(** What a PE image is: how the loader reads base relocations and sections,
    and where segments have to be. *)
From Coq Require Import ZArith List Bool Lia Permutation Sorted.
From Verif Require Import Base Sort_Model Pe_Model.
Import ListNotations.
Open Scope Z_scope.

(** ** Base relocations, as the loader reads them *)

(** Words of 16 bits: type and offset. *)
Fixpoint words (b : list Z) : list Z :=
  match b with
  | x :: y :: r => (x + 256 * y) :: words r
  | _ => []
  end.

(** An entry of type 0 is skipped. *)
Definition entries (va : Z) (ws : list Z) : list (Z * Z) :=
  flat_map (fun w => if w / 4096 =? 0 then [] else [(va + w mod 4096, w / 4096)]) ws.

(** A block: address of the page, size of the block with its header of 8
    bytes, words.  A block begins at a multiple of 4. *)
Fixpoint decode (fuel : nat) (b : list Z) : option (list (Z * Z)) :=
  match b, fuel with
  | [], _ => Some []
  | _, O => None
  | _, S k =>
      let size := le_val (firstn 4 (skipn 4 b)) in
      if (8 <=? size) && (size <=? zlen b) && (size mod 2 =? 0)
         && ((size mod 4 =? 0) || (size =? zlen b)) then
        match decode k (skipn (Z.to_nat size) b) with
        | Some r => Some (entries (le_val (firstn 4 b)) (words (skipn 8 (firstn (Z.to_nat size) b))) ++ r)
        | None => None
        end
      else None
  end.

(** What has to be relocated: the fields of fixups with 16, 32 and 64 bits. *)
Definition kind (t : Z) : option Z :=
  if t =? 5 then Some 2 else if t =? 6 then Some 3 else if t =? 7 then Some 10 else None.
Definition addresses (l : list placed) : list (Z * Z) :=
  flat_map (fun q =>
    if p_type (q_s q) =? T_HDR then []
    else flat_map (fun f => match kind (fst f) with Some k => [(q_rva q + snd f, k)] | None => [] end)
                  (p_fix (q_s q))) l.

(** ** Where segments have to be *)

(** The least multiple of [a] that is not below [x]. *)
Definition up (a x : Z) : Z := (x + a - 1) / a * a.

Definition bss (s : seg) : bool := p_type s =? T_BSS.

(** The kinds in the order of the sections: headers, code, constants, data,
    uninitialized data, resources, relocations. *)
Definition kinds : list Z := [6; 1; 7; 2; 3; 9; 8].
Fixpoint place_of (t : Z) (l : list Z) : Z :=
  match l with [] => 0 | x :: r => if x =? t then 0 else 1 + place_of t r end.
(** Letters are compared without regard to case. *)
Definition plain (c : Z) : Z := if existsb (Z.eqb c) (map Z.of_nat (seq 65 26)) then c + 32 else c.
Definition behind (a b : seg) : bool :=
  lname_gt (place_of (p_type a) kinds, map plain (p_name a)) (place_of (p_type b) kinds, map plain (p_name b)).

(** The type of a segment. *)
Definition rsrc_name (n : list Z) : Prop :=
  n = [46; 114; 115; 114; 99] \/ exists r, n = [46; 114; 115; 114; 99; 36] ++ r.
Definition type_of (s : seg) (t : Z) : Prop :=
  (p_stack s = true /\ t = T_STACK) \/
  (p_stack s = false /\
    ((p_type s = T_DATA /\ (p_ro s = true \/ p_chars s = 64 \/ p_const s = true) /\ t = T_CDATA) \/
     (p_type s = T_DATA /\ p_ro s = false /\ p_chars s <> 64 /\ p_const s = false /\ t = T_DATA) \/
     (p_type s = T_UNDEF /\ rsrc_name (p_name s) /\ t = T_RSRC) \/
     (p_type s = T_UNDEF /\ ~ rsrc_name (p_name s) /\ t = T_UNDEF) \/
     (p_type s <> T_DATA /\ p_type s <> T_UNDEF /\ t = p_type s))).

Record same_but_type (s t : seg) : Prop := {
  sb_name : p_name t = p_name s; sb_title : p_title t = p_title s; sb_ro : p_ro t = p_ro s; sb_const : p_const t = p_const s;
  sb_stack : p_stack t = p_stack s; sb_chars : p_chars t = p_chars s; sb_align : p_align t = p_align s; sb_loc : p_loc t = p_loc s;
  sb_size : p_size t = p_size s; sb_written : p_written t = p_written s; sb_buf : p_buf t = p_buf s; sb_fix : p_fix t = p_fix s
}.
(** The section with the relocations. *)
Record reloc_section (r : seg) : Prop := {
  rs_name : p_name r = [46; 114; 101; 108; 111; 99]; rs_title : p_title r = [46; 114; 101; 108; 111; 99];
  rs_type : p_type r = T_RELOC; rs_chars : p_chars r = 0x42; rs_align : p_align r = 2; rs_loc : p_loc r = 0;
  rs_ro : p_ro r = false; rs_const : p_const r = false; rs_stack : p_stack r = false; rs_fix : p_fix r = [];
  rs_written : p_written r <> 0
}.

(** Neighbours of the same kind are one section. *)
Fixpoint runs (l : list seg) : list (list seg) :=
  match l with
  | [] => []
  | s :: r =>
      match runs r with
      | (x :: g) :: t => if p_type s =? p_type x then (s :: x :: g) :: t else [s] :: (x :: g) :: t
      | t => [s] :: t
      end
  end.

(** The segments of a section, one behind the other from [e] on, aligned. *)
Fixpoint lay (b f e : Z) (r : list seg) : list placed :=
  match r with
  | [] => []
  | s :: r =>
      let o := up (2 ^ p_align s) e in
      {| q_s := s; q_rva := b + o; q_fo := if bss s then f else f + o; q_loc := 0 |}
      :: lay b f (o + p_size s) r
  end.
Fixpoint extent (e : Z) (r : list seg) : Z :=
  match r with
  | [] => e
  | s :: r => extent (up (2 ^ p_align s) e + p_size s) r
  end.
Definition is_bss (r : list seg) : bool := match r with s :: _ => bss s | [] => false end.
Definition is_hdr (r : list seg) : bool := match r with s :: _ => p_type s =? T_HDR | [] => false end.

(** The sections one behind the other: RVA and file offset of each, and the
    ends. *)
Fixpoint bases (fa ma b f : Z) (R : list (list seg)) : list (Z * Z * list seg) :=
  match R with
  | [] => []
  | r :: R =>
      let b := up ma b in
      let f := up (Z.max fa (match r with s :: _ => 2 ^ p_align s | [] => 1 end)) f in
      (b, f, r) :: bases fa ma (b + extent 0 r) (if is_bss r then f else f + extent 0 r) R
  end.
Fixpoint ends (fa ma b f : Z) (R : list (list seg)) : Z * Z :=
  match R with
  | [] => (b, f)
  | r :: R =>
      let b := up ma b in
      let f := up (Z.max fa (match r with s :: _ => 2 ^ p_align s | [] => 1 end)) f in
      ends fa ma (b + extent 0 r) (if is_bss r then f else f + extent 0 r) R
  end.
Definition positions (fa ma : Z) (l : list seg) : list placed :=
  flat_map (fun x => let '(b, f, r) := x in lay b f 0 r) (bases fa ma 0 0 (runs l)).

(** The entry of the table for a section. *)
Definition sizes (r : list seg) : Z := fold_right (fun s n => p_size s + n) 0 r.
Definition section_of (fa : Z) (x : Z * Z * list seg) : sect :=
  let '(b, f, r) := x in
  let r' := filter (fun s => negb (p_size s =? 0)) r in
  {| t_name := match r' with s :: _ => firstn 8 (p_title s) | [] => [] end;
     t_vsize := extent 0 r; t_va := b;
     t_raw := if is_bss r then 0 else up fa (sizes r);
     t_ptr := if is_bss r then 0 else f;
     t_chars := fold_left (fun c s => Z.lor c (characteristics s)) r' 0 |}.
Definition table (fa ma : Z) (l : list seg) : list sect :=
  map (section_of fa) (filter (fun x => negb (is_hdr (snd x))) (bases fa ma 0 0 (runs l))).

(** The headers end where the first section begins in the file. *)
Definition headers (fa ma : Z) (l : list seg) : Z :=
  match filter (fun x => negb (is_hdr (snd x))) (bases fa ma 0 0 (runs l)) with
  | (_, f, _) :: _ => f
  | [] => 0
  end.

(** ** Which programs *)

Record sound (s : seg) : Prop := {
  so_align : 0 <= p_align s <= 13;
  so_size : 0 <= p_size s;
  so_loc : p_loc s = 0;
  so_kind : In (p_type s) kinds;
  so_fix : Forall (fun f => 0 <= snd f < p_size s) (p_fix s)
}.
(** Segments behind the first of a section are not aligned more than the
    section in the file; the last one is not empty. *)
Definition tidy (k : Z) (r : list seg) : Prop :=
  Forall (fun s => p_align s <= k) (tl r) /\ (is_hdr r = false -> forall d, 0 < p_size (last r d)).
(** [k]: the file alignment is 2^k, [m]: the alignment of sections is 2^m. *)
Record regular (k m : Z) (l : list seg) : Prop := {
  re_k : 0 <= k <= m; re_m : m <= 16;
  re_sound : Forall sound l;
  re_tidy : Forall (tidy k) (runs l);
  re_hdr : is_hdr l = true /\ 0 < extent 0 (hd [] (runs l));
  re_fix : 12 * zlen (flat_map p_fix l) < 2 ^ 31;
  re_some : exists s, In s l /\ p_type s <> T_HDR;
  re_end : fst (ends (2 ^ k) (2 ^ m) 0 0 (runs l)) <= 2 ^ 30 /\ snd (ends (2 ^ k) (2 ^ m) 0 0 (runs l)) <= 2 ^ 30
}.

(** ** The loader *)

(** The byte at an address of the image (relative to its base). *)
Fixpoint loaded (file : list Z) (headers : Z) (t : list sect) (a : Z) : option Z :=
  match t with
  | [] => if (0 <=? a) && (a <? headers) then nth_error file (Z.to_nat a) else None
  | x :: r =>
      if (t_va x <=? a) && (a <? t_va x + t_vsize x) then
        if a - t_va x <? t_raw x then nth_error file (Z.to_nat (t_ptr x + (a - t_va x))) else Some 0
      else loaded file headers r a
  end.

(** The raw data of a section is large enough for its segments: padding between
    segments is not counted in SizeOfRawData. *)
Definition roomy (fa : Z) (r : list seg) : Prop := is_bss r = true \/ extent 0 r <= up fa (sizes r).

(** What a segment that is not empty has: contents. *)
Definition filled (s : seg) : Prop :=
  p_size s = 0 \/ bss s = true \/ exists b, p_buf s = Some b /\ zlen b = p_size s /\ p_written s <> 0.
Definition content (s : seg) (j : Z) : option Z :=
  if bss s then Some 0 else match p_buf s with Some b => nth_error b (Z.to_nat j) | None => None end.

(** Flags of a segment: code, execute, read / uninitialized, read, write /
    initialized, read (and write).  The upper flags may be given by the program. *)
Definition standard (s : seg) : Z :=
  if p_type s =? T_CODE then 0x20 + 0x20000000 + 0x40000000
  else if bss s || (p_stack s && (p_written s =? 0)) then 0x80 + 0x40000000 + 0x80000000
  else 0x40 + 0x40000000 + (if p_ro s || p_const s then 0 else 0x80000000).
Definition flag (s : seg) (i : Z) : bool :=
  if p_chars s =? 0 then Z.testbit (standard s) i
  else if i <? 25 then Z.testbit (standard s) i
  else if i <? 32 then Z.testbit (p_chars s) (i - 24) else false.

(** ** Sums over the table *)
Definition has (bit : Z) (x : sect) : bool := negb (Z.land (t_chars x) bit =? 0).
Definition base_of (bit : Z) (t : list sect) : Z := match filter (has bit) t with x :: _ => t_va x | [] => 0 end.
Definition size_of_all (bit : Z) (t : list sect) : Z := wrap 32 (fold_right (fun x n => t_raw x + n) 0 (filter (has bit) t)).
