(** What a flat binary and an MZ file are: packed aligned segments, addresses,
    relocation entries, the header. *)
From Coq Require Import Permutation Sorted.
From Verif Require Import Base Sort_Model Sort_Spec Bin_Model.

(** segments as the passes leave them *)
Definition seg_ok (ngroups : nat) (s : seg) : Prop :=
  0 <= s_align s <= 31 /\ 0 <= s_start_loc s <= s_max_offset s /\ s_info s = false /\ 0 <= s_abs_frame s < 2 ^ 16 /\
  match s_grp s with Some g => (g < ngroups)%nat | None => True end.
Definition real (ss : list seg) (k : nat) : bool := negb (s_type (nth k ss no_seg) =? 5).
(** room for all of them, in any order *)
Definition room (ss : list seg) (ks : list nat) : Z := fold_right (fun k x => (if real ss k then 2 ^ s_align (nth k ss no_seg) + s_max_offset (nth k ss no_seg) else 0) + x) 0 ks.

(** the bytes of a segment in the file *)
Definition extent (s : seg) : Z := s_max_offset s - s_start_loc s.
(** ... that are reserved for it: nothing for uninitialised segments of an MZ file *)
Definition reserved (fmt : format) (s : seg) : Z := match fmt with MZ => if s_type s =? 3 then 0 else extent s | NONE => extent s end.
(** every segment starts at the first multiple of its alignment behind its predecessor *)
Fixpoint packed (fmt : format) (ss : list seg) (from : Z) (ks : list nat) : Prop :=
  match ks with
  | [] => True
  | k :: r =>
      if real ss k then
        let s := nth k ss no_seg in
        from <= s_fileofs s < from + 2 ^ s_align s /\ (2 ^ s_align s | s_fileofs s) /\ packed fmt ss (s_fileofs s + reserved fmt s) r
      else packed fmt ss from r
  end.
(** the location counter's start survives only in the first segment, in those without
    group and in those of the flat group whose name has no '$' *)
Definition keeps_org (flat_grp : option nat) (is_first : bool) (s : seg) : bool :=
  is_first ||
  match s_grp s with
  | None => true
  | Some g => match flat_grp with Some f => Nat.eqb g f && negb (existsb (Z.eqb 36) (s_name s)) | None => false end
  end.
(** the addresses that the code assumes: of the segment's location 0 *)
Definition base (im : image) (k : nat) : Z := s_start (segment im k) + match s_grp (segment im k) with Some g => g_offset (group_of im g) | None => 0 end.
Definition sum_org (im : image) (ks : list nat) : Z := fold_right (fun k x => (if real (segs im) k then s_start_loc (segment im k) else 0) + x) 0 ks.

(** real mode addresses *)
Definition linear (seg ofs : Z) : Z := 16 * seg + ofs.

(** * the file *)
Definition byte_at (file : list Z) (p : Z) : Z := if p <? 0 then 0 else nth (Z.to_nat p) file 0.
(** words of a header *)
Definition word_at (file : list Z) (p : Z) : Z := byte_at file p + 256 * byte_at file (p + 1).
(** [n] entries of the relocation table at p *)
Fixpoint entries (n : nat) (file : list Z) (p : Z) : list (Z * Z) :=
  match n with O => [] | S n => (word_at file p, word_at file (p + 2)) :: entries n file (p + 4) end.

(** segment k's bytes are in the file: it has data or is followed by one that has *)
Fixpoint emits (im : image) (l : list nat) (k : nat) : Prop :=
  match l with
  | [] => False
  | j :: r => (j = k /\ real (segs im) j = true /\ 0 < extent (segment im j) /\ (s_written (segment im j) <> 0 \/ exists d, In d r /\ s_written (segment im d) <> 0)) \/ emits im r k
  end.
Definition occupies (im : image) (k : nat) (p : Z) : Prop := s_fileofs (segment im k) <= p < s_fileofs (segment im k) + extent (segment im k).

(** * fixups *)
(** n bytes at p *)
Definition field (b : list Z) (p n : Z) : Z := le_val (firstn (Z.to_nat n) (skipn (Z.to_nat p) b)).
Definition grp_base (im : image) (k : nat) : Z := match s_grp (segment im k) with Some g => g_offset (group_of im g) | None => 0 end.
(** what a fixup refers to: segment and offset *)
Definition target (f : fixup) : option (nat * Z) :=
  match f_sym f with
  | SVar (Some k) | SSeg k => Some (k, f_offset f)
  | SLab (Some k) o => Some (k, o + f_offset f)
  | _ => None
  end.
(** the address that offsets count from *)
Definition frame_base (im : image) (f : fixup) (k : nat) : Z :=
  match s_grp (segment im k) with
  | None => 16 * (s_start (segment im k) / 16)
  | Some g => if f_frame f =? 0 then grp_base im k + 16 * (s_start (segment im k) / 16) else 16 * (grp_base im k / 16)
  end.
(** the segment that a section-relative offset counts from: that with the name up to the '$' *)
Definition named (l : list nat) (im : image) (k d : nat) : Prop :=
  exists p q, s_name (segment im k) = p ++ 36 :: q /\ ~ In 36 p /\ exists u v, l = u ++ d :: v /\ s_name (segment im d) = p /\ forall x, In x u -> s_name (segment im x) <> p.
(** the selector that is stored for a label or segment *)
Inductive selector (fmt : format) (im : image) (f : fixup) (k : nat) : Z -> Prop :=
| sel_abs : s_type (segment im k) = 5 -> selector fmt im f k (s_abs_frame (segment im k))
| sel_grp : forall g, fmt = MZ -> s_type (segment im k) <> 5 -> f_frame f = 1 -> s_grp (segment im k) = Some g -> selector fmt im f k (g_offset (group_of im g) / 16)
| sel_seg : fmt = MZ -> s_type (segment im k) <> 5 -> f_frame f <> 1 -> selector fmt im f k (base im k / 16).
(** [effect fmt l im s f w old new]: the w bytes at the fixup's location change from old to new *)
Inductive effect (fmt : format) (l : list nat) (im : image) (s : seg) (f : fixup) : Z -> Z -> Z -> Prop :=
| eff_rel : forall n k o old, (f_type f = 1 /\ n = 1 \/ f_type f = 2 /\ n = 2 \/ f_type f = 3 /\ n = 4 /\ s_use64 s = false) -> target f = Some (k, o) ->
    effect fmt l im s f n old ((old + (s_start (segment im k) + o) - (s_start s + f_locofs f + n)) mod 2 ^ (8 * n))
| eff_rip : forall k o old, f_type f = 3 -> s_use64 s = true -> target f = Some (k, o) ->
    effect fmt l im s f 4 old ((old + (s_start (segment im k) + o) - (s_start s + f_locofs f + f_addbytes f)) mod 2 ^ 32)
| eff_off : forall n k o old, (f_type f = 4 /\ n = 1 \/ f_type f = 5 /\ n = 2 \/ f_type f = 6 /\ n = 4) -> target f = Some (k, o) ->
    effect fmt l im s f n old ((base im k + o - frame_base im f k) mod 2 ^ (8 * n))
| eff_off64 : forall k o old, f_type f = 7 -> target f = Some (k, o) ->
    effect fmt l im s f 8 old ((base im k + o - frame_base im f k) mod 2 ^ 32)
| eff_hibyte : forall k o old, f_type f = 11 -> target f = Some (k, o) ->
    effect fmt l im s f 1 old ((base im k + o - frame_base im f k) / 256 mod 256)
| eff_imgrel : forall k o old, f_type f = 12 -> target f = Some (k, o) ->
    effect fmt l im s f 4 old ((s_start (segment im k) + o - imagestart (cp im)) mod 2 ^ 32)
| eff_secrel : forall k o old, f_type f = 13 -> target f = Some (k, o) -> (forall d, ~ named l im k d) ->
    effect fmt l im s f 4 old ((o - s_start_loc (segment im k)) mod 2 ^ 32)
| eff_secrel_named : forall k d o old, f_type f = 13 -> target f = Some (k, o) -> named l im k d ->
    effect fmt l im s f 4 old ((s_start (segment im k) + o - s_start (segment im d)) mod 2 ^ 32)
| eff_ptr16 : forall k o sel old, f_type f = 9 -> target f = Some (k, o) -> selector fmt im f k sel ->
    effect fmt l im s f 4 old ((base im k + o - frame_base im f k) mod 2 ^ 16 + 2 ^ 16 * (sel mod 2 ^ 16))
| eff_ptr32 : forall k o sel old, f_type f = 10 -> target f = Some (k, o) -> selector fmt im f k sel ->
    effect fmt l im s f 6 old ((base im k + o - frame_base im f k) mod 2 ^ 32 + 2 ^ 32 * (sel mod 2 ^ 16))
| eff_seg_grp : forall g old, f_type f = 8 -> fmt = MZ -> f_sym f = SGrp g -> effect fmt l im s f 2 old ((g_offset (group_of im g) / 16) mod 2 ^ 16)
| eff_seg_abs : forall k old, f_type f = 8 -> f_sym f = SSeg k -> s_type (segment im k) = 5 -> effect fmt l im s f 2 old (s_abs_frame (segment im k) mod 2 ^ 16)
| eff_seg_seg : forall k old, f_type f = 8 -> fmt = MZ -> f_sym f = SSeg k -> s_type (segment im k) <> 5 -> effect fmt l im s f 2 old ((base im k / 16) mod 2 ^ 16)
| eff_seg_lab_grp : forall k o g old, f_type f = 8 -> fmt = MZ -> target f = Some (k, o) -> f_sym f <> SSeg k -> f_frame f = 1 -> s_grp (segment im k) = Some g ->
    effect fmt l im s f 2 old ((g_offset (group_of im g) / 16) mod 2 ^ 16)
| eff_seg_lab : forall k o old, f_type f = 8 -> fmt = MZ -> target f = Some (k, o) -> f_sym f <> SSeg k -> f_frame f <> 1 ->
    effect fmt l im s f 2 old ((s_start (segment im k) / 16) mod 2 ^ 16)
(** the binary format treats SEG label like a far pointer: two bytes too many *)
| eff_seg_none : forall k o old, f_type f = 8 -> fmt = NONE -> target f = Some (k, o) -> f_sym f <> SSeg k -> s_type (segment im k) = 5 ->
    effect fmt l im s f 4 old ((base im k + o - frame_base im f k) mod 2 ^ 16 + 2 ^ 16 * (s_abs_frame (segment im k) mod 2 ^ 16)).
Definition aimed (f : fixup) : Prop := target f <> None \/ (f_type f = 8 /\ exists g, f_sym f = SGrp g).
(** the location, relative to the buffer *)
Definition at_ (s : seg) (f : fixup) : Z := f_locofs f - s_start_loc s.
(** the bytes that are overwritten *)
Definition width (fmt : format) (f : fixup) : Z :=
  match f_type f with
  | 1 | 4 | 11 => 1 | 2 | 5 => 2 | 3 | 6 | 9 | 12 | 13 => 4 | 7 => 8 | 10 => 6
  | 8 => match fmt, f_sym f with NONE, SSeg _ => 2 | NONE, _ => 4 | MZ, _ => 2 end
  | _ => 0
  end.
(** addresses are 32-bit numbers *)
Definition addresses_ok (im : image) : Prop :=
  (forall k, 0 <= s_start (segment im k) /\ 0 <= base im k < 2 ^ 32) /\ (forall g, 0 <= g_offset (group_of im g)).
Definition apart (fmt : format) (s : seg) (f f' : fixup) : Prop := at_ s f + width fmt f <= at_ s f' \/ at_ s f' + width fmt f' <= at_ s f.
Definition within (fmt : format) (s : seg) (f : fixup) (b : list Z) : Prop := 0 <= at_ s f /\ at_ s f + width fmt f <= zlen b.

(** * orders *)
(** OPTION DOSSEG: code, segments of no known class, data, uninitialised data, stack *)
Definition rank (s : seg) : Z := match s_type s with 1 => 0 | 0 => 1 | 2 => 2 | 3 => 3 | 4 => 4 | _ => 5 end.
Definition before (o : order) (ss : list seg) (a b : nat) : bool (* a belongs behind b *) :=
  match o with
  | SEQ => false
  | DOSSEG => rank (nth a ss no_seg) >? rank (nth b ss no_seg)
  | ALPHA => strcmp_gt (s_name (nth a ss no_seg)) (s_name (nth b ss no_seg))
  end.
(** a segment that is reserved with its whole size: in MZ files not those of class BSS *)
Definition whole (fmt : format) (s : seg) : Prop := fmt = NONE \/ s_type s <> 3.

(** * MZ *)
(** where the selector of a fixup is, relative to the fixup's location *)
Definition selector_at (f : fixup) : Z := match f_type f with 9 => 2 | 10 => 4 | _ => 0 end.
(** selectors that the loader has to adjust: of labels and segments that aren't absolute *)
Definition relocatable (im : image) (f : fixup) : Prop :=
  (f_type f = 8 \/ f_type f = 9 \/ f_type f = 10) /\ match f_sym f with SSeg k | SLab (Some k) _ => s_type (segment im k) <> 5 | _ => True end.
(** the last paragraph that starts within the file or memory up to n *)
Definition power_of_two (a : Z) : Prop := exists j, 0 <= j <= 31 /\ a = 2 ^ j.
Definition mz_ok (d : mzdata) : Prop := 0x1e <= ofs_fixups d < 2 ^ 16 /\ 16 <= alignment d < 2 ^ 16 /\ power_of_two (alignment d) /\ 0 <= heapmin d < 2 ^ 16 /\ 0 <= heapmax d < 2 ^ 16.
(** the size of the file according to the header *)
Definition header_size (h : list Z) : Z := if word_at h 2 =? 0 then 512 * word_at h 4 else 512 * (word_at h 4 - 1) + word_at h 2.

(** * programs *)
Definition program_ok (ngroups : nat) (ss : list seg) : Prop :=
  (forall s, In s ss -> 0 <= s_type s <= 5 /\ 0 <= s_abs_frame s < 2 ^ 16 /\ (s_type (prepare s) <> 5 -> seg_ok ngroups s)) /\
  2 ^ 21 + room (map prepare ss) (seq 0 (length ss)) < 2 ^ 30.
Definition header (fmt : format) (d : mzdata) (ngroups : nat) (ss : list seg) : Z := sizehdr (cp (snd (initial fmt d ngroups ss))).
(** only the order of the segments, nothing about their addresses *)
Definition unplaced (s s' : seg) : Prop :=
  s_name s' = s_name s /\ s_type s' = s_type s /\ s_stack s' = s_stack s /\ s_align s' = s_align s /\ s_grp s' = s_grp s /\ s_use64 s' = s_use64 s /\ s_info s' = s_info s /\
  s_abs_frame s' = s_abs_frame s /\ s_max_offset s' = s_max_offset s /\ s_written s' = s_written s /\ s_buf s' = s_buf s /\ s_fix s' = s_fix s.

(** where the segments are: [ss] the segments, in the order of their definition; [ks] the order in the file;
    [l] the list of segments afterwards *)
Record placement (fmt : format) (flat_grp : option nat) (o : order) (hdr : Z) (ss : list seg) (l ks : list nat) (im : image) : Prop := {
  pl_order : stably_sorted (before o ss) (seq 0 (length ss)) ks;
  pl_list : Permutation (seq 0 (length ss)) l /\ (o <> DOSSEG -> l = ks);
  pl_sorted : StronglySorted (fun a b => real (segs im) a = true -> real (segs im) b = true -> s_fileofs (segment im a) <= s_fileofs (segment im b)) l;
  pl_same : forall k, unplaced (nth k ss no_seg) (segment im k);
  pl_packed : packed fmt (segs im) hdr ks;
  pl_org : forall pre k post, ks = pre ++ k :: post ->
    s_start_loc (segment im k) = if real ss k && negb (keeps_org flat_grp (negb (existsb (real ss) pre)) (nth k ss no_seg)) then 0 else s_start_loc (nth k ss no_seg);
  (** segments without group: the address is the place in the file, behind the header *)
  pl_alone : forall k, In k ks -> real ss k = true -> s_grp (nth k ss no_seg) = None -> base im k = s_fileofs (segment im k) - hdr;
  pl_abs : forall k, In k ks -> real ss k = false -> s_start (segment im k) = 16 * s_abs_frame (nth k ss no_seg);
  (** ... as long as groups are contiguous, also those with a group *)
  pl_group : forall pre mid k post g, ks = pre ++ mid ++ k :: post -> real ss k = true -> s_grp (nth k ss no_seg) = Some g -> 0 < s_max_offset (nth k ss no_seg) ->
    (forall j, In j pre -> real ss j = true -> s_grp (nth j ss no_seg) <> Some g) ->
    (forall j, In j mid -> real ss j = true -> s_grp (nth j ss no_seg) = Some g /\ whole fmt (nth j ss no_seg)) ->
    base im k = s_fileofs (segment im k) - hdr + sum_org im mid;
  pl_entry : fmt = NONE -> entryseg (cp im) = find (real ss) ks /\ imagestart (cp im) = match find (real ss) ks with Some k => s_start_loc (nth k ss no_seg) | None => 0 end
}.
(** [b'] is the contents b with all fixups done *)
Definition fixed_up (fmt : format) (l : list nat) (im : image) (k : nat) (b b' : list Z) : Prop :=
  let s := segment im k in
  zlen b' = zlen b /\
  (forall f, In f (s_fix s) -> within fmt s f b /\ effect fmt l im s f (width fmt f) (field b (at_ s f) (width fmt f)) (field b' (at_ s f) (width fmt f))) /\
  (forall i, 0 <= i < zlen b -> (forall f, In f (s_fix s) -> i < at_ s f \/ at_ s f + width fmt f <= i) -> nth (Z.to_nat i) b' 0 = nth (Z.to_nat i) b 0).
(** fixups as the passes leave them: with a symbol, not overlapping *)
Definition fixups_ok (fmt : format) (s : seg) : Prop := Forall aimed (s_fix s) /\ ForallOrdPairs (apart fmt s) (s_fix s).
(** the file behind the header: the contents of the segments; everything else is zero *)
Record file_ok (fmt : format) (hdr : Z) (l : list nat) (im : image) (file : list Z) : Prop := {
  fo_contents : forall k b, emits im l k -> s_buf (segment im k) = Some b ->
    exists b', fixed_up fmt l im k b b' /\ extent (segment im k) <= zlen b /\
    forall i, 0 <= i < extent (segment im k) -> byte_at file (s_fileofs (segment im k) + i) = nth (Z.to_nat i) b' 0;
  fo_gaps : forall p, hdr <= p -> (forall k b, emits im l k -> s_buf (segment im k) = Some b -> ~ occupies im k p) -> byte_at file p = 0;
  fo_length : hdr <= zlen file /\ (forall k b, emits im l k -> s_buf (segment im k) = Some b -> s_fileofs (segment im k) + extent (segment im k) <= zlen file) /\
    (zlen file = hdr \/ exists k b, emits im l k /\ s_buf (segment im k) = Some b /\ zlen file = s_fileofs (segment im k) + extent (segment im k))
}.
(** the relocations that the loader has to do, in the order of the segment list *)
Definition needs (ss : list seg) (f : fixup) : bool :=
  existsb (Z.eqb (f_type f)) [8; 9; 10] && match f_sym f with SSeg k | SLab (Some k) _ => real ss k | _ => true end.
Definition sites (ss : list seg) (l : list nat) : list (nat * fixup) :=
  flat_map (fun k => if real ss k then map (fun f => (k, f)) (filter (needs ss) (s_fix (nth k ss no_seg))) else []) l.
(** the frame of CS:IP: the group or, without group, the segment *)
Definition code_frame (im : image) (k : nat) : Z := match s_grp (segment im k) with Some g => g_offset (group_of im g) | None => s_start (segment im k) end.
(** the header of an MZ file *)
Record mz_file (d : mzdata) (hdr : Z) (ss : list seg) (l : list nat) (im : image) (start : option (nat * Z)) (file : list Z) : Prop := {
  mf_magic : word_at file 0 = 0x5a4d;
  mf_header : 16 * word_at file 8 = hdr /\ word_at file 24 = ofs_fixups d;
  mf_size : forall k b, emits im l k -> s_buf (segment im k) = Some b -> zlen file <= 2 ^ 25 - 512 -> header_size file = zlen file;
  mf_count : word_at file 6 = zlen (sites ss l);
  (** segment:offset of all selectors, relative to the load address *)
  mf_relocs : Forall2 (fun kf e => let '(k, f) := kf in let '(ofs, sg) := e in
      linear sg ofs mod 2 ^ 20 = (base im k + f_locofs f + selector_at f) mod 2 ^ 20 /\
      (base im k + f_locofs f + selector_at f < 2 ^ 20 -> linear sg ofs = base im k + f_locofs f + selector_at f))
    (sites ss l) (entries (Z.to_nat (word_at file 6)) file (word_at file 24));
  mf_start : match start with
             | None => word_at file 20 = 0 /\ word_at file 22 = 0
             | Some (k, o) => code_frame im k < 2 ^ 20 -> 0 <= base im k + o - 16 * (code_frame im k / 16) < 2 ^ 16 -> linear (word_at file 22) (word_at file 20) = base im k + o /\ word_at file 22 = code_frame im k / 16
             end;
  mf_stack : match find (fun k => s_stack (nth k ss no_seg)) l with
             | None => word_at file 14 = 0 /\ word_at file 16 = 0
             | Some k => (base im k <= 2 ^ 20 - 16 -> base im k <= 16 * word_at file 14 < base im k + 16) /\ word_at file 16 = s_max_offset (nth k ss no_seg) mod 2 ^ 16
             end;
  (** memory behind the file, in paragraphs *)
  mf_alloc : heapmin d <= word_at file 10 /\ word_at file 12 = Z.max (heapmax d) (word_at file 10);
  mf_memory : forall m, (forall k, In k l -> real ss k = true -> s_start_loc (segment im k) = 0) ->
    (exists k b, emits im l k /\ s_buf (segment im k) = Some b) ->
    (forall k, In k l -> real ss k = true -> s_fileofs (segment im k) + s_max_offset (segment im k) <= zlen file + 16 * m) -> 0 <= m < 2 ^ 16 ->
    (forall k, In k l -> real ss k = true -> s_fileofs (segment im k) + s_max_offset (segment im k) <= zlen file + 16 * word_at file 10) /\ word_at file 10 <= Z.max (heapmin d) m
}.
(** code buffers and fixups as the passes leave them *)
Definition buffers_ok (ss : list seg) : Prop :=
  forall s, In s ss -> (s_written s <> 0 -> s_type (prepare s) <> 5 /\ s_start_loc s < s_max_offset s) /\ (s_type (prepare s) <> 5 -> 0 < s_max_offset s -> exists b, s_buf s = Some b).
Definition locations_ok (ss : list seg) : Prop := forall s, In s ss -> s_type (prepare s) <> 5 -> forall f, In f (s_fix s) -> 0 <= f_locofs f < s_max_offset s.
(** fixups that the format has room for *)
Definition supported (fmt : format) (ss : list seg) (f : fixup) : Prop :=
  match f_type f with
  | 1 | 2 | 3 | 4 | 5 | 6 | 7 | 11 | 12 | 13 => target f <> None
  | 9 | 10 => exists k o, target f = Some (k, o) /\ (real ss k = false \/ (fmt = MZ /\ (f_frame f = 1 -> s_grp (nth k ss no_seg) <> None)))
  | 8 => match f_sym f with
         | SGrp _ => fmt = MZ
         | SSeg k => real ss k = false \/ fmt = MZ
         | _ => exists k o, target f = Some (k, o) /\ match fmt with MZ => f_frame f = 1 -> s_grp (nth k ss no_seg) <> None | NONE => real ss k = false end
         end
  | _ => False
  end.
(** code buffers as they are allocated (segment.c:1186-1219) *)
Definition buffer_fits (fmt : format) (s : seg) : Prop :=
  match s_buf s with
  | Some b => zlen b = s_max_offset s - s_start_loc s /\ forall f, In f (s_fix s) -> within fmt s f b
  | None => s_fix s = []
  end.
