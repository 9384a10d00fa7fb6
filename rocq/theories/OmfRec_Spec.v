(** An OMF reader following the TIS OMF specification; independent of the
    writer in OmfRec_Model (only the data type of a record's contents, as
    handed to the writer, is shared). *)
From Verif Require Import Base OmfRec_Model.

(** ** Record framing: type byte, 16-bit length of the rest, contents,
    checksum byte that makes all bytes of the record sum to 0 mod 256. *)
Definition total (l : list Z) : Z := fold_right Z.add 0 l.

Fixpoint read_frames (fuel : nat) (l : list Z) : option (list (Z * list Z)) :=
  match fuel with
  | O => None
  | S k =>
    match l with
    | [] => Some []
    | cmd :: l0 :: l1 :: rest =>
        let len := Z.to_nat (l0 + 256 * l1) in
        let body := firstn len rest in
        if (Nat.eqb (length body) len && Nat.ltb 0 len
            && (total (cmd :: l0 :: l1 :: body) mod 256 =? 0))%bool then
          match read_frames k (skipn len rest) with
          | Some fs => Some ((cmd, removelast body) :: fs)
          | None => None
          end
        else None
    | _ => None
    end
  end.
Definition read_module (l : list Z) : option (list (Z * list Z)) :=
  read_frames (S (length l)) l.

(** ** Contents *)
(** index field: one byte below 80h, else two bytes, high byte first, top bit set *)
Definition rd_index (l : list Z) : option (Z * list Z) :=
  match l with
  | b :: r => if b <? 128 then Some (b, r)
              else match r with c :: r' => Some ((b - 128) * 256 + c, r') | [] => None end
  | [] => None
  end.
Definition rd_byte (l : list Z) : option (Z * list Z) :=
  match l with b :: r => Some (b, r) | [] => None end.
Definition rd_word (l : list Z) : option (Z * list Z) :=
  match l with a :: b :: r => Some (a + 256 * b, r) | _ => None end.
Definition rd_dword (l : list Z) : option (Z * list Z) :=
  match l with a :: b :: c :: d :: r => Some (a + 256 * b + 65536 * c + 16777216 * d, r) | _ => None end.
Definition rd_ofs (is32 : bool) := if is32 then rd_dword else rd_word.

Definition bindo {A B} (o : option A) (f : A -> option B) : option B :=
  match o with Some a => f a | None => None end.
Notation "' p <- e ;; f" := (bindo e (fun x => match x with p => f end))
  (at level 61, p pattern, e at next level, right associativity).

(** base group, base segment, frame (present only if both are 0) *)
Definition rd_base (l : list Z) : option (base_info * list Z) :=
  '(g, l) <- rd_index l ;;
  '(s, l) <- rd_index l ;;
  if ((g =? 0) && (s =? 0))%bool then
    '(f, l) <- rd_word l ;;
    Some ({| grp_idx := g; seg_idx := s; frame := f |}, l)
  else Some ({| grp_idx := g; seg_idx := s; frame := 0 |}, l).

(** What a linker sees. *)
Inductive view :=
| V_plain (cmd : Z) (is32 : bool) (data : list Z)
| V_coment (attr cls : Z) (data : list Z)
| V_modend (main : bool) (start : option (bool * list Z))
| V_segdef (is32 : bool) (i : segdef_info)
| V_ledata (cmd : Z) (is32 : bool) (idx ofs : Z) (data : list Z)
| V_base (cmd : Z) (is32 : bool) (b : base_info) (data : list Z)
| V_comdat (is32 : bool) (i : comdat_info) (data : list Z)
| V_linsym (is32 : bool) (flags lname : Z) (data : list Z).

Definition rd_segdef (is32 : bool) (l : list Z) : option view :=
  '(acbp, l) <- rd_byte l ;;
  let align := acbp / 32 in
  let combine := acbp / 4 mod 8 in
  let big := acbp / 2 mod 2 in
  let use32 := acbp mod 2 in
  '(fr, l) <- (if align =? 0 then rd_word l else Some (0, l)) ;;
  '(fo, l) <- (if align =? 0 then rd_byte l else Some (0, l)) ;;
  '(len, l) <- rd_ofs is32 l ;;
  let len := if big =? 1 then (if is32 then 2 ^ 32 else 65536) else len in
  '(n1, l) <- rd_index l ;;
  '(n2, l) <- rd_index l ;;
  '(n3, l) <- rd_index l ;;
  match l with
  | [] => Some (V_segdef is32
            {| sd_use32 := use32; sd_align := align; sd_combine := combine;
               sd_abs_frame := fr; sd_abs_offset := fo; sd_length := len;
               sd_seg_lname := n1; sd_class_lname := n2; sd_ovl_lname := n3 |})
  | _ => None
  end.

(** Record types by their (even) number; odd numbers are the 32-bit forms. *)
Definition rd_contents (f : Z * list Z) : option view :=
  let (c, l) := f in
  let cmd := c - c mod 2 in
  let is32 := (c mod 2 =? 1) in
  if cmd =? 0x88 then
    '(a, l) <- rd_byte l ;; '(k, l) <- rd_byte l ;; Some (V_coment a k l)
  else if cmd =? 0x8a then
    '(m, l) <- rd_byte l ;;
    if m / 64 mod 2 =? 1 then Some (V_modend (m / 128 =? 1) (Some (is32, l)))
    else Some (V_modend (m / 128 =? 1) None)
  else if cmd =? 0x98 then rd_segdef is32 l
  else if ((cmd =? 0xa0) || (cmd =? 0xa2))%bool then
    '(i, l) <- rd_index l ;; '(o, l) <- rd_ofs is32 l ;; Some (V_ledata cmd is32 i o l)
  else if ((cmd =? 0x90) || (cmd =? 0xb6) || (cmd =? 0x94))%bool then
    '(b, l) <- rd_base l ;; Some (V_base cmd is32 b l)
  else if cmd =? 0xc2 then
    '(fl, l) <- rd_byte l ;; '(at_, l) <- rd_byte l ;; '(al, l) <- rd_byte l ;;
    '(o, l) <- rd_ofs is32 l ;; '(ti, l) <- rd_index l ;;
    '(b, l) <- (if at_ mod 16 =? 0 then rd_base l
                else Some ({| grp_idx := 0; seg_idx := 0; frame := 0 |}, l)) ;;
    '(pl, l) <- rd_index l ;;
    Some (V_comdat is32 {| cd_flags := fl; cd_attributes := at_; cd_align := al;
                           cd_offset := o; cd_type_idx := ti; cd_base := b;
                           cd_public_lname := pl |} l)
  else if cmd =? 0xc4 then
    '(fl, l) <- rd_byte l ;; '(n, l) <- rd_index l ;; Some (V_linsym is32 fl n l)
  else Some (V_plain cmd is32 l).

Fixpoint map_opt {A B} (f : A -> option B) (l : list A) : option (list B) :=
  match l with
  | [] => Some []
  | a :: r => match f a, map_opt f r with Some b, Some bs => Some (b :: bs) | _, _ => None end
  end.
Definition read_views (l : list Z) : option (list view) :=
  bindo (read_module l) (map_opt rd_contents).

(** ** Which requests are meaningful (ranges of the C field types; indices
    that OMF can represent) and what they mean. *)
Definition u8 v := 0 <= v < 2 ^ 8.
Definition u16 v := 0 <= v < 2 ^ 16.
Definition u32 v := 0 <= v < 2 ^ 32.
Definition idx15 v := 0 <= v < 2 ^ 15.
Definition bit v := v = 0 \/ v = 1.

Definition base_ok (b : base_info) : Prop :=
  idx15 (grp_idx b) /\ idx15 (seg_idx b) /\ u16 (frame b) /\
  (grp_idx b = 0 /\ seg_idx b = 0 \/ frame b = 0).

(** an offset field must fit its 16 or 32 bits *)
Definition ofs_ok (is32 v : Z) : Prop := 0 <= v < (if is32 =? 0 then 2 ^ 16 else 2 ^ 32).

Definition rec_ok (r : omf_rec) : Prop :=
  bit (r_is32 r) /\ Forall is_byte (r_data r) /\
  let c := r_cmd r in
  match r_d r with
  | D_none => (In c [0x80; 0x8c; 0x96; 0x9a; 0xb0; 0xb4; 0xb8; 0xbc; 0xc6; 0xca] /\ r_is32 r = 0) \/
              In c [0x9c; 0xb2; 0xc8]
  | D_coment a k => c = 0x88 /\ u8 a /\ u8 k
  | D_modend _ _ => c = 0x8a
  | D_segdef i => c = 0x98 /\ bit (sd_use32 i) /\ 0 <= sd_align i < 8 /\ 0 <= sd_combine i < 8 /\
      u16 (sd_abs_frame i) /\ u8 (sd_abs_offset i) /\
      (sd_align i = 0 \/ sd_abs_frame i = 0 /\ sd_abs_offset i = 0) /\
      0 <= sd_length i <= (if r_is32 r =? 0 then 2 ^ 16 else 2 ^ 32 - 1) /\
      idx15 (sd_seg_lname i) /\ idx15 (sd_class_lname i) /\ idx15 (sd_ovl_lname i) /\ r_data r = []
  | D_ledata i o => (c = 0xa0 \/ c = 0xa2) /\ idx15 i /\ ofs_ok (r_is32 r) o
  | D_base b => In c [0x90; 0xb6; 0x94] /\ base_ok b
  | D_comdat i => c = 0xc2 /\ u8 (cd_flags i) /\ u8 (cd_attributes i) /\ u8 (cd_align i) /\
      ofs_ok (r_is32 r) (cd_offset i) /\ idx15 (cd_type_idx i) /\ base_ok (cd_base i) /\
      (cd_attributes i mod 16 = 0 \/ grp_idx (cd_base i) = 0 /\ seg_idx (cd_base i) = 0 /\ frame (cd_base i) = 0) /\
      idx15 (cd_public_lname i)
  | D_linsym f n => c = 0xc4 /\ u8 f /\ idx15 n
  end.

Definition meaning (r : omf_rec) : view :=
  let is32 := (r_is32 r =? 1) in
  match r_d r with
  | D_none => V_plain (r_cmd r) is32 (r_data r)
  | D_coment a k => V_coment a k (r_data r)
  | D_modend m s => V_modend m (if s then Some (is32, r_data r) else None)
  | D_segdef i => V_segdef is32 i
  | D_ledata i o => V_ledata (r_cmd r) is32 i o (r_data r)
  | D_base b => V_base (r_cmd r) is32 b (r_data r)
  | D_comdat i => V_comdat is32 i (r_data r)
  | D_linsym f n => V_linsym is32 f n (r_data r)
  end.
