(** Memory images and relocations: what a history of output operations means and
    what a linker loads from the records. *)
From Verif Require Import Base OmfRec_Spec OmfFix_Model OmfFix_Spec OmfData_Model.

(** memory: segment, offset *)
Definition mem := Z -> Z -> option Z.
Definition empty : mem := fun _ _ => None.
Definition put (m : mem) (s a b : Z) : mem := fun s' a' => if (s' =? s) && (a' =? a) then Some b else m s' a'.
Fixpoint put_bytes (m : mem) (s a : Z) (bs : list Z) : mem := match bs with [] => m | b :: r => put_bytes (put m s a b) s (a + 1) r end.
Definition same (m1 m2 : mem) : Prop := forall s a, m1 s a = m2 s a.

(** * The history *)
(** per segment: its index, the location counter and the highest one so far *)
Record counter := { c_idx : Z; loc : Z; high : Z }.
Record world := { counters : list counter; here : nat; image : mem; relocs : list (Z * fixup) }.
Definition none : counter := {| c_idx := 0; loc := 0; high := 0 |}.
Definition at_ (w : world) : counter := nth (here w) (counters w) none.
Definition move (w : world) (v : Z) : world :=
  {| counters := set_nth (here w) {| c_idx := c_idx (at_ w); loc := v; high := Z.max (high (at_ w)) v |} (counters w); here := here w; image := image w; relocs := relocs w |}.
Definition emit (bs : list Z) (w : world) : world :=
  let w' := move w (loc (at_ w) + zlen bs) in
  {| counters := counters w'; here := here w'; image := put_bytes (image w) (c_idx (at_ w)) (loc (at_ w)) bs; relocs := relocs w |}.
(** in OMF the offset of the target is found in the item: it is added to the first 4 bytes *)
Definition with_target (fx : fixup) (bs : list Z) : list Z :=
  if match f_sym fx with NoSym => true | _ => false end || (f_type fx =? 8) then bs
  else let v := le_val bs in le_bytes (length bs) (v - v mod 2 ^ 32 + (v + f_sym_offset fx) mod 2 ^ 32).
Definition act (o : op) (w : world) : world :=
  match o with
  | OByte b => emit [b] w
  | OBytes bs None => emit bs w
  | OBytes bs (Some fx) =>
      let w' := emit (with_target fx bs) w in
      {| counters := counters w'; here := here w'; image := image w'; relocs := relocs w ++ [(c_idx (at_ w), set_locofs fx (loc (at_ w)))] |}
  | OWide bs => emit (flat_map (fun c => [c; 0]) bs) w
  | OBin bs => emit bs w
  | OOrg v => move w v
  | OSkip v => move w (loc (at_ w) + v)
  | OSeg n => {| counters := counters w; here := n; image := image w; relocs := relocs w |}
  end.
Definition start (sizes : list (Z * Z)) : world :=
  {| counters := map (fun '(i, m) => {| c_idx := i; loc := 0; high := m |}) sizes; here := 0; image := empty; relocs := [] |}.
Definition acts (os : list op) (w : world) : world := fold_left (fun w o => act o w) os w.

(** * Loading *)
Record loaded := { l_mem : mem; l_relocs : list (Z * reloc) }.
Definition shift (o : Z) (r : reloc) : reloc :=
  {| r_at := o + r_at r; r_place := r_place r; r_self := r_self r; r_frame := r_frame r; r_target := r_target r; r_disp := r_disp r |}.
(** 32-bit fields are for 32-bit records *)
Definition wide_place (p : place) : bool := match p with Offset32 | Pointer32 | LoaderOffset32 => true | _ => false end.
Definition rd_fixupp (is32 : bool) (data : list Z) : option (list reloc) :=
  match rd_fixups (length data) is32 data with
  | Some rs => if is32 || forallb (fun r => negb (wide_place (r_place r))) rs then Some rs else None
  | None => None
  end.
(** [last]: segment and offset of the last data record *)
Fixpoint load (vs : list view) (last : Z * Z) (l : loaded) : option loaded :=
  match vs with
  | [] => Some l
  | V_ledata 0xa0 _ s o data :: vs => load vs (s, o) {| l_mem := put_bytes (l_mem l) s o data; l_relocs := l_relocs l |}
  | V_plain 0x9c is32 data :: vs =>
      match rd_fixupp is32 data with
      | Some rs => load vs last {| l_mem := l_mem l; l_relocs := l_relocs l ++ map (fun r => (fst last, shift (snd last) r)) rs |}
      | None => None
      end
  | _ => None
  end.

(** * Histories *)
Definition op_ok (nsegs : nat) (o : op) : Prop :=
  match o with
  | OByte b => is_byte b
  | OBytes bs fx =>
      Forall is_byte bs /\ zlen bs < 2 ^ 31 /\
      match fx with
      | Some fx => bs <> [] /\ fixup_ok fx /\ match asked 0 fx with Some r => clash (r_frame r) (r_target r) = false | None => True end
      | None => True
      end
  | OWide bs | OBin bs => Forall is_byte bs /\ zlen bs < 2 ^ 31
  | OOrg v | OSkip v => 0 <= v < 2 ^ 32
  | OSeg n => (n < nsegs)%nat
  end.
(** the segments fit in 32 bits *)
Definition fits (w : world) : Prop := Forall (fun c => high c < 2 ^ 32) (counters w).
Definition asked_of (p : Z * fixup) : list (Z * reloc) := match asked 0 (snd p) with Some r => [(fst p, r)] | None => [] end.
(** nothing loaded yet *)
Definition no_load : loaded := {| l_mem := empty; l_relocs := [] |}.
(** operations that always fit in the buffer of 1024 bytes *)
Definition gentle (o : op) : Prop := match o with OBytes bs _ => zlen bs <= 1024 | OWide bs => zlen bs <= 5 | OBin bs => zlen bs <= 11 | _ => True end.
(** the segments: OMF index and initial size *)
Definition sizes_ok (sizes : list (Z * Z)) : Prop := sizes <> [] /\ Forall (fun p => 0 <= fst p < 2 ^ 15 /\ 0 <= snd p < 2 ^ 32) sizes.
