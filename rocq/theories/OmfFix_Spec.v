(** FIXUPP subrecords as the TIS OMF specification reads them, and what a fixup
    asks for. *)
From Verif Require Import Base OmfRec_Spec OmfFix_Model.

(** what an address counts from *)
Inductive base := BSeg (i : Z) | BGrp (i : Z) | BExt (i : Z).
(** what is patched *)
Inductive place := LowByte | Offset16 | Selector | Pointer16 | HighByte | LoaderOffset16 | Offset32 | Pointer32 | LoaderOffset32.
Record reloc := { r_at : Z; r_place : place; r_self : bool; r_frame : base; r_target : base; r_disp : Z }.

(** * Reading *)
Definition place_of (n : Z) : option place :=
  match n with
  | 0 => Some LowByte | 1 => Some Offset16 | 2 => Some Selector | 3 => Some Pointer16 | 4 => Some HighByte | 5 => Some LoaderOffset16
  | 9 => Some Offset32 | 11 => Some Pointer32 | 13 => Some LoaderOffset32 | _ => None
  end.
Definition base_of (m i : Z) : option base := match m with 0 => Some (BSeg i) | 1 => Some (BGrp i) | 2 => Some (BExt i) | _ => None end.
(** fix data byte F fff T P tt and the fields behind it; threads are not used *)
Definition rd_ref (is32 : bool) (l : list Z) : option (base * base * Z * list Z) :=
  '(d, l) <- rd_byte l ;;
  if (d / 128 =? 1) || (d / 8 mod 2 =? 1) then None
  else
    let m := d / 16 mod 8 in
    '(fr, l) <- (if m <=? 2 then '(i, l) <- rd_index l ;; match base_of m i with Some b => Some (Some b, l) | None => None end
                 else if m =? 5 then Some (None, l) else None) ;;
    '(ti, l) <- rd_index l ;;
    match base_of (d mod 4) ti with
    | None => None
    | Some t =>
        '(disp, l) <- (if d / 4 mod 2 =? 1 then Some (0, l) else rd_ofs is32 l) ;;
        Some (match fr with Some b => b | None => t end, t, disp, l)
    end.
Definition rd_fixup (is32 : bool) (l : list Z) : option (reloc * list Z) :=
  '(a, l) <- rd_byte l ;; '(b, l) <- rd_byte l ;;
  if negb (a / 128 =? 1) then None
  else match place_of (a / 4 mod 16) with
       | None => None
       | Some p =>
           '(fr, t, disp, l) <- rd_ref is32 l ;;
           Some ({| r_at := 256 * (a mod 4) + b; r_place := p; r_self := (a / 64 mod 2 =? 0); r_frame := fr; r_target := t; r_disp := disp |}, l)
       end.
(** all subrecords of a record; every one has at least 4 bytes *)
Fixpoint rd_fixups (n : nat) (is32 : bool) (l : list Z) : option (list reloc) :=
  match l with
  | [] => Some []
  | _ => match n with
         | O => None
         | S n => '(r, l) <- rd_fixup is32 l ;; 'rs <- rd_fixups n is32 l ;; Some (r :: rs)
         end
  end.

(** * What a fixup asks for *)
Definition asked_place (fx : fixup) : option (place * bool) :=
  match f_type fx, f_loader_resolved fx with
  | 1, _ => Some (LowByte, true) | 4, _ => Some (LowByte, false)
  | 2, false => Some (Offset16, true) | 5, false => Some (Offset16, false)
  | 2, true => Some (LoaderOffset16, true) | 5, true => Some (LoaderOffset16, false)
  | 3, false => Some (Offset32, true) | 6, false => Some (Offset32, false)
  | 3, true => Some (LoaderOffset32, true) | 6, true => Some (LoaderOffset32, false)
  | 11, _ => Some (HighByte, false) | 8, _ => Some (Selector, false)
  | 9, _ => Some (Pointer16, false) | 10, _ => Some (Pointer32, false)
  | _, _ => None
  end.
(** the frame that was selected (by the segment, its group, ASSUME or an override): segment or group *)
Definition selected (fx : fixup) : option base :=
  match f_frame_type fx with 0 => Some (BSeg (f_frame_datum fx)) | 1 => Some (BGrp (f_frame_datum fx)) | _ => None end.
Definition asked_target (fx : fixup) : option base :=
  match f_sym fx with
  | NoSym => selected fx
  | Undefined => None
  | Group i => Some (BGrp i)
  | Segment i => Some (BSeg i)
  | External i _ => Some (BExt i)
  | Internal true _ => Some (match selected fx with Some b => b | None => BSeg (f_frame_datum fx) end)
  | Internal false s => match s with None => None | Some (comdat, i) => Some (if comdat : bool then BExt i else BSeg i) end
  end.
(** no frame selected: that of the target. For an external the selected group
    may be its own one *)
Definition asked_frame (fx : fixup) (t : base) : base :=
  match f_sym fx with
  | NoSym | Internal false (Some (true, _)) => t
  | External _ g => match selected fx with None => t | Some (BGrp 0) => BGrp g | Some b => b end
  | _ => match selected fx with None => t | Some b => b end
  end.
Definition asked (start_loc : Z) (fx : fixup) : option reloc :=
  match asked_place fx, asked_target fx with
  | Some (p, s), Some t =>
      Some {| r_at := f_locofs fx - start_loc; r_place := p; r_self := s; r_frame := asked_frame fx t; r_target := t; r_disp := 0 |}
  | _, _ => None
  end.
(** the frame is one segment and the target is in another one (or both are groups) *)
Definition clash (f t : base) : bool :=
  match f, t with BSeg i, BSeg j | BGrp i, BGrp j => negb (i =? j) | _, _ => false end.

(** values that occur: 16-bit indices below 2^15 *)
Definition idx_ok (i : Z) : Prop := 0 <= i < 2 ^ 15.
Definition sym_ok (s : symref) : Prop :=
  match s with
  | Group i | Segment i | Internal _ (Some (_, i)) => idx_ok i
  | External i g => idx_ok i /\ idx_ok g
  | _ => True
  end.
Definition fixup_ok (fx : fixup) : Prop :=
  In (f_frame_type fx) [FRAME_SEG; FRAME_GRP; FRAME_TARG; FRAME_NONE] /\ idx_ok (f_frame_datum fx) /\ sym_ok (f_sym fx) /\
  (f_sym fx = NoSym -> f_frame_type fx <> FRAME_TARG).

(** the start address in MODEND: target with displacement; the frame is that of
    the group or the target's own *)
Definition asked_start (fx : fixup) (offset displ : Z) (wide : bool) : option (base * base * Z) :=
  let t := match f_sym fx with External i _ => Some (BExt i) | Internal _ (Some (_, i)) => Some (BSeg i) | _ => None end in
  match t with
  | None => None
  | Some t =>
      Some (match f_sym fx, selected fx with
            | External _ g, Some (BGrp 0) => BGrp g
            | _, Some (BGrp i) => BGrp i
            | _, _ => t
            end, t, (offset + displ) mod (if wide then 2 ^ 32 else 2 ^ 16))
  end.
