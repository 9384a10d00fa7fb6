(** C13: the subrecords of FIXUPP records decode to what the fixup asks for. *)
From Verif Require Import Base OmfRec_Spec OmfFix_Model OmfFix_Spec OmfFix_Proofs.

Theorem C13_subrecord : forall fx start wide r rest, fixup_ok fx -> 0 <= f_locofs fx - start < 1024 ->
  asked start fx = Some r -> clash (r_frame r) (r_target r) = false ->
  rd_fixup wide (OmfFixGenFix fx start wide ++ rest) = Some (r, rest).
Proof. intros. now apply fixup_read. Qed.
Print Assumptions C13_subrecord.

(** a fixup that asks for nothing writes nothing *)
Theorem C13_nothing : forall fx start wide, fixup_ok fx -> asked start fx = None -> OmfFixGenFix fx start wide = [].
Proof. intros. now apply fixup_none. Qed.
Print Assumptions C13_nothing.

(** within the space reserved by the callers (FIX_GEN_MAX) *)
Theorem C13_size : forall fx start wide, fixup_ok fx ->
  zlen (OmfFixGenFix fx start wide) <= 7 /\ Forall is_byte (OmfFixGenFix fx start wide) /\ (asked start fx <> None -> 4 <= zlen (OmfFixGenFix fx start wide)).
Proof. intros. now apply fixup_size. Qed.
Print Assumptions C13_size.

Theorem C13_start_address : forall fx offset displ wide x rest, fixup_ok fx -> asked_start fx offset displ wide = Some x ->
  exists bs, OmfFixGenFixModend fx offset displ wide = Ok bs /\ rd_ref wide (bs ++ rest) = Some (x, rest) /\ zlen bs <= 9.
Proof. intros. now apply start_read. Qed.
Print Assumptions C13_start_address.

(** the bytes of any logical reference: frame given by segment, group, external or the target, with and without displacement *)
Theorem C13_logref : forall fr t d sec wide rest, (forall b, fr = Some b -> idx_ok (index b)) -> idx_ok (index t) ->
  rd_ref wide (TranslateLogref (ref_of fr t d sec) wide ++ rest) =
  Some (match fr with Some b => b | None => t end, t, d mod (if wide then 2 ^ 32 else 2 ^ 16), rest).
Proof. exact logref_read. Qed.
Print Assumptions C13_logref.
Example C13_logref_example : TranslateLogref (ref_of (Some (BExt 300)) (BGrp 2) (-2) true) false = [0x21; 0x81; 0x2c; 2; 0xfe; 0xff].
Proof. reflexivity. Qed.

(** With a selected frame that is another segment than the target's one the frame is lost:
    mov ax, S1:lab where lab is in S2. *)
Definition overridden : fixup :=
  {| f_type := 5; f_loader_resolved := false; f_frame_type := 0; f_frame_datum := 1; f_sym := Internal false (Some (false, 2)); f_sym_offset := 4; f_locofs := 0x23 |}.
Theorem C13_frame_refuted : fixup_ok overridden /\
  (exists r r', asked 0 overridden = Some r /\ rd_fixup false (OmfFixGenFix overridden 0 false) = Some (r', []) /\
     r_frame r = BSeg 1 /\ r_frame r' = BSeg 2 /\ r_target r' = r_target r /\ r_at r' = r_at r /\ r_place r' = r_place r).
Proof.
  split.
  - split; [left; reflexivity|]. split; [vm_compute; split; congruence|]. split; [vm_compute; split; congruence|]. intros E. discriminate E.
  - eexists. eexists. split; [vm_compute; reflexivity|]. split; [vm_compute; reflexivity|]. repeat split.
Qed.
Print Assumptions C13_frame_refuted.

(** an external with index 300 in a group's frame, self-relative, at offset 0x3a5 of the record *)
Definition far_call : fixup :=
  {| f_type := 2; f_loader_resolved := false; f_frame_type := 1; f_frame_datum := 0x81; f_sym := External 300 0; f_sym_offset := 0; f_locofs := 0x13a5 |}.
Example C13_far_call : OmfFixGenFix far_call 0x1000 false = [0x87; 0xa5; 0x16; 0x80; 0x81; 0x81; 0x2c] /\
  asked 0x1000 far_call = Some {| r_at := 0x3a5; r_place := Offset16; r_self := true; r_frame := BGrp 0x81; r_target := BExt 300; r_disp := 0 |} /\ fixup_ok far_call.
Proof.
  split; [vm_compute; reflexivity|]. split; [vm_compute; reflexivity|].
  split; [right; left; reflexivity|]. split; [vm_compute; split; congruence|]. split; [vm_compute; repeat split; congruence|]. intros E. discriminate E.
Qed.
Example C13_start : OmfFixGenFixModend {| f_type := 5; f_loader_resolved := false; f_frame_type := 1; f_frame_datum := 2; f_sym := Internal false (Some (false, 0x90)); f_sym_offset := 0; f_locofs := 0 |}
    0x1234 2 false = Ok [0x10; 2; 0x80; 0x90; 0x36; 0x12].
Proof. reflexivity. Qed.
