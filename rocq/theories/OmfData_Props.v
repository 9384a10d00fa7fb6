(** C11: the LEDATA and FIXUPP records of an OMF module rebuild the image. *)
From Coq Require Import Permutation.
From Verif Require Import Base OmfRec_Model OmfRec_Spec OmfFix_Model OmfFix_Spec OmfData_Model OmfData_Spec OmfData_Proofs OmfDataRun_Proofs.

(** Whenever the pass ends: the records can be written, and loading what was
    written gives the bytes at their location counters, the relocations that were
    asked for and nothing else; the segments' sizes are the highest location
    counters; no record has more than 1024 bytes of data. *)
Theorem C11_image : forall sizes os st, sizes_ok sizes -> Forall (op_ok (length sizes)) os -> fits (acts os (start sizes)) -> module sizes os = Ok st ->
  let w := acts os (start sizes) in
  exists bytes vs L, omf_write_records (recs st) = Ok bytes /\ read_views bytes = Some vs /\ load vs (0, 0) no_load = Some L /\
    same (l_mem L) (image w) /\ Permutation (l_relocs L) (flat_map asked_of (relocs w)) /\
    map (fun g => (sg_idx g, max_offset g)) (segs st) = map (fun c => (c_idx c, high c)) (counters w) /\
    Forall (fun r => zlen (r_data r) <= 1024) (recs st).
Proof. intros sizes os st H1 H2 H3 H4. exact (module_load sizes os st H1 H2 H3 H4). Qed.
Print Assumptions C11_image.

(** The pass ends without writing outside of the buffer, if no single item has
    more than 1024 bytes, no wide string more than 5 characters and no included
    file more than 11 bytes. *)
Theorem C11_no_overflow : forall sizes os, sizes_ok sizes -> Forall (op_ok (length sizes)) os -> Forall gentle os -> fits (acts os (start sizes)) ->
  exists st, module sizes os = Ok st.
Proof. exact module_total. Qed.
Print Assumptions C11_no_overflow.

(** Wide strings: the check is for half of what is written. Files: the check
    is for the part that is already there. *)
Theorem C11_wide_string_refuted : exists os, Forall (op_ok 1) os /\ fits (acts os (start [(1, 0)])) /\ module [(1, 0)] os = UB.
Proof.
  exists [OBytes (repeat 65 500) None; OWide (repeat 66 514)]. split; [|split; [|vm_compute; reflexivity]].
  - apply Forall_cons; [|apply Forall_cons; [|apply Forall_nil]].
    + split; [apply Forall_forall; intros x Hx; apply repeat_spec in Hx; subst x; unfold is_byte; lia|]. split; [vm_compute; reflexivity|constructor].
    + split; [apply Forall_forall; intros x Hx; apply repeat_spec in Hx; subst x; unfold is_byte; lia|vm_compute; reflexivity].
  - apply Forall_cons; [vm_compute; reflexivity|apply Forall_nil].
Qed.
Print Assumptions C11_wide_string_refuted.
Theorem C11_incbin_refuted : exists os, Forall (op_ok 1) os /\ fits (acts os (start [(1, 0)])) /\ module [(1, 0)] os = UB.
Proof.
  exists [OBin (repeat 7 1025)]. split; [|split; [|vm_compute; reflexivity]].
  - apply Forall_cons; [|apply Forall_nil].
    split; [apply Forall_forall; intros x Hx; apply repeat_spec in Hx; subst x; unfold is_byte; lia|vm_compute; reflexivity].
  - apply Forall_cons; [vm_compute; reflexivity|apply Forall_nil].
Qed.
Print Assumptions C11_incbin_refuted.

(** two segments, a fixup, an ORG back over data and more than one record *)
Definition near_ref : fixup :=
  {| f_type := 5; f_loader_resolved := false; f_frame_type := 1; f_frame_datum := 1; f_sym := Internal false (Some (false, 2)); f_sym_offset := 0x210; f_locofs := 0 |}.
Definition history : list op := [OBytes [0xb8; 0; 0] None; OBytes [5; 0] (Some near_ref); OSeg 1; OSkip 0x10; OBytes (repeat 1 1010) None; OByte 2; OBytes [3; 4; 5; 6] None; OOrg 0x11; OByte 9; OSeg 0; OByte 0xc3].
Example C11_history :
  match module [(1, 0); (2, 0)] history with
  | Ok st => map (fun r => (r_cmd r, match r_d r with D_ledata s o => (s, o) | _ => (0, 0) end, zlen (r_data r))) (recs st) =
      [(0xa0, (1, 0), 5); (0x9c, (0, 0), 5); (0xa0, (2, 0x10), 1011); (0xa0, (2, 0x403), 4); (0xa0, (2, 0x11), 1); (0xa0, (1, 5), 1)] /\
      map max_offset (segs st) = [6; 0x407]
  | _ => False
  end.
Proof. vm_compute. split; reflexivity. Qed.
Example C11_history_ok : sizes_ok [(1, 0); (2, 0)] /\ Forall (op_ok 2) history /\ Forall gentle history.
Proof.
  assert (forall n x, is_byte x -> Forall is_byte (repeat x n)) as RB.
  { intros n x Hx. apply Forall_forall. intros y Hy. apply repeat_spec in Hy. subst y. exact Hx. }
  split; [split; [discriminate|]|split].
  - apply Forall_cons; [vm_compute; repeat split; congruence|]. apply Forall_cons; [vm_compute; repeat split; congruence|]. apply Forall_nil.
  - unfold history. repeat (apply Forall_cons; [|]); try apply Forall_nil; cbn [op_ok]; repeat match goal with |- _ /\ _ => split end;
      try exact I; try (unfold is_byte; lia); try lia; try discriminate; try (apply RB; unfold is_byte; lia); try (vm_compute; reflexivity);
      try (repeat (apply Forall_cons; [unfold is_byte; lia|]); apply Forall_nil).
    split; [right; left; reflexivity|]. split; [vm_compute; split; congruence|]. split; [vm_compute; split; congruence|]. intros E. discriminate E.
  - unfold history. repeat (apply Forall_cons; [|]); try apply Forall_nil; cbn [gentle]; try exact I; vm_compute; congruence.
Qed.
Example C11_history_fits : fits (acts history (start [(1, 0); (2, 0)])).
Proof.
  unfold fits. assert (counters (acts history (start [(1, 0); (2, 0)])) = [{| c_idx := 1; loc := 6; high := 6 |}; {| c_idx := 2; loc := 0x12; high := 0x407 |}]) as -> by (vm_compute; reflexivity).
  apply Forall_cons; [vm_compute; reflexivity|]. apply Forall_cons; [vm_compute; reflexivity|]. apply Forall_nil.
Qed.
Example C11_history_image : let w := acts history (start [(1, 0); (2, 0)]) in
  map (fun '(s, a) => image w s a) [(1, 3); (1, 4); (2, 0x10); (2, 0x11); (2, 0x406); (2, 0x407)] = [Some 0x15; Some 2; Some 1; Some 9; Some 6; None].
Proof. vm_compute. reflexivity. Qed.
