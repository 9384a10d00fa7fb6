(** C09, C10: OMF records. *)
From Verif Require Import Base OmfRec_Model OmfRec_Spec OmfRec_Proofs.

(** C09.  Reading the file produced by any sequence of record requests with
    an OMF reader gives back exactly the requested records, in order. *)
Theorem C09_omf_records_roundtrip : forall rs bytes,
  Forall rec_ok rs -> omf_write_records rs = Ok bytes ->
  Forall is_byte bytes /\ read_views bytes = Some (map meaning rs).
Proof. exact omf_records_roundtrip. Qed.
Print Assumptions C09_omf_records_roundtrip.

(** C09.  The writer does not fail or overrun its buffer on records whose data fits. *)
Theorem C09_omf_record_written : forall r,
  rec_ok r -> zlen (r_data r) <= 4050 -> exists b, omf_write_record r = Ok b.
Proof. exact write_record_total. Qed.
Print Assumptions C09_omf_record_written.

(** C09.  However long the data, the buffer is not overrun: the record is
    written or the request is rejected. *)
Theorem C09_omf_no_overflow : forall r, rec_ok r -> omf_write_record r <> UB.
Proof. exact write_record_noub. Qed.
Print Assumptions C09_omf_no_overflow.

(** C10.  An index put into a record is read back, and the reader stops behind it. *)
Theorem C10_omf_index_roundtrip : forall out v out',
  PutIndex out v = Ok out' -> 0 <= v < 2 ^ 15 ->
  exists e, ob_data out' = ob_data out ++ e /\ Forall is_byte e /\
            forall r, rd_index (e ++ r) = Some (v, r).
Proof. intros out v out' H R. exact (proj2 (PutIndex_app out v out' H R)). Qed.
Print Assumptions C10_omf_index_roundtrip.

(** A module with a segment, a data record and an end record *)
Definition demo : list omf_rec :=
  [ {| r_cmd := 0x80; r_is32 := 0; r_data := [3; 97; 46; 111]; r_d := D_none |};
    {| r_cmd := 0x98; r_is32 := 0; r_data := [];
       r_d := D_segdef {| sd_use32 := 0; sd_align := 3; sd_combine := 2; sd_abs_frame := 0;
                          sd_abs_offset := 0; sd_length := 65536; sd_seg_lname := 200;
                          sd_class_lname := 3; sd_ovl_lname := 1 |} |};
    {| r_cmd := 0xa0; r_is32 := 1; r_data := [1; 2; 255]; r_d := D_ledata 300 0x12345 |};
    {| r_cmd := 0x90; r_is32 := 0; r_data := [1; 65; 0; 0; 0];
       r_d := D_base {| grp_idx := 0; seg_idx := 0; frame := 0xb800 |} |};
    {| r_cmd := 0x8a; r_is32 := 0; r_data := []; r_d := D_modend true false |} ].

Example demo_ok : Forall rec_ok demo.
Proof.
  unfold demo. repeat constructor; unfold bit, u8, u16, idx15, ofs_ok; cbn;
  repeat split; unfold is_byte; try lia; auto 20; tauto.
Qed.
Example demo_read :
  match omf_write_records demo with
  | Ok b => read_views b = Some (map meaning demo) /\ 20 < zlen b
  | _ => False end.
Proof. vm_compute. split; reflexivity. Qed.
