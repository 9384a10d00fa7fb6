(** C48: a PE image loads to what the segments contain.

    What is compared with what: the segments of the program, the layout the PE
    format asks for ([positions], [table]) and the loader ([decode], [loaded])
    from Pe_Spec, and the values that pe_set_values computes and the file that
    bin_write_module writes, from Pe_Model. *)
From Coq Require Import ZArith List Bool Lia Permutation Sorted.
From Verif Require Import Base Sort_Model Sort_Spec Pe_Model Pe_Spec PeAll_Proofs PeWhole_Proofs PeLoad_Proofs PeMore_Proofs.
Import ListNotations.
Open Scope Z_scope.

Lemma kept : forall relocs k m segs v, 0 <= k <= 16 -> Forall (fun s => p_type s <> T_RELOC) segs ->
  pe_set_values relocs (2 ^ k) (2 ^ m) segs = Some v -> regular k m (map q_s (v_segs v)) -> image k m relocs v (map q_s (v_segs v)).
Proof. intros relocs k m segs v K NR E RG. exact (values_ok relocs k m segs v K (other_type segs NR) E RG). Qed.

(** The segments are sorted by kind and name; their types are those of the
    program, read-only data is of a kind of its own. *)
Theorem C48_order : forall relocs k m segs, 0 <= k <= 16 -> Forall (fun s => p_type s <> T_RELOC) segs ->
  exists v ts, pe_set_values relocs (2 ^ k) (2 ^ m) segs = Some v /\
    Forall2 (fun s t => type_of s (p_type t) /\ same_but_type s t) segs ts /\
    if relocs then exists r, reloc_section r /\ stably_sorted behind (ts ++ [r]) (map q_s (v_segs v))
    else stably_sorted behind ts (map q_s (v_segs v)).
Proof. exact order_ok. Qed.
Print Assumptions C48_order.

(** Where the segments are, in memory and in the file, and SizeOfImage. *)
Theorem C48_layout : forall relocs k m segs v, 0 <= k <= 16 -> Forall (fun s => p_type s <> T_RELOC) segs ->
  pe_set_values relocs (2 ^ k) (2 ^ m) segs = Some v -> let l := map q_s (v_segs v) in regular k m l ->
  v_segs v = positions (2 ^ k) (2 ^ m) l /\
  v_image v = up (2 ^ m) (fst (ends (2 ^ k) (2 ^ m) 0 0 (runs l))).
Proof. intros relocs k m segs v K NR E l RG. destruct (kept relocs k m segs v K NR E RG). split; assumption. Qed.
Print Assumptions C48_layout.

(** No two segments overlap, and segments are aligned as the program says. *)
Theorem C48_segments : forall relocs k m segs v, 0 <= k <= 16 -> Forall (fun s => p_type s <> T_RELOC) segs ->
  pe_set_values relocs (2 ^ k) (2 ^ m) segs = Some v -> regular k m (map q_s (v_segs v)) ->
  ForallOrdPairs (fun p q => q_rva p + p_size (q_s p) <= q_rva q) (v_segs v) /\
  Forall (fun q => p_align (q_s q) <= m -> (2 ^ p_align (q_s q) | q_rva q)) (v_segs v).
Proof.
  intros relocs k m segs v K NR E RG. destruct (kept relocs k m segs v K NR E RG) as [IM _ _ _ _ _ _ _ _ _].
  pose proof (segments_ok k m _ RG) as H. rewrite <- IM in H. exact H.
Qed.
Print Assumptions C48_segments.

(** The table has one entry for each kind of segment, NumberOfSections is the
    number of entries, SizeOfHeaders the offset of the first section. *)
Theorem C48_table : forall relocs k m segs v, 0 <= k <= 16 -> Forall (fun s => p_type s <> T_RELOC) segs ->
  pe_set_values relocs (2 ^ k) (2 ^ m) segs = Some v -> let l := map q_s (v_segs v) in regular k m l ->
  v_table v = table (2 ^ k) (2 ^ m) l /\ v_number v = zlen (v_table v) /\ v_headers v = headers (2 ^ k) (2 ^ m) l.
Proof. intros relocs k m segs v K NR E l RG. destruct (kept relocs k m segs v K NR E RG). repeat split; assumption. Qed.
Print Assumptions C48_table.

(** Sections are in ascending order, do not overlap, are aligned in memory and
    in the file, and end before SizeOfImage. *)
Theorem C48_sections : forall relocs k m segs v, 0 <= k <= 16 -> Forall (fun s => p_type s <> T_RELOC) segs ->
  pe_set_values relocs (2 ^ k) (2 ^ m) segs = Some v -> regular k m (map q_s (v_segs v)) ->
  ForallOrdPairs (fun x y : sect => t_va x + t_vsize x <= t_va y) (v_table v) /\
  Forall (fun x => (2 ^ m | t_va x) /\ (2 ^ k | t_ptr x) /\ (2 ^ k | t_raw x) /\ 0 < t_vsize x /\ 0 < t_va x /\
                   t_va x + t_vsize x <= v_image v) (v_table v).
Proof.
  intros relocs k m segs v K NR E RG. destruct (kept relocs k m segs v K NR E RG) as [_ II IT _ _ _ _ _ _ _].
  pose proof (sections_ok k m _ RG (asc_v relocs k m segs v K NR E)) as H. rewrite <- IT, <- II in H. exact H.
Qed.
Print Assumptions C48_sections.

(** BaseOfCode, SizeOfCode, BaseOfData, SizeOfInitializedData. *)
Theorem C48_sizes : forall relocs k m segs v, 0 <= k <= 16 -> Forall (fun s => p_type s <> T_RELOC) segs ->
  pe_set_values relocs (2 ^ k) (2 ^ m) segs = Some v -> regular k m (map q_s (v_segs v)) ->
  v_cb v = base_of 0x20000000 (v_table v) /\ v_cs v = size_of_all 0x20000000 (v_table v) /\
  v_db v = base_of 0x40 (v_table v) /\ v_ds v = size_of_all 0x40 (v_table v).
Proof. intros relocs k m segs v K NR E RG. destruct (kept relocs k m segs v K NR E RG). repeat split; assumption. Qed.
Print Assumptions C48_sizes.

(** The flags of a segment. *)
Theorem C48_flags : forall s i, 0 <= i -> 0 <= p_chars s < 256 -> Z.testbit (characteristics s) i = flag s i.
Proof. exact flags_ok. Qed.
Print Assumptions C48_flags.

(** The loader relocates the fields of the fixups, and nothing else. *)
Theorem C48_relocs : forall k m segs v, 0 <= k <= 16 -> Forall (fun s => p_type s <> T_RELOC) segs ->
  pe_set_values true (2 ^ k) (2 ^ m) segs = Some v -> regular k m (map q_s (v_segs v)) ->
  exists l0 r b n, map q_s (v_segs v) = l0 ++ [r] /\ p_type r = T_RELOC /\ p_buf r = Some b /\ p_size r = zlen b /\
    decode n b = Some (addresses (v_segs v)).
Proof. intros k m segs v K NR E RG. destruct (kept true k m segs v K NR E RG) as [_ _ _ _ _ _ _ _ _ H]. exact (H eq_refl). Qed.
Print Assumptions C48_relocs.

(** Every byte of every segment is loaded at its address; raw data is inside
    the file. *)
Theorem C48_loaded : forall relocs k m segs v, 0 <= k <= 16 -> Forall (fun s => p_type s <> T_RELOC) segs ->
  pe_set_values relocs (2 ^ k) (2 ^ m) segs = Some v -> let l := map q_s (v_segs v) in regular k m l ->
  Forall filled l -> Forall (fun r => is_hdr r = true \/ roomy (2 ^ k) r) (runs l) ->
  exists file, write_file (2 ^ k) v = Ok file /\ (2 ^ k | zlen file) /\
    (forall x, In x (v_table v) -> t_ptr x + t_raw x <= zlen file) /\
    forall q j, In q (v_segs v) -> 0 <= j < p_size (q_s q) ->
      loaded file (v_headers v) (v_table v) (q_rva q + j) = content (q_s q) j.
Proof.
  intros relocs k m segs v K NR E l RG FL RO. destruct (kept relocs k m segs v K NR E RG) as [I1 _ I2 _ I3 _ _ _ _ _].
  exact (loads k m v l RG (asc_v relocs k m segs v K NR E) FL RO I1 I2 I3).
Qed.
Print Assumptions C48_loaded.

(** At AddressOfEntryPoint is the byte at the start label. *)
Theorem C48_entry : forall relocs k m segs v n q o, 0 <= k <= 16 -> Forall (fun s => p_type s <> T_RELOC) segs ->
  pe_set_values relocs (2 ^ k) (2 ^ m) segs = Some v -> let l := map q_s (v_segs v) in regular k m l ->
  Forall filled l -> Forall (fun r => is_hdr r = true \/ roomy (2 ^ k) r) (runs l) ->
  nth_error (v_segs v) n = Some q -> 0 <= o < p_size (q_s q) ->
  exists file a, write_file (2 ^ k) v = Ok file /\ entry_point v n o = Some a /\
    loaded file (v_headers v) (v_table v) a = content (q_s q) o.
Proof.
  intros relocs k m segs v n q o K NR E l RG FL RO NQ O0.
  destruct (C48_loaded relocs k m segs v K NR E RG FL RO) as (file & W & _ & _ & L).
  pose proof (nth_error_In _ _ NQ) as IN. exists file, (q_rva q + o). split; [exact W|]. split; [|apply L; assumption].
  unfold entry_point. rewrite NQ. f_equal. apply wrap_small.
  destruct (kept relocs k m segs v K NR E RG) as [I1 _ _ _ _ _ _ _ _ _]. rewrite I1 in IN.
  destruct (positions_bounds k m _ q RG IN) as (B1 & B2 & _). change (2 ^ 30) with 1073741824 in B2. change (2 ^ 32) with 4294967296. lia.
Qed.
Print Assumptions C48_entry.

(** ** A program *)

Definition mk (name : list Z) (t align size : Z) (fix_ : list (Z * Z)) : seg :=
  {| p_name := name; p_title := name; p_type := t; p_ro := false; p_const := false; p_stack := false;
     p_chars := 0; p_align := align; p_loc := 0; p_size := size; p_written := 1;
     p_buf := Some (repeat 7 (Z.to_nat size)); p_fix := fix_ |}.

(** Headers, two segments of code, data, data without values; fields of 32 bits
    at 1 and 5 of the first and 2 of the data are relocated. *)
Definition program : list seg :=
  [mk [46; 104] T_HDR 3 40 []; mk [95; 84] T_CODE 4 30 [(6, 1); (3, 3); (6, 5)];
   mk [95; 68] T_DATA 2 10 [(6, 2)]; mk [95; 66] T_BSS 3 20 []; mk [95; 85] T_CODE 4 3 []].

Definition the_values (relocs : bool) (l : list seg) : values :=
  match pe_set_values relocs 512 4096 l with
  | Some v => v
  | None => {| v_segs := []; v_table := []; v_number := 0; v_image := 0; v_headers := 0; v_cb := 0; v_cs := 0; v_db := 0; v_ds := 0 |}
  end.

(** The addresses of the segments, their offsets, and the table. *)
Example program_layout :
  map (fun q => (p_name (q_s q), q_rva q, q_fo q, p_size (q_s q))) (v_segs (the_values true program)) =
  [([46; 104], 0, 0, 40); ([95; 84], 4096, 512, 30); ([95; 85], 4128, 544, 3); ([95; 68], 8192, 1024, 10);
   ([95; 66], 12288, 1536, 20); ([46; 114; 101; 108; 111; 99], 16384, 1536, 22)] /\
  map (fun x => (t_va x, t_vsize x, t_ptr x, t_raw x, t_chars x)) (v_table (the_values true program)) =
  [(4096, 35, 512, 512, 0x60000020); (8192, 10, 1024, 512, 0xC0000040); (12288, 20, 0, 0, 0xC0000080); (16384, 22, 1536, 512, 0x42000040)] /\
  addresses (v_segs (the_values true program)) = [(4097, 3); (4101, 3); (8194, 3)].
Proof. vm_compute. repeat split. Qed.

Ltac small := repeat match goal with |- Forall _ (_ :: _) => apply Forall_cons | |- Forall _ [] => apply Forall_nil end.

Definition laid := Eval vm_compute in map q_s (v_segs (the_values true program)).
Definition laid_runs := Eval vm_compute in runs laid.

Lemma laid_eq : map q_s (v_segs (the_values true program)) = laid.
Proof. vm_compute. reflexivity. Qed.
Lemma laid_runs_eq : runs laid = laid_runs.
Proof. vm_compute. reflexivity. Qed.

Example program_regular : let l := map q_s (v_segs (the_values true program)) in
  Forall (fun s => p_type s <> T_RELOC) program /\ pe_set_values true (2 ^ 9) (2 ^ 12) program = Some (the_values true program) /\
  regular 9 12 l /\ Forall filled l /\ Forall (fun r => is_hdr r = true \/ roomy (2 ^ 9) r) (runs l).
Proof.
  rewrite laid_eq. split; [|split; [|split; [|split]]].
  - unfold program. small; discriminate.
  - vm_compute. reflexivity.
  - constructor.
    + lia.
    + lia.
    + unfold laid. small; (constructor; cbn [p_align p_size p_loc p_type p_fix]; [lia|lia|reflexivity|vm_compute; tauto|small; cbn [snd]; lia]).
    + rewrite laid_runs_eq. unfold laid_runs. small; (split; [cbn [tl]; small; cbn [p_align]; lia|intros H d; ((vm_compute in H; discriminate H) || (vm_compute; reflexivity))]).
    + vm_compute; repeat split; try discriminate.
    + vm_compute; repeat split; try discriminate.
    + eexists. split; [unfold laid; right; left; reflexivity|discriminate].
    + vm_compute; repeat split; discriminate.
  - unfold laid. small; unfold filled; cbn [p_size p_buf p_written]; (right; ((left; vm_compute; reflexivity) || (right; eexists; split; [reflexivity|split; [vm_compute; reflexivity|discriminate]]))).
  - rewrite laid_runs_eq. unfold laid_runs.
    small; ((left; vm_compute; reflexivity) || (right; left; vm_compute; reflexivity) || (right; right; vm_compute; discriminate)).
Qed.

(** ** What fails *)

Definition good (v : values) (segs : list seg) : Prop :=
  pe_set_values false 512 4096 segs = Some v /\ Forall (fun s => p_type s <> T_RELOC) segs /\ Forall sound segs /\ Forall filled segs.

Ltac is_good := unfold good; split; [vm_compute; reflexivity|];
  split; [unfold mk; small; discriminate|];
  split; [unfold mk; small; (constructor; cbn [p_align p_size p_loc p_type p_fix]; [lia|lia|reflexivity|vm_compute; tauto|small; cbn [snd]; lia])|];
  unfold mk; small; unfold filled; cbn [p_size p_buf p_written];
    ((left; reflexivity) || (right; left; vm_compute; reflexivity) || (right; right; eexists; split; [reflexivity|split; [vm_compute; reflexivity|discriminate]])).

Definition padded : list seg := [mk [46; 104] T_HDR 3 40 []; mk [95; 84] T_CODE 4 511 []; mk [95; 85] T_CODE 4 1 []].

(** "Every byte of a segment is loaded at its address." SizeOfRawData is the sum
    of the sizes of the segments of a section; the padding between them is not
    counted (bin.c 1355-1357).  511 bytes and one byte aligned to 16 are said to
    be 512 bytes of raw data, so that the last byte, at offset 512, is loaded as
    zero. *)
Theorem C48_padding_refuted : exists segs v file q j, good v segs /\ write_file 512 v = Ok file /\ In q (v_segs v) /\ 0 <= j < p_size (q_s q) /\
  content (q_s q) j = Some 7 /\ loaded file (v_headers v) (v_table v) (q_rva q + j) = Some 0.
Proof.
  exists padded, (the_values false padded). eexists. eexists. exists 0.
  split; [unfold padded; is_good|]. split; [vm_compute; reflexivity|]. split; [apply (nth_error_In _ 2); vm_compute; reflexivity|].
  split; [cbn; lia|]. split; vm_compute; reflexivity.
Qed.
Print Assumptions C48_padding_refuted.

Definition paged : list seg := [mk [46; 104] T_HDR 3 40 []; mk [95; 84] T_CODE 4 5 []; mk [95; 85] T_CODE 12 3 []].

(** "A segment may be aligned to a page." The address of a segment that is not
    the first of its section is aligned (bin.c 1308-1310), and so is its offset in
    the file (CalcOffset, bin.c 226-231), but the section begins at 512 in the
    file: the distance in the file is not the distance in memory, and
    SizeOfRawData covers neither. *)
Theorem C48_page_refuted : exists segs v file q j, good v segs /\ write_file 512 v = Ok file /\ In q (v_segs v) /\ 0 <= j < p_size (q_s q) /\
  content (q_s q) j = Some 7 /\ loaded file (v_headers v) (v_table v) (q_rva q + j) = Some 0.
Proof.
  exists paged, (the_values false paged). eexists. eexists. exists 0.
  split; [unfold paged; is_good|]. split; [vm_compute; reflexivity|]. split; [apply (nth_error_In _ 2); vm_compute; reflexivity|].
  split; [cbn; lia|]. split; vm_compute; reflexivity.
Qed.
Print Assumptions C48_page_refuted.

Definition with_empty : list seg := [mk [46; 104] T_HDR 3 40 []; mk [95; 84] T_CODE 4 5 []; mk [95; 85] T_CODE 4 0 []; mk [95; 68] T_DATA 4 3 []].

(** "Empty segments do not matter." Empty segments are skipped before the entry
    of the table is closed (bin.c 1341-1342 and 1378-1382): if the last segment
    of a section is empty, the next section takes the same entry.  The table
    has fewer entries than NumberOfSections, and the code is not loaded. *)
Theorem C48_empty_refuted : exists segs v file q j, good v segs /\ write_file 512 v = Ok file /\ v_number v <> zlen (v_table v) /\
  In q (v_segs v) /\ 0 <= j < p_size (q_s q) /\ content (q_s q) j = Some 7 /\ loaded file (v_headers v) (v_table v) (q_rva q + j) <> Some 7.
Proof.
  exists with_empty, (the_values false with_empty). eexists. eexists. exists 0.
  split; [unfold with_empty; is_good|]. split; [vm_compute; reflexivity|]. split; [vm_compute; discriminate|].
  split; [apply (nth_error_In _ 1); vm_compute; reflexivity|]. split; [cbn; lia|]. split; vm_compute; [reflexivity|discriminate].
Qed.
Print Assumptions C48_empty_refuted.

(** "NumberOfSections is the number of entries of the table." .reloc is counted
    before its size is known (bin.c 1276-1282); if nothing is relocated it is
    empty and has no values in the table. *)
Theorem C48_no_relocs_refuted : exists segs v, Forall sound segs /\ Forall filled segs /\
  pe_set_values true 512 4096 segs = Some v /\ zlen (filter (fun x => 0 <? t_vsize x) (v_table v)) < v_number v.
Proof.
  exists [mk [46; 104] T_HDR 3 40 []; mk [95; 84] T_CODE 4 5 []]. eexists.
  assert (G : good (the_values false [mk [46; 104] T_HDR 3 40 []; mk [95; 84] T_CODE 4 5 []]) [mk [46; 104] T_HDR 3 40 []; mk [95; 84] T_CODE 4 5 []]) by is_good.
  split; [apply G|]. split; [apply G|]. split; [vm_compute; reflexivity|vm_compute; reflexivity].
Qed.
Print Assumptions C48_no_relocs_refuted.

Definition stack_seg : seg :=
  {| p_name := [83]; p_title := [83]; p_type := T_DATA; p_ro := false; p_const := false; p_stack := true;
     p_chars := 0; p_align := 4; p_loc := 0; p_size := 4; p_written := 1; p_buf := Some [1; 2; 3; 4]; p_fix := [] |}.

(** "NumberOfSections is the number of entries of the table." Segments of
    combine type STACK are of no kind: they are not counted when memory for the
    table is allocated (bin.c 840-853), but have an entry (bin.c 1343-1354). *)
Theorem C48_stack_refuted : exists segs v, Forall filled segs /\ pe_set_values false 512 4096 segs = Some v /\ v_number v < zlen (v_table v).
Proof.
  exists [mk [46; 104] T_HDR 3 40 []; mk [95; 84] T_CODE 4 5 []; stack_seg]. eexists.
  split; [|split; [vm_compute; reflexivity|vm_compute; reflexivity]].
  unfold mk, stack_seg. small; unfold filled; cbn [p_size p_buf p_written]; (right; right; eexists; split; [reflexivity|split; [vm_compute; reflexivity|discriminate]]).
Qed.
Print Assumptions C48_stack_refuted.

Definition reserved : seg :=
  {| p_name := [95; 68]; p_title := [95; 68]; p_type := T_DATA; p_ro := false; p_const := false; p_stack := false;
     p_chars := 0; p_align := 4; p_loc := 0; p_size := 600; p_written := 0; p_buf := Some (repeat 0 600); p_fix := [] |}.

(** "The raw data of sections is inside the file." Data that is only reserved
    (all bytes are ?) at the end of the program is not written (bin.c
    1737-1748), but counted in SizeOfRawData (bin.c 1355-1357). *)
Theorem C48_reserved_refuted : exists segs v file x, Forall sound segs /\ pe_set_values false 512 4096 segs = Some v /\ write_file 512 v = Ok file /\
  In x (v_table v) /\ zlen file < t_ptr x + t_raw x.
Proof.
  exists [mk [46; 104] T_HDR 3 40 []; mk [95; 84] T_CODE 4 5 []; reserved]. eexists. eexists. eexists.
  split; [unfold mk, reserved; small; (constructor; cbn [p_align p_size p_loc p_type p_fix]; [lia|lia|reflexivity|vm_compute; tauto|small; cbn [snd]; lia])|].
  split; [vm_compute; reflexivity|]. split; [vm_compute; reflexivity|]. split; [apply (nth_error_In _ 1); vm_compute; reflexivity|vm_compute; reflexivity].
Qed.
Print Assumptions C48_reserved_refuted.
