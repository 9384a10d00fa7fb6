(** C21: flat binaries. C22: MZ files. *)
From Coq Require Import Permutation Sorted.
From Verif Require Import Base Sort_Model Sort_Spec Sort_Proofs Data_Proofs Bin_Model Bin_Spec Bin_Proofs BinFix_Proofs BinFile_Proofs BinMz_Proofs BinTop_Proofs BinHdr_Proofs BinAll_Proofs BinMzFile_Proofs BinTotal_Proofs.

(** * C21 *)
(** Every program gets a layout: the segments in the requested order, each at the first
    multiple of its alignment behind the previous one; addresses are places in the file. *)
Theorem C21_layout : forall fmt d flat o n ss, (fmt = MZ -> mz_ok d) -> program_ok n ss ->
  exists l ks im, layout fmt flat o (seq 0 (length ss)) (snd (initial fmt d n ss)) = Some (l, im) /\ placement fmt flat o (header fmt d n ss) (map prepare ss) l ks im /\ addresses_ok im.
Proof.
  intros fmt d flat o n ss HM PO. destruct (layout_all fmt d flat o n ss HM PO) as (l & ks & im & L). exists l, ks, im.
  split; [exact (lo_eq _ _ _ _ _ _ _ _ _ L)|]. split; [exact (placement_ok fmt d flat o n ss l ks im HM PO L)|exact (lo_addr _ _ _ _ _ _ _ _ _ L)].
Qed.
Print Assumptions C21_layout.
(** In a flat binary, and in an MZ file without segments of class BSS, no byte of the file belongs to two segments. *)
Theorem C21_disjoint : forall fmt d flat o n ss l im, (fmt = MZ -> mz_ok d) -> program_ok n ss -> (forall s, In s ss -> whole fmt (prepare s)) ->
  layout fmt flat o (seq 0 (length ss)) (snd (initial fmt d n ss)) = Some (l, im) ->
  forall i j p, (i < length ss)%nat -> (j < length ss)%nat -> i <> j -> real (map prepare ss) i = true -> real (map prepare ss) j = true ->
  occupies im i p -> occupies im j p -> False.
Proof.
  intros fmt d flat o n ss l im HM PO W E i j p Hi Hj N Ri Rj. destruct (layout_all fmt d flat o n ss HM PO) as (l' & ks & im' & L). destruct (layout_unique _ _ _ _ _ _ _ _ _ _ _ L E) as [-> ->].
  destruct (laid_out_segs _ _ _ _ _ _ _ _ _ L) as (_ & _ & RE & IL). destruct (laid_fits _ _ _ _ _ _ _ _ _ L W) as [_ D]. apply D; [apply IL; exact Hi|apply IL; exact Hj|exact N|rewrite RE; exact Ri|rewrite RE; exact Rj].
Qed.
Print Assumptions C21_disjoint.
(** What is in the file: the contents of the segments with all fixups done, zeros between them, nothing behind. *)
Theorem C21_flat_file : forall d flat o n ss start file, program_ok n ss -> (forall s, In s ss -> fixups_ok NONE s) -> bin_write_module NONE d flat o n ss start = Ok file ->
  exists l ks im, layout NONE flat o (seq 0 (length ss)) (snd (initial NONE d n ss)) = Some (l, im) /\ placement NONE flat o 0 (map prepare ss) l ks im /\ file_ok NONE 0 l im file /\
  match start with Some (k, _) => find (real (map prepare ss)) ks = Some k | None => True end.
Proof.
  intros d flat o n ss start file PO FO E. assert (NONE = MZ -> mz_ok d) as HM by discriminate. destruct (layout_all NONE d flat o n ss HM PO) as (l & ks & im & L). exists l, ks, im.
  pose proof (placement_ok NONE d flat o n ss l ks im HM PO L) as PL. rewrite (module_eq NONE d flat o n ss start l ks im L) in E. destruct (fix_all NONE l l im) as [bufs| |] eqn:FA; [|discriminate E|discriminate E]. cbn [bindr] in E.
  split; [exact (lo_eq _ _ _ _ _ _ _ _ _ L)|]. split; [exact PL|].
  assert (write_sections bufs im [] = Ok file /\ match start with Some (k, _) => find (real (map prepare ss)) ks = Some k | None => True end) as [W ST].
  { destruct start as [[k oo]|]; [|split; [exact E|exact Logic.I]]. rewrite (proj1 (pl_entry _ _ _ _ _ _ _ _ PL eq_refl)) in E. destruct (find (real (map prepare ss)) ks) as [e|]; [|discriminate E].
    destruct (Nat.eqb e k) eqn:N; [|discriminate E]. apply Nat.eqb_eq in N. split; [exact E|f_equal; exact N]. }
  split; [|exact ST]. exact (proj1 (sections_ok NONE d flat o n ss l ks im bufs [] file HM PO L ltac:(intros; left; reflexivity) FO FA eq_refl W)).
Qed.
Print Assumptions C21_flat_file.
(** ... and when there is one: buffers as the passes allocate them, supported fixups, the start label in the first segment. *)
Theorem C21_flat_total : forall d flat o n ss start, program_ok n ss ->
  (forall s, In s ss -> s_type (prepare s) <> 5 -> (s_start_loc s = 0 \/ s_grp s = None) /\ buffer_fits NONE s /\ Forall (supported NONE (map prepare ss)) (s_fix s)) ->
  match start with Some (k, _) => forall ks, stably_sorted (before o (map prepare ss)) (seq 0 (length ss)) ks -> find (real (map prepare ss)) ks = Some k | None => True end ->
  exists file, bin_write_module NONE d flat o n ss start = Ok file.
Proof.
  intros d flat o n ss start PO SS ST. assert (NONE = MZ -> mz_ok d) as HM by discriminate. destruct (layout_all NONE d flat o n ss HM PO) as (l & ks & im & L).
  apply (module_total NONE d flat o n ss start l ks im HM PO L SS); [discriminate|]. intros _. destruct start as [[k oo]|]; [|exact Logic.I]. apply ST. exact (lo_order _ _ _ _ _ _ _ _ _ L).
Qed.
Print Assumptions C21_flat_total.
(** The relative fixups of a program whose segments are in one group, or in none, hold the distance
    to the target, from the byte behind the field (64-bit: behind the instruction). *)
Theorem C21_relative : forall fmt l im s f n old new k o j, segment im j = s -> target f = Some (k, o) -> grp_base im k = grp_base im j -> f_type f = 1 \/ f_type f = 2 \/ f_type f = 3 ->
  effect fmt l im s f n old new ->
  new = (old + (base im k + o) - (base im j + f_locofs f + (if (f_type f =? 3) && s_use64 s then f_addbytes f else n))) mod 2 ^ (8 * n).
Proof.
  intros fmt l im s f n old new k o j SJ T G TY E. assert (base im k = s_start (segment im k) + grp_base im k /\ base im j = s_start s + grp_base im j) as [BK BJ] by (subst s; split; reflexivity). rewrite BK, BJ, G.
  inversion E; subst; try (exfalso; lia).
  - match goal with H : target f = Some (?a, ?b) |- _ => rewrite T in H; injection H as <- <- end.
    destruct H as [[-> ->]|[[-> ->]|[-> [-> U]]]]; cbn [Z.eqb Pos.eqb andb]; rewrite ?U; f_equal; ring.
  - match goal with H : target f = Some (?a, ?b) |- _ => rewrite T in H; injection H as <- <- end. 
    replace (f_type f) with 3 by congruence. match goal with H : s_use64 _ = true |- _ => rewrite H end. cbn [Z.eqb Pos.eqb andb]. f_equal. ring.
Qed.
Print Assumptions C21_relative.
(** Far pointers: 16 * selector + offset is the address of the target, for targets without group
    and those addressed through their group. *)
Theorem C22_pointer : forall l im s f n old new k o, target f = Some (k, o) -> s_type (segment im k) <> 5 -> (f_type f = 9 /\ n = 4 \/ f_type f = 10 /\ n = 6) ->
  addresses_ok im -> (s_grp (segment im k) = None /\ f_frame f <> 1) \/ (f_frame f = 1 /\ s_grp (segment im k) <> None) ->
  0 <= base im k + o - frame_base im f k < 2 ^ 16 -> frame_base im f k < 2 ^ 20 ->
  effect MZ l im s f n old new ->
  linear (new / 2 ^ (8 * (n - 2))) (new mod 2 ^ (8 * (n - 2))) = base im k + o.
Proof.
  intros l im s f n old new k o T NA TY AO FR RG FB E. destruct AO as [A1 A2]. destruct (A1 k) as [S0 B0].
  assert (exists sel, selector MZ im f k sel /\ new = (base im k + o - frame_base im f k) mod 2 ^ (8 * (n - 2)) + 2 ^ (8 * (n - 2)) * (sel mod 2 ^ 16)) as (sel & SE & ->).
  { inversion E; subst; try (exfalso; lia); match goal with H : target f = Some (?a, ?b) |- _ => rewrite T in H; injection H as <- <- end; eexists; (split; [eassumption|]).
    - reflexivity.
    - reflexivity. }
  assert (16 * sel = frame_base im f k) as SF.
  { inversion SE; subst; [contradiction| |].
    - destruct FR as [[FR _]|[FR _]]; [congruence|]. unfold frame_base, grp_base. rewrite H2, H1. reflexivity.
    - destruct FR as [[FR _]|[FR _]]; [|congruence]. unfold frame_base, base. rewrite FR, Z.add_0_r. reflexivity. }
  assert (0 <= frame_base im f k) as F0.
  { unfold frame_base, grp_base. destruct (s_grp (segment im k)) as [g|]; [|pose proof (Z.div_pos (s_start (segment im k)) 16 S0 ltac:(lia)); lia].
    pose proof (A2 g) as G0. pose proof (Z.div_pos _ 16 G0 ltac:(lia)). pose proof (Z.div_pos (s_start (segment im k)) 16 S0 ltac:(lia)). destruct (f_frame f =? 0); lia. }
  change (2 ^ 20) with 1048576 in *. rewrite (Z.mod_small sel) by (change (2 ^ 16) with 65536; lia).
  assert (2 ^ 16 <= 2 ^ (8 * (n - 2))) as PW by (destruct TY as [[_ ->]|[_ ->]]; [reflexivity|]; intros X; discriminate X). set (q := 2 ^ (8 * (n - 2))) in *.
  rewrite (Z.mod_small (_ - frame_base im f k)) by lia. change (2 ^ 16) with 65536 in *.
  assert ((base im k + o - frame_base im f k + q * sel) / q = sel) as DV by (rewrite Z.mul_comm, Z.div_add by lia; rewrite Z.div_small by lia; reflexivity).
  assert ((base im k + o - frame_base im f k + q * sel) mod q = base im k + o - frame_base im f k) as MD by (rewrite Z.mul_comm, Z.mod_add by lia; apply Z.mod_small; lia).
  rewrite DV, MD. unfold linear. lia.
Qed.
Print Assumptions C22_pointer.

(** * C22 *)
(** The whole MZ file: header, relocation table, sizes, entry point, stack, memory; the segments. *)
Theorem C22_mz_file : forall d flat o n ss start file, mz_ok d -> program_ok n ss -> (forall s, In s ss -> whole MZ (prepare s)) -> (forall s, In s ss -> fixups_ok MZ s) ->
  buffers_ok ss -> locations_ok ss -> zlen (sites (map prepare ss) (seq 0 (length ss))) < 2 ^ 16 ->
  bin_write_module MZ d flat o n ss start = Ok file ->
  exists l ks im, layout MZ flat o (seq 0 (length ss)) (snd (initial MZ d n ss)) = Some (l, im) /\ placement MZ flat o (header MZ d n ss) (map prepare ss) l ks im /\
  file_ok MZ (header MZ d n ss) l im file /\ mz_file d (header MZ d n ss) (map prepare ss) l im start file.
Proof.
  intros d flat o n ss start file HM PO W FO BO LO CT E. assert (MZ = MZ -> mz_ok d) as HM' by (intros _; exact HM). destruct (layout_all MZ d flat o n ss HM' PO) as (l & ks & im & L). exists l, ks, im.
  split; [exact (lo_eq _ _ _ _ _ _ _ _ _ L)|]. split; [exact (placement_ok MZ d flat o n ss l ks im HM' PO L)|].
  apply (mz_ok_file d flat o n ss start l ks im file HM PO L W FO BO LO); [|exact E]. rewrite (sites_perm _ _ _ (lo_perm _ _ _ _ _ _ _ _ _ L)). exact CT.
Qed.
Print Assumptions C22_mz_file.
(** ... there is one whenever the fixups are supported and the relocations fit into the header's counter. *)
Theorem C22_mz_total : forall d flat o n ss start, mz_ok d -> program_ok n ss ->
  (forall s, In s ss -> s_type (prepare s) <> 5 -> (s_start_loc s = 0 \/ s_grp s = None) /\ buffer_fits MZ s /\ Forall (supported MZ (map prepare ss)) (s_fix s)) ->
  locations_ok ss -> zlen (sites (map prepare ss) (seq 0 (length ss))) < 2 ^ 16 ->
  exists file, bin_write_module MZ d flat o n ss start = Ok file.
Proof.
  intros d flat o n ss start HM PO SS LO CT. assert (MZ = MZ -> mz_ok d) as HM' by (intros _; exact HM). destruct (layout_all MZ d flat o n ss HM' PO) as (l & ks & im & L).
  apply (module_total MZ d flat o n ss start l ks im HM' PO L SS); [|discriminate]. intros _. split; [exact LO|]. rewrite (sites_perm _ _ _ (lo_perm _ _ _ _ _ _ _ _ _ L)). exact CT.
Qed.
Print Assumptions C22_mz_total.
(** One relocation entry, wherever the segment and its group are: the linear address of the selector, offset and segment are words. *)
Theorem C22_reloc_entry : forall im k f, addresses_ok im -> 0 <= f_locofs f -> base im k + f_locofs f + 40 < 2 ^ 32 ->
  let '(ofs, sg) := reloc_entry im (segment im k) f in
  0 <= ofs < 2 ^ 16 /\ 0 <= sg < 2 ^ 16 /\ linear sg ofs mod 2 ^ 20 = (base im k + f_locofs f + selector_at f) mod 2 ^ 20.
Proof. exact reloc_ok. Qed.
Print Assumptions C22_reloc_entry.
(** The header is as small as the alignment allows. *)
Theorem C22_header_size : forall d n, mz_ok d -> 0 <= n < 2 ^ 16 ->
  let h := mz_sizehdr d n in 4 * n + ofs_fixups d <= h < 4 * n + ofs_fixups d + alignment d /\ (alignment d | h).
Proof. exact sizehdr_ok. Qed.
Print Assumptions C22_header_size.

(** * examples *)
Definition sg (name : list Z) (ty al : Z) (g : option nat) (loc : Z) (b : list Z) (fx : list fixup) : seg :=
  {| s_name := name; s_type := ty; s_stack := ty =? 4; s_align := al; s_grp := g; s_use64 := false; s_info := false; s_abs_frame := 0; s_start_loc := loc; s_max_offset := loc + zlen b;
     s_written := if ty <? 3 then zlen b else 0; s_buf := Some b; s_fix := fx; s_fileofs := 0; s_start := 0 |}.
Definition fx (ty loc : Z) (y : sym) (fr : Z) : fixup := {| f_type := ty; f_locofs := loc; f_offset := 0; f_sym := y; f_frame := fr; f_addbytes := 0 |}.
Definition dos : mzdata := {| ofs_fixups := 0x1e; alignment := 16; heapmin := 0; heapmax := 0xffff |}.
(** org 100h; mov dx,offset msg; jmp $+2... and a data segment *)
Definition com : list seg :=
  [sg [67] 1 0 None 0x100 [0xba; 0; 0; 0xe9; 0; 0] [fx 5 0x101 (SLab (Some 1%nat) 1) 0; fx 2 0x104 (SLab (Some 0%nat) 0x100) 0]; sg [68] 2 2 None 0 [1; 2; 3] []].
Definition exe : list seg :=
  [sg [83] 4 4 None 0 (repeat 0 32) []; sg [67] 1 1 None 0 [0x9a; 0; 0; 0; 0; 0xb8; 0; 0] [fx 9 1 (SLab (Some 1%nat) 5) 2; fx 8 6 (SGrp 0) 2]; sg [68] 2 2 (Some 0%nat) 0 [1; 2; 3] []; sg [69] 2 1 (Some 0%nat) 0 [4; 0; 0] [fx 5 1 (SLab (Some 3%nat) 0) 1]].
Lemma com_ok : program_ok 0 com.
Proof. split; [|vm_compute; reflexivity]. intros s [<-|[<-|[]]]; vm_compute; repeat split; discriminate. Qed.
Lemma exe_ok : program_ok 1 exe.
Proof. split; [|vm_compute; reflexivity]. intros s [<-|[<-|[<-|[<-|[]]]]]; vm_compute; repeat split; (discriminate || (repeat constructor)). Qed.
Lemma dos_ok : mz_ok dos.
Proof. unfold mz_ok, dos, power_of_two; cbn [ofs_fixups alignment heapmin heapmax]. repeat split; try lia. exists 4. split; [lia|reflexivity]. Qed.
Example C21_example : program_ok 0 com /\ (forall s, In s com -> fixups_ok NONE s) /\
  bin_write_module NONE dos None SEQ 0 com (Some (0%nat, 0x100)) = Ok [0xba; 9; 0; 0xe9; 0xfa; 0xff; 0; 0; 1; 2; 3] /\
  (exists file, bin_write_module NONE dos None DOSSEG 0 com (Some (0%nat, 0x100)) = Ok file).
Proof.
  split; [exact com_ok|]. split; [|split; [vm_compute; reflexivity|vm_compute; eexists; reflexivity]].
  intros s [<-|[<-|[]]].
  - split; [apply Forall_cons; [left; discriminate|apply Forall_cons; [left; discriminate|apply Forall_nil]]|].
    apply FOP_cons; [|apply FOP_cons; [apply Forall_nil|apply FOP_nil]]. apply Forall_cons; [left; vm_compute; discriminate|apply Forall_nil].
  - split; [apply Forall_nil|apply FOP_nil].
Qed.
Example C22_example : mz_ok dos /\ program_ok 1 exe /\ (forall s, In s exe -> whole MZ (prepare s)) /\ (forall s, In s exe -> fixups_ok MZ s) /\ buffers_ok exe /\ locations_ok exe /\
  zlen (sites (map prepare exe) (seq 0 (length exe))) = 2 /\
  bin_write_module MZ dos None DOSSEG 1 exe (Some (1%nat, 0)) = Ok
    [77; 90; 63; 0; 1; 0; 2; 0; 3; 0; 3; 0; 255; 255; 1; 0; 32; 0; 0; 0; 0; 0; 0; 0; 30; 0; 0; 0; 0; 0; 3; 0; 0; 0; 6; 0; 0; 0; 0; 0; 0; 0; 0; 0; 0; 0; 0; 0;
     154; 5; 0; 0; 0; 184; 0; 0; 1; 2; 3; 0; 4; 12; 0].
Proof.
  split; [exact dos_ok|]. split; [exact exe_ok|]. split; [intros s [<-|[<-|[<-|[<-|[]]]]]; right; discriminate|]. split; [|split; [|split; [|split; [vm_compute; reflexivity|vm_compute; reflexivity]]]].
  - intros s [<-|[<-|[<-|[<-|[]]]]]; (split; [|try apply FOP_nil]); try apply Forall_nil.
    + apply Forall_cons; [left; discriminate|]. apply Forall_cons; [right; split; [reflexivity|exists 0%nat; reflexivity]|]. apply Forall_nil.
    + apply FOP_cons; [|apply FOP_cons; [apply Forall_nil|apply FOP_nil]]. apply Forall_cons; [left; vm_compute; discriminate|apply Forall_nil].
    + apply Forall_cons; [left; discriminate|]. apply Forall_nil.
    + apply FOP_cons; [apply Forall_nil|apply FOP_nil].
  - intros s [<-|[<-|[<-|[<-|[]]]]]; (split; [intros H|intros _ _; eexists; reflexivity]); (split; [discriminate|reflexivity]) || (exfalso; apply H; reflexivity).
  - intros s [<-|[<-|[<-|[<-|[]]]]] T f F; cbn in F; repeat (destruct F as [<-|F]; [vm_compute; split; [discriminate|reflexivity]|]); destruct F.
Qed.

(** * what doesn't hold *)
(** A group with a foreign segment in the middle: the members behind it get addresses that aren't theirs. *)
Theorem C21_group_refuted : exists ss l im k, program_ok 1 ss /\ (forall s, In s ss -> s_start_loc s = 0 /\ whole NONE s) /\ layout NONE None SEQ (seq 0 (length ss)) (snd (initial NONE dos 1 ss)) = Some (l, im) /\
  s_grp (segment im k) = Some 0%nat /\ 0 < extent (segment im k) /\ base im k <> s_fileofs (segment im k) - header NONE dos 1 ss.
Proof.
  exists [sg [65] 2 0 (Some 0%nat) 0 [1] []; sg [66] 2 0 None 0 [2; 2] []; sg [67] 2 0 (Some 0%nat) 0 [3] []]. eexists. eexists. exists 2%nat.
  split; [split; [|vm_compute; reflexivity]; intros s [<-|[<-|[<-|[]]]]; vm_compute; repeat split; (discriminate || (repeat constructor))|].
  split; [intros s [<-|[<-|[<-|[]]]]; (split; [reflexivity|left; reflexivity])|]. split; [vm_compute; reflexivity|]. vm_compute. repeat split; discriminate.
Qed.
Print Assumptions C21_group_refuted.
(** ORG in a later segment of a group: the location counter's start is forgotten, not the size of the buffer: bytes behind the buffer are written. *)
Theorem C21_group_org_refuted : exists ss, program_ok 1 ss /\ (forall s, In s ss -> buffer_fits NONE s /\ s_fix s = []) /\ bin_write_module NONE dos None SEQ 1 ss None = UB.
Proof.
  exists [sg [65] 2 0 (Some 0%nat) 0 [1] []; sg [66] 2 0 (Some 0%nat) 16 [2] []]. split; [split; [|vm_compute; reflexivity]; intros s [<-|[<-|[]]]; vm_compute; repeat split; (discriminate || (repeat constructor))|].
  split; [intros s [<-|[<-|[]]]; (split; [split; [reflexivity|intros f []]|reflexivity])|]. vm_compute. reflexivity.
Qed.
Print Assumptions C21_group_org_refuted.
(** A segment of class BSS in an MZ file takes no room: the next segment without group is on top of it. *)
Definition bss_exe : list seg := [sg [67] 1 4 None 0 [0x90] []; sg [66] 3 4 None 0 (repeat 0 64) []; sg [68] 2 4 None 0 [7; 8] []; sg [83] 4 4 None 0 (repeat 0 32) []].
Theorem C22_bss_refuted : exists ss l im i j p, program_ok 0 ss /\ layout MZ None SEQ (seq 0 (length ss)) (snd (initial MZ dos 0 ss)) = Some (l, im) /\
  i <> j /\ In i l /\ In j l /\ real (segs im) i = true /\ real (segs im) j = true /\ s_grp (segment im i) = None /\ s_grp (segment im j) = None /\ occupies im i p /\ occupies im j p.
Proof.
  exists bss_exe. eexists. eexists. exists 1%nat, 2%nat, 48. split; [split; [|vm_compute; reflexivity]; intros s [<-|[<-|[<-|[<-|[]]]]]; vm_compute; repeat split; discriminate|]. split; [vm_compute; reflexivity|].
  split; [discriminate|]. split; [right; left; reflexivity|]. split; [right; right; left; reflexivity|]. vm_compute. repeat split; discriminate.
Qed.
Print Assumptions C22_bss_refuted.
(** 65536 relocations: the counter is a word; the table is written behind the header's buffer. *)
Definition many_seg : seg := sg [67] 1 0 None 0 (repeat 0 256) (map (fun i => fx 8 (2 * Z.of_nat i) (SGrp 0) 2) (seq 0 128)).
Theorem C22_count_refuted : exists ss, program_ok 1 ss /\
  (forall s, In s ss -> s_start_loc s = 0 /\ buffer_fits MZ s /\ Forall (supported MZ (map prepare ss)) (s_fix s)) /\ locations_ok ss /\ bin_write_module MZ dos None SEQ 1 ss None = UB.
Proof.
  exists (repeat many_seg 512). assert (forall s, In s (repeat many_seg 512) -> s = many_seg) as R by (intros s H; exact (repeat_spec _ _ _ H)).
  split; [split; [|vm_compute; reflexivity]; intros s H; apply R in H; subst s; vm_compute; repeat split; discriminate|]. split; [|split; [|vm_compute; reflexivity]].
  - intros s H. apply R in H. subst s. split; [reflexivity|]. split.
    + split; [vm_compute; reflexivity|]. intros f F. unfold many_seg in F. cbn [s_fix sg] in F. apply in_map_iff in F. destruct F as (i & <- & I'). apply in_seq in I'. unfold within, at_, width, many_seg. cbn [fx f_type f_sym f_locofs sg s_start_loc]. replace (zlen (repeat 0 256)) with 256 by (vm_compute; reflexivity). lia.
    + apply Forall_forall. intros f F. unfold many_seg in F. cbn [s_fix sg] in F. apply in_map_iff in F. destruct F as (i & <- & I'). reflexivity.
  - intros s H T f F. apply R in H. subst s. unfold many_seg in F. cbn [s_fix sg] in F. apply in_map_iff in F. destruct F as (i & <- & I'). apply in_seq in I'. cbn [fx f_locofs many_seg sg s_max_offset]. replace (zlen (repeat 0 256)) with 256 by (vm_compute; reflexivity). lia.
Qed.
Print Assumptions C22_count_refuted.
(** A far pointer into a member of a group, relative to its segment: wrong if the group isn't at a paragraph. *)
Definition off_exe (t : Z) : list seg := [sg [67] 1 0 None 0 [1; 2; 3; 4; 5; 6; 7; 8] [fx t 0 (SLab (Some 2%nat) 0) 0]; sg [65] 2 0 (Some 0%nat) 0 (repeat 1 8) []; sg [66] 2 0 (Some 0%nat) 0 [9] []].
Theorem C22_pointer_refuted : exists ss l im, program_ok 1 ss /\ layout MZ None SEQ (seq 0 (length ss)) (snd (initial MZ dos 1 ss)) = Some (l, im) /\ base im 2 = 16 /\
  exists b', do_fixups MZ l im (segment im 0) (s_fix (segment im 0)) [1; 2; 3; 4; 5; 6; 7; 8] = Ok b' /\ linear (field b' 2 2) (field b' 0 2) = 24.
Proof.
  exists (off_exe 9). eexists. eexists. split; [split; [|vm_compute; reflexivity]; intros s [<-|[<-|[<-|[]]]]; vm_compute; repeat split; (discriminate || (repeat constructor))|]. split; [vm_compute; reflexivity|]. split; [vm_compute; reflexivity|].
  eexists. split; vm_compute; reflexivity.
Qed.
Print Assumptions C22_pointer_refuted.
(** SEG label, relative to its segment: the group's place is forgotten. *)
Theorem C22_seg_label_refuted : exists ss l im, program_ok 1 ss /\ layout MZ None SEQ (seq 0 (length ss)) (snd (initial MZ dos 1 ss)) = Some (l, im) /\ base im 2 = 16 /\
  exists b', do_fixups MZ l im (segment im 0) (s_fix (segment im 0)) [1; 2; 3; 4; 5; 6; 7; 8] = Ok b' /\ field b' 0 2 = 0.
Proof.
  exists (off_exe 8). eexists. eexists. split; [split; [|vm_compute; reflexivity]; intros s [<-|[<-|[<-|[]]]]; vm_compute; repeat split; (discriminate || (repeat constructor))|]. split; [vm_compute; reflexivity|]. split; [vm_compute; reflexivity|].
  eexists. split; vm_compute; reflexivity.
Qed.
Print Assumptions C22_seg_label_refuted.
(** SEG label in a flat binary, for a label in an absolute segment: a far pointer is stored, the two bytes behind the word are destroyed. *)
Theorem C21_seg_abs_refuted : exists im b', do_fixups NONE [0%nat] im (segment im 0) [fx 8 0 (SLab (Some 1%nat) 0) 0] [1; 2; 3; 4] = Ok b' /\ is_abs im 1 = true /\ nth 2 b' 0 <> 3.
Proof.
  exists {| segs := [sg [67] 1 0 None 0 [1; 2; 3; 4] []; {| s_name := [65]; s_type := 5; s_stack := false; s_align := 0; s_grp := None; s_use64 := false; s_info := false; s_abs_frame := 0x40; s_start_loc := 0; s_max_offset := 0; s_written := 0; s_buf := None; s_fix := []; s_fileofs := 0; s_start := 0x400 |}];
            groups := []; cp := {| first := false; fileoffset := 4; sizehdr := 0; entryseg := None; imagestart := 0 |} |}. eexists. vm_compute. repeat split. discriminate.
Qed.
Print Assumptions C21_seg_abs_refuted.
