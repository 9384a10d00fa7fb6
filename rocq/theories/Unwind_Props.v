(** C43: Win64 unwind information describes the prologue. *)
From Coq Require Import List ZArith Bool Lia.
From Verif Require Import Base Unwind_Model Unwind_Spec Unwind_Proofs UnwindRun_Proofs.
Import ListNotations.
Open Scope Z_scope.

(** The bytes in .xdata, read by the rules of the operating system, are the
    directives from the last to the first, each with the offset where it stands,
    the size of the prologue, the frame register and the handler. *)
Theorem C43_decodes l s h pos : directives unw0 l = Ok s -> endprolog s = true ->
  Forall (fun '(_, d) => plain_operands d) l -> ordered 0 l -> Forall (fun '(c, _) => c < 2 ^ 32) l ->
  pos mod 4 = 0 -> match h with Some a => 0 <= a < 2 ^ 32 | None => True end ->
  exists k c, l = k ++ [(c, DEndProlog)] /\ 0 <= c <= 255 /\
  forall rest, read_info (xdata_item s h pos ++ rest) =
    Some ({| u_flags := match h with Some _ => 3 | None => 0 end; u_prolog := c;
             u_freg := fst (frame_of l); u_fofs := snd (frame_of l); u_ops := rev (announced l) |}, h).
Proof. exact (xdata_decodes l s h pos). Qed.
Print Assumptions C43_decodes.

(** Directives are accepted if and only if their codes fit into the array and
    .ENDPROLOG comes last, within 255 bytes. *)
Theorem C43_accepted l : Forall (fun '(c, d) => 0 <= c < 2 ^ 32 /\ plain_operands d) l ->
  ((exists s, directives unw0 l = Ok s) <-> rooms l <= 255 /\ closed_well l).
Proof.
  intros H. pose proof (directives_plain l unw0 H ltac:(cbv; discriminate) eq_refl) as D.
  change (zlen (codes unw0) + rooms l) with (0 + rooms l) in D. rewrite Z.add_0_l in D. split.
  - intros [s E]. apply D in E. tauto.
  - intros E. exists (afters unw0 l). apply D. tauto.
Qed.
Print Assumptions C43_accepted.

(** Sizes and offsets that the hardware or the format cannot have are refused. *)
Theorem C43_refused s cur d s' : 0 <= operand_value d < 2 ^ 32 -> ExcFrameDirective s cur d = Ok s' -> allowed_operand d.
Proof. exact (refused s cur d s'). Qed.
Print Assumptions C43_refused.

(** Wherever a procedure is interrupted, in the prologue ([q] is what has been
    executed, [rest] what is missing) or behind it, the operating system gets
    from the unwind information the return address, the stack pointer of the
    caller and the contents that all saved registers had on entry. *)
Theorem C43_unwinds p s h pos m0 q rest m' ip :
  wf_prologue (rsp m0) (q ++ rest) -> p = q ++ rest -> near p -> length_of p < 2 ^ 32 ->
  directives unw0 (source 0 p) = Ok s -> pos mod 4 = 0 -> match h with Some a => 0 <= a < 2 ^ 32 | None => True end ->
  length_of q <= ip -> match rest with (n, _) :: _ => ip < length_of q + n | [] => True end ->
  intact m0 q m' ->
  exists inf, (forall bytes, read_info (xdata_item s h pos ++ bytes) = Some (inf, h)) /\
  let '(ret, m2) := unwind inf ip m' in
  ret = mem m0 (rsp m0) /\ rsp m2 = rsp m0 + 8 /\ mem m2 = mem m' /\
  (forall r, saves r q -> gpr m2 r = gpr m0 r) /\ (forall r, r <> 4 -> ~ saves r q -> gpr m2 r = gpr m' r) /\
  (forall r, saves_xmm r q -> xmm m2 r = xmm m0 r) /\ (forall r, ~ saves_xmm r q -> xmm m2 r = xmm m' r).
Proof. exact (unwinds p s h pos m0 q rest m' ip). Qed.
Print Assumptions C43_unwinds.

(** The function table: the item of each procedure gives its limits and the place
    of its own unwind information, which is aligned. *)
Theorem C43_table base l xd t : write_procs base [] None l = Ok (xd, t) -> length t = length l /\
  forall i p e, nth_error l i = Some p -> nth_error t i = Some e ->
  exists before behind, xd = before ++ xdata_item (p_unw p) (p_handler p) (zlen before) ++ behind /\ zlen before mod 4 = 0 /\
    (0 <= p_begin p -> 0 <= p_size p -> p_begin p + p_size p < 2 ^ 32 -> 0 <= base -> base + zlen before < 2 ^ 32 ->
     read_entry e = (p_begin p, p_begin p + p_size p, base + zlen before)).
Proof.
  intros H. destruct (write_procs_ok base l [] None xd t (or_intror (conj eq_refl eq_refl)) eq_refl H) as [_ F]. clear H.
  split; [clear - F; induction F; cbn; lia|].
  induction F as [|p0 e0 l t Hp F IH]; intros i p e Hi He; [destruct i; discriminate|].
  destruct i as [|i]; [|exact (IH i p e Hi He)]. cbn in Hi, He.
  assert (p0 = p /\ e0 = e) as [-> ->] by (split; congruence).
  destruct Hp as (_ & before & behind & E & Hz & ->). exists before, behind. repeat (split; [assumption|]).
  intros. pose proof (zlen_nonneg before). apply read_entry_ok; lia.
Qed.
Print Assumptions C43_table.
(** It is written if and only if every procedure has its .ENDPROLOG. *)
Theorem C43_written base l xd label :
  (exists r, write_procs base xd label l = Ok r) <-> Forall (fun p => endprolog (p_unw p) = true) l.
Proof.
  revert xd label. induction l as [|p l IH]; intros xd label; cbn [write_procs].
  - split; [constructor|]. eexists. reflexivity.
  - unfold WriteSEHData. split.
    + intros [r H]. destruct (endprolog (p_unw p)) eqn:E; cbn [negb bindr] in H; [|discriminate].
      destruct (write_procs base _ _ l) as [[x t]| |] eqn:W in H; try discriminate. constructor; [exact E|].
      eapply IH. eexists. exact W.
    + intros F. apply Forall_cons_iff in F as [-> F]. cbn [negb bindr].
      match goal with |- context [write_procs base ?x ?y l] => destruct (proj2 (IH x y) F) as [[x' t] ->] end.
      cbn [bindr]. eexists. reflexivity.
Qed.
Print Assumptions C43_written.

(** * Examples *)
(** mov [rsp+8], rcx; push rbp; push rbx; sub rsp, 90h; movaps [rsp+20h], xmm6; mov [rsp+40h], rsi; lea rbp, [rsp+80h] *)
Definition prolog0 : prologue :=
  [(5, IOther (fun m => store m (rsp m + 8) (gpr m 1))); (1, IPush 5); (1, IPush 3); (7, ISub 0x90); (5, ISaveX 6 0x20); (5, ISave 6 0x40); (8, ISetFp 5 0x80)].
Example prolog0_wf top : wf_prologue top prolog0 /\ near prolog0 /\ length_of prolog0 = 32.
Proof.
  split; [|split; [repeat constructor|reflexivity]]. unfold wf_prologue, prolog0. cbn [first second].
  split; [lia|]. split.
  { intros m E. repeat split; auto. intros a Ha. cbn. unfold upd. destruct (Z.eqb_spec a (rsp m + 8)); [lia|reflexivity]. }
  unfold nonvolatile, nonvolatile_xmm. cbn [In]. repeat split; try lia; try discriminate; auto 10; try (intros [H|H]; [lia|]); intuition lia.
Qed.
Definition state0 : unw :=
  match directives unw0 (source 0 prolog0) with Ok s => s | _ => unw0 end.
Example prolog0_accepted : directives unw0 (source 0 prolog0) = Ok state0 /\ rooms (source 0 prolog0) = 9 /\
  xdata_item state0 (Some 0x1234) 0 =
    [25; 32; 9; 0x85; 32; 0x53; 24; 0x64; 8; 0; 19; 0x68; 2; 0; 14; 0x01; 18; 0; 7; 0x30; 6; 0x50; 0; 0; 0x34; 0x12; 0; 0; 0; 0; 0; 0].
Proof. repeat split; vm_compute; reflexivity. Qed.
Definition m0 : machine := {| gpr := fun r => if r =? 4 then 1000 else 100 + r; xmm := fun r => (r, - r); mem := fun a => a mod 77 |}.
(** in the body, with other contents of the registers: rsi, rbx, rbp, xmm6 come back *)
Example unwind0 : match read_info (xdata_item state0 None 0) with
  | Some (inf, _) =>
      let m1 := execs m0 (map snd prolog0) in
      let m2 := set_gpr (set_gpr (set_gpr (set_xmm m1 6 (0, 0)) 6 0) 3 0) 4 500 in
      let '(ret, m3) := unwind inf 100 m2 in
      ret = 1000 mod 77 /\ gpr m3 4 = 1008 /\ gpr m3 3 = 103 /\ gpr m3 5 = 105 /\ gpr m3 6 = 106 /\ xmm m3 6 = (6, -6)
  | None => False end.
Proof. vm_compute. repeat split. Qed.
(** interrupted between the two pushes *)
Example unwind1 : match read_info (xdata_item state0 None 0) with
  | Some (inf, _) =>
      let '(ret, m3) := unwind inf 6 (execs m0 (map snd (firstn 2 prolog0))) in ret = 1000 mod 77 /\ gpr m3 4 = 1008 /\ gpr m3 5 = 105
  | None => False end.
Proof. vm_compute. repeat split. Qed.
Definition fp0 : frame_proc := {| p_begin := 0x1000; p_size := 0x80; p_handler := Some 0x1234; p_unw := state0 |}.
Definition fp1 : frame_proc := {| p_begin := 0x1080; p_size := 0x20; p_handler := None; p_unw := state0 |}.
Example table0 : match write_procs 0x3000 [] None [fp0; fp1; fp0] with
  | Ok (xd, t) => zlen xd = 88 /\ map read_entry t = [(0x1000, 0x1080, 0x3000); (0x1080, 0x10A0, 0x3020); (0x1000, 0x1080, 0x3038)]
  | _ => False end.
Proof. vm_compute. auto. Qed.
Example refused0 : ExcFrameDirective unw0 0 (DAllocStack 12) = Err /\ ExcFrameDirective unw0 0 (DAllocStack 0) = Err /\
  ExcFrameDirective unw0 0 (DSetFrame 5 256) = Err /\ ExcFrameDirective unw0 0 (DSaveVec 6 8) = Err /\
  (exists s, ExcFrameDirective unw0 0 (DAllocStack 0xFFFFFFF8) = Ok s).
Proof. repeat split; try reflexivity. eexists. vm_compute. reflexivity. Qed.

(** * Where it is wrong *)
(** what is read back for a single directive *)
Definition read_back (d : directive) : option (list (Z * uop)) :=
  match directives unw0 [(4, d); (9, DEndProlog)] with
  | Ok s => match read_info (xdata_item s None 0) with Some (i, _) => Some (u_ops i) | None => None end
  | _ => None end.
(** .SAVEREG with offset 80000h: the limit for the short form is tested with ">"
    instead of ">=", the offset is stored as 0 *)
Theorem C43_savereg_limit_refuted : read_back (DSaveReg 3 (2 ^ 19)) = Some [(4, USave 3 0)] /\ read_back (DSaveVec 6 (2 ^ 20)) = Some [(4, USaveX 6 0)].
Proof. split; vm_compute; reflexivity. Qed.
Print Assumptions C43_savereg_limit_refuted.
Lemma far_words s c op far r v k : 0 <= k <= 4 -> 2 ^ 16 * 2 ^ k < v < 2 ^ 31 -> v mod 2 ^ k = 0 -> codes s = [] ->
  save s c (2 ^ k) op far r v = Ok {| codes := [v / 2 ^ k / 65536; v / 2 ^ k mod 65536; code_word c far r];
    size_of_prolog := size_of_prolog s; frame_reg := frame_reg s; frame_ofs := frame_ofs s; endprolog := endprolog s |}.
Proof.
  intros Hk Hv Hm Hs. unfold save. assert (0 < 2 ^ k) by (apply Z.pow_pos_nonneg; lia).
  rewrite swrap_small by (change (2 ^ (32 - 1)) with (2 ^ 31); lia).
  replace (2 ^ k - 1) with (Z.ones k) by (rewrite Z.ones_equiv; lia). rewrite Z.land_ones, Hm by lia. cbn [Z.eqb negb].
  rewrite wrap_small by lia. rewrite Z.gtb_ltb. change 65536 with (2 ^ 16) at 1. destruct (Z.ltb_spec (2 ^ 16 * 2 ^ k) v); [|lia].
  rewrite Z.log2_pow2, !Z.shiftr_div_pow2 by lia. rewrite add_codes_eq by (rewrite ?Hs; cbv; discriminate). rewrite Hs. cbn [app].
  change (zlen []) with 0. destruct (Z.leb_spec (0 + zlen [frame_word (v / 2 ^ (16 + k)); frame_word (v / 2 ^ k); code_word c far r]) 255) as [_|L]; [|exfalso; revert L; cbv; discriminate].
  unfold frame_word. rewrite (Z.add_comm 16 k), Z.pow_add_r, <- Z.div_div by lia. change (2 ^ 16) with 65536.
  rewrite (wrap_small 16 (v / 2 ^ k / 65536)); [reflexivity|]. change (2 ^ 16) with 65536. split; [apply Z.div_pos; [apply Z.div_pos; lia|lia]|].
  apply Z.div_lt_upper_bound; [lia|]. apply Z.div_lt_upper_bound; [lia|]. change (2 ^ 31) with 2147483648 in Hv. nia.
Qed.
(** .SAVEREG and .SAVEXMM128 with larger offsets: the long form holds the offset
    itself, but the offset divided by 8 resp. 16 is stored; every such register is
    restored from the wrong place *)
Theorem C43_far_refuted : forall r v, 0 <= r < 16 -> v < 2 ^ 31 ->
  (2 ^ 19 < v -> v mod 8 = 0 -> read_back (DSaveReg r v) = Some [(4, USave r (v / 8))] /\ v / 8 <> v) /\
  (2 ^ 20 < v -> v mod 16 = 0 -> read_back (DSaveVec r v) = Some [(4, USaveX r (v / 16))] /\ v / 16 <> v).
Proof.
  intros r v Hr Hv. change (2 ^ 31) with 2147483648 in Hv. split; intros H Hm; (split; [|lia]).
  - unfold read_back, directives, ExcFrameDirective. cbn [endprolog unw0]. change 8 with (2 ^ 3) at 2. rewrite (far_words unw0 _ _ _ r v 3) by (auto; change (2 ^ 19) with 524288 in H; change (2 ^ 31) with 2147483648; cbn; lia).
    cbn [bindr endprolog unw0]. change (wrap 32 9 >? 255) with false. cbn [bindr codes size_of_prolog frame_reg frame_ofs].
    pose proof (item_read {| codes := [v / 2 ^ 3 / 65536; v / 2 ^ 3 mod 65536; code_word (wrap 8 4) UWOP_SAVE_NONVOL_FAR r]; size_of_prolog := wrap 8 9; frame_reg := 0; frame_ofs := 0; endprolog := true |} None 0 [(4, USave r (v / 8))]) as I.
    cbn [codes frame_reg frame_ofs] in I. specialize (I eq_refl ltac:(cbv; discriminate)). change (2 ^ 3) with 8 in *.
    specialize (I ltac:(repeat constructor; try lia; apply (code_word_range (wrap 8 4) UWOP_SAVE_NONVOL_FAR r))).
    rewrite <- (app_nil_r (xdata_item _ _ _)), I; [reflexivity| |lia|lia|exact Logic.I].
    cbn [rev app ops]. destruct (code_word_facts (wrap 8 4) UWOP_SAVE_NONVOL_FAR r ltac:(cbv; split; [discriminate|reflexivity]) Hr) as (_ & -> & -> & ->).
    change UWOP_SAVE_NONVOL_FAR with 5. cbn [ops]. change (wrap 8 (wrap 8 4)) with 4. do 4 f_equal. lia.
  - unfold read_back, directives, ExcFrameDirective. cbn [endprolog unw0]. change 16 with (2 ^ 4) at 2. rewrite (far_words unw0 _ _ _ r v 4) by (auto; change (2 ^ 20) with 1048576 in H; change (2 ^ 31) with 2147483648; cbn; lia).
    cbn [bindr endprolog unw0]. change (wrap 32 9 >? 255) with false. cbn [bindr codes size_of_prolog frame_reg frame_ofs].
    pose proof (item_read {| codes := [v / 2 ^ 4 / 65536; v / 2 ^ 4 mod 65536; code_word (wrap 8 4) UWOP_SAVE_XMM128_FAR r]; size_of_prolog := wrap 8 9; frame_reg := 0; frame_ofs := 0; endprolog := true |} None 0 [(4, USaveX r (v / 16))]) as I.
    cbn [codes frame_reg frame_ofs] in I. specialize (I eq_refl ltac:(cbv; discriminate)). change (2 ^ 4) with 16 in *.
    specialize (I ltac:(repeat constructor; try lia; apply (code_word_range (wrap 8 4) UWOP_SAVE_XMM128_FAR r))).
    rewrite <- (app_nil_r (xdata_item _ _ _)), I; [reflexivity| |lia|lia|exact Logic.I].
    cbn [rev app ops]. destruct (code_word_facts (wrap 8 4) UWOP_SAVE_XMM128_FAR r ltac:(cbv; split; [discriminate|reflexivity]) Hr) as (_ & -> & -> & ->).
    change UWOP_SAVE_XMM128_FAR with 9. cbn [ops]. change (wrap 8 (wrap 8 4)) with 4. do 4 f_equal. lia.
Qed.
Print Assumptions C43_far_refuted.
(** offsets beyond 32 bits are cut off without an error (only .ALLOCSTACK tests
    the upper half): .SAVEREG rbx, 100000008h is taken for offset 8, .SETFRAME
    rbp, 100000010h for 10h *)
Theorem C43_wide_refuted : read_back (DSaveReg 3 (2 ^ 32 + 8)) = Some [(4, USave 3 8)] /\
  match directives unw0 [(4, DSetFrame 5 (2 ^ 32 + 16))] with Ok s => frame_ofs s = 1 | _ => False end.
Proof. split; vm_compute; reflexivity. Qed.
Print Assumptions C43_wide_refuted.
(** the number of a register has 4 bits only: .SAVEZMM512 zmm22 (or .SAVEXMM128
    xmm22) is accepted and announces xmm6 *)
Theorem C43_xmm16_refuted : read_back (DSaveVec 22 32) = Some [(4, USaveX 6 32)].
Proof. vm_compute. reflexivity. Qed.
Print Assumptions C43_xmm16_refuted.
(** .SETFRAME rax is accepted, but 0 means that there is no frame register *)
Theorem C43_setframe_rax_refuted : match directives unw0 [(4, DSetFrame 0 32); (9, DEndProlog)] with
  | Ok s => match read_info (xdata_item s None 0) with Some (i, _) => frame_set i 100 = false | None => False end
  | _ => False end.
Proof. vm_compute. reflexivity. Qed.
Print Assumptions C43_setframe_rax_refuted.
(** if .xdata already has contents of its own, the offset is added twice: the
    label $xdatasym stands behind these contents and the current size of the
    segment is added to it *)
Theorem C43_xdata_used_refuted : match write_procs 0x3000 [1; 2; 3; 4; 5; 6; 7; 8] None [fp1] with
  | Ok (xd, [e]) => read_entry e = (0x1080, 0x10A0, 0x3010) /\ read_info (skipn 8 xd) <> None /\ read_info (skipn 16 xd) = None
  | _ => False end.
Proof. vm_compute. repeat split; discriminate. Qed.
Print Assumptions C43_xdata_used_refuted.
