(** C44: stack frames of Win64 procedures. *)
From Coq Require Import List ZArith Bool Lia.
From Verif Require Import Base Unwind_Model Unwind_Spec UnwindRun_Proofs Frame_Model Frame_Spec Frame_Proofs FrameRun_Proofs FrameUnw_Proofs.
Import ListNotations.
Open Scope Z_scope.

Definition res_of (o : options) (invokes : list Z) : Z := if o_autosp o then reserved o invokes else 0.
Lemma setup o n p invokes r : assembled o n p invokes = Ok r ->
  frame_pass o false p (cntstd (uses p)) (reserved o invokes) = Ok r /\ reserved o invokes mod 16 = 0 /\ 0 <= reserved o invokes /\ (o_autosp o = false -> reserved o invokes = 0) /\ resv o (reserved o invokes) = reserved o invokes.
Proof.
  intros H. apply assembled_form in H. destruct (reserved_ok o invokes) as (R1 & R2 & _ & R4). repeat split; auto. unfold resv. destruct (o_autosp o); [reflexivity|symmetry; auto].
Qed.

(** A procedure returns to its caller: whatever the body does to the space it may
    write to and to the registers other than the one the frame is addressed with,
    the epilogue leads the stack pointer back to the return address, restores the
    registers of USES and the frame register, and leaves everything else alone. *)
Theorem C44_returns avx o n p invokes lay pro epi m0 m2 :
  assembled o n p invokes = Ok (lay, pro, epi) -> proc_ok p -> sp m0 mod 8 = 0 ->
  body m0 (run avx m0 pro) m2 p lay (reserved o invokes) ->
  let m3 := run avx m2 epi in
  sp m3 = sp m0 /\ mm m3 (sp m0) = mm m0 (sp m0) /\ mm m3 = mm m2 /\
  (forall r, kept p r -> g m3 r = g m0 r) /\ (forall r, r <> 4 -> ~ kept p r -> g m3 r = g m2 r) /\
  (forall u r j, In u (uses p) -> In r (vec_of u) -> 0 <= j < lanes_of u -> v m3 r j = v m0 r j) /\
  (forall r, ~ In r (flat_map vec_of (uses p)) -> v m3 r = v m2 r).
Proof.
  intros H Hp Hal Hb. apply setup in H as (H & R1 & R2 & R3 & R4). rewrite <- R4 in Hb. exact (returns avx o p (reserved o invokes) lay pro epi m0 m2 H Hp R1 R2 R3 Hal Hb).
Qed.
Print Assumptions C44_returns.

(** Before the body runs, nothing but the stack pointer and the frame register has
    changed, the stack pointer is a multiple of 16, and the memory of the caller is
    as it was but for the home space, where the parameters passed in registers are
    if they are asked for. *)
Theorem C44_enters avx o n p invokes lay pro epi m0 :
  assembled o n p invokes = Ok (lay, pro, epi) -> proc_ok p -> sp m0 mod 16 = 8 ->
  let m1 := run avx m0 pro in
  sp m1 mod 16 = 0 /\ sp m1 + reserved o invokes + vector_bytes p + pushed_bytes p <= sp m0 /\
  (forall r, r <> 4 -> (needs_frame p = true -> r <> 5) -> g m1 r = g m0 r) /\ v m1 = v m0 /\
  (forall a, sp m0 <= a -> (forall k, (k < 4)%nat -> a <> sp m0 + 8 + 8 * Z.of_nat k) -> mm m1 a = mm m0 a) /\
  (forall k, (k < 4)%nat -> mm m1 (sp m0 + 8 + 8 * Z.of_nat k) = if o_save o then home_cell m0 (params p) k else mm m0 (sp m0 + 8 + 8 * Z.of_nat k)).
Proof.
  intros H Hp Hal. apply setup in H as (H & R1 & R2 & R3 & R4). destruct (all_aligned avx o p _ lay pro epi m0 (run avx m0 pro) H Hp R1 R2 R3 Hal eq_refl) as (A1 & _).
  destruct (pass_layout _ _ _ _ _ _ H Hp R1 R2) as (Ha & HF & Hpro & _). destruct (prologue_run avx o p _ lay pro m0 HF Hpro Hp R2) as ((T1 & T2 & T3 & T4 & T5 & T6 & T7) & _).
  pose proof (whole_nonneg _ _ _ _ HF R2) as (W1 & W2 & W3 & W4). destruct HF as (L1 & L2 & _). cbn zeta. split; [exact A1|].
  rewrite pushed_bytes_eq, vector_bytes_eq. split. { unfold whole in T1. rewrite R4 in T1. unfold frame8 in T1. destruct (needs_frame p); lia. }
  split. { intros r Hr1 Hr2. destruct (Z.eq_dec r 5) as [->|N]; [|apply T4; assumption]. destruct (needs_frame p); [exfalso; apply Hr2; reflexivity|apply T3; reflexivity]. }
  split; [exact T5|]. split; [intros a A2 A3; apply T6; auto|]. intros k Hk. destruct (o_save o) eqn:E; [|apply T6; [lia|discriminate]]. rewrite T7 by auto. apply homed_cell. exact Hk.
Qed.
Print Assumptions C44_enters.

(** Locals have room of their own: above the space reserved for arguments, below
    the registers that were saved, apart from each other, and aligned by their
    size.  Parameters are addressed where the caller has put them. *)
Theorem C44_locals avx o n p invokes lay pro epi m0 :
  assembled o n p invokes = Ok (lay, pro, epi) -> proc_ok p -> sp m0 mod 16 = 8 -> let m1 := run avx m0 pro in
  Forall2 (fun k ofs => let a := base p m1 + ofs in
    sp m1 + reserved o invokes <= a /\ a + k <= sp m0 - pushed_bytes p - vector_bytes p /\ a mod natural k = 0) (locals p) (local_ofs lay) /\
  ForallOrdPairs (fun x y => fst x <= snd x /\ fst y <= snd y /\ (snd x <= fst y \/ snd y <= fst x)) (ranges p (local_ofs lay) (base p m1)) /\
  length (param_ofs lay) = length (params p) /\
  (forall k ofs, nth_error (param_ofs lay) k = Some ofs -> base p m1 + ofs = sp m0 + 8 + 8 * Z.of_nat k).
Proof.
  intros H Hp Hal. apply setup in H as (H & R1 & R2 & R3 & R4). destruct (locals_ok avx o p _ lay pro epi m0 H Hp R1 R2 Hal) as (A1 & A2 & A3 & A4 & A5). cbn zeta in *.
  rewrite R4 in A3. rewrite pushed_bytes_eq, vector_bytes_eq. split; [|auto]. clear - A3. induction A3 as [|k ofs a b X Y IH]; constructor; [|exact IH]. lia.
Qed.
Print Assumptions C44_locals.

(** Aligned moves meet aligned addresses, in prologue and epilogue. *)
Theorem C44_aligned avx o n p invokes lay pro epi m0 m2 :
  assembled o n p invokes = Ok (lay, pro, epi) -> proc_ok p -> sp m0 mod 16 = 8 -> base p m2 = base p (run avx m0 pro) ->
  aligned avx m0 pro /\ aligned avx m2 epi.
Proof.
  intros H Hp Hal Hb. apply setup in H as (H & R1 & R2 & R3 & R4). exact (proj2 (all_aligned avx o p _ lay pro epi m0 m2 H Hp R1 R2 R3 Hal Hb)).
Qed.
Print Assumptions C44_aligned.

(** The space reserved for arguments is enough for every INVOKE in the procedure,
    and keeps the stack aligned; without OPTION WIN64:2 there is none. *)
Theorem C44_reserved o invokes :
  reserved o invokes mod 16 = 0 /\ (o_autosp o = true -> enough (reserved o invokes) invokes) /\ (o_autosp o = false -> reserved o invokes = 0).
Proof. destruct (reserved_ok o invokes) as (A & _ & B & C). auto. Qed.
Print Assumptions C44_reserved.

(** Every procedure without zmm registers is given a frame, in any number of
    passes, and in all passes the same one. *)
Theorem C44_exists o n p invokes : o_auto o = true -> no_zmm p -> exists r, assembled o n p invokes = Ok r /\ assembled o 0 p invokes = Ok r.
Proof.
  intros Ha Hz. destruct (assembled_exists o n p invokes Ha Hz) as [r Hr]. exists r. split; [exact Hr|]. destruct (assembled_exists o 0 p invokes Ha Hz) as [r0 Hr0]. rewrite Hr0.
  apply assembled_form in Hr. apply assembled_form in Hr0. congruence.
Qed.
Print Assumptions C44_exists.

(** The unwind directives in the prologue describe it: with code of any lengths
    they are those of the instructions, and these are a prologue in the sense of
    C43, so that at every instruction the operating system finds the caller with
    all its registers. *)
Theorem C44_unwinds o n p invokes lay pro epi ls m0 q rest s h pos m' ip :
  assembled o n p invokes = Ok (lay, pro, epi) -> proc_ok p -> all_nonvolatile p -> localsize lay + reserved o invokes < 2 ^ 20 ->
  map fst ls = pro -> Forall (fun x => 0 < snd x) ls ->
  code_of ls = q ++ rest -> length_of (code_of ls) < 2 ^ 32 ->
  directives unw0 (dirs_of 0 ls) = Ok s -> pos mod 4 = 0 -> match h with Some a => 0 <= a < 2 ^ 32 | None => True end ->
  length_of q <= ip -> match rest with (n, _) :: _ => ip < length_of q + n | [] => True end ->
  intact m0 q m' ->
  exists inf, (forall bytes, read_info (xdata_item s h pos ++ bytes) = Some (inf, h)) /\
  let '(ret, m2) := unwind inf ip m' in
  ret = mem m0 (rsp m0) /\ rsp m2 = rsp m0 + 8 /\ mem m2 = mem m' /\
  (forall r, saves r q -> gpr m2 r = gpr m0 r) /\ (forall r, r <> 4 -> ~ saves r q -> gpr m2 r = gpr m' r) /\
  (forall r, saves_xmm r q -> xmm m2 r = xmm m0 r) /\ (forall r, ~ saves_xmm r q -> xmm m2 r = xmm m' r).
Proof.
  intros H Hp Hnv Hbig E Ht Hq Hlen Hd. apply setup in H as (H & R1 & R2 & R3 & R4). rewrite <- R4 in Hbig.
  destruct (unwindable o p _ lay pro epi ls (rsp m0) H Hp R1 R2 Hnv Hbig E Ht) as (U1 & U2 & U3). rewrite U1 in Hd. rewrite Hq in U2.
  intros Hpos Hh Hip Hrest Hi. exact (unwinds (code_of ls) s h pos m0 q rest m' ip U2 Hq U3 Hlen Hd Hpos Hh Hip Hrest Hi).
Qed.
Print Assumptions C44_unwinds.

(** The instructions spoken of in C44_unwinds do what the lines do. *)
Theorem C44_same avx o n p invokes lay pro epi ls c m :
  assembled o n p invokes = Ok (lay, pro, epi) -> proc_ok p -> all_nonvolatile p -> map fst ls = pro -> same_state c m ->
  same_state (run avx c pro) (execs m (map snd (code_of ls))).
Proof.
  intros H Hp Hnv E Hs. apply setup in H as (H & R1 & R2 & R3 & R4). destruct (pass_layout _ _ _ _ _ _ H Hp R1 R2) as (Ha & HF & Hpro & _). rewrite <- E. apply run_same; [|exact Hs].
  rewrite E. eapply prologue_both; eassumption.
Qed.
Print Assumptions C44_same.

(** * A procedure with everything *)
Definition opts := {| o_save := true; o_autosp := true; o_align16 := false; o_smart := true; o_lea := false; o_auto := true |}.
Definition par t u := {| p_type := t; p_used := u; p_vararg := false |}.
Definition full := {| uses := [UG 3; UX 6; UG 6; UX 7]; locals := [4; 32; 1; 8]; params := [par MOther true; par MReal8 true; par MDword false; par MByte true; par MOther true];
  handler := false; forceframe := false; has_vararg := false; stackparam := true |}.
Definition full_result := match assembled opts 1 full [2; 5] with Ok r => r | _ => ({| localsize := 0; frameofs := 0; local_ofs := []; param_ofs := [] |}, [], []) end.
Definition full_lay := fst (fst full_result).
Definition full_pro := snd (fst full_result).
Definition full_epi := snd full_result.
Example C44_full : assembled opts 1 full [2; 5] = Ok (full_lay, full_pro, full_epi) /\
  full_pro = [LHome 0 1 8; LHomeX 1 8; LHome 3 9 1; LHot; LPush 5; LDir (DPushReg 5); LPush 3; LDir (DPushReg 3); LPush 6; LDir (DPushReg 6);
    LSub false 128; LDir (DAllocStack 128); LStore true 6 2 96; LDir (DSaveVec 6 96); LStore true 7 2 112; LDir (DSaveVec 7 112); LLea 5 96; LDir (DSetFrame 5 96); LDir DEndProlog] /\
  full_epi = [LLoad true 5 6 2 0; LLoad true 5 7 2 16; LLeaSp 5 32; LPop 6; LPop 3; LPop 5] /\
  local_ofs full_lay = [-44; -32; -45; -40] /\ param_ofs full_lay = [64; 72; 80; 88; 96].
Proof. vm_compute. repeat split. Qed.
Example C44_full_ok : proc_ok full /\ needs_frame full = true.
Proof. split; [|reflexivity]. split; [repeat constructor; lia|]. split; [|repeat constructor; lia]. cbn. repeat constructor; cbn; intuition lia. Qed.
(** the body overwrites a local, two registers of USES and the stack pointer *)
Definition start := {| g := fun r => if r =? 4 then 1000 else r; v := fun r j => 100 * r + j; mm := fun a => a |}.
Definition scratch (m : cpu) := {| g := upd (upd (g m) 3 77) 4 5; v := fun _ _ => 0; mm := upd (mm m) (sp m + 64) 9 |}.
Example C44_returns_example : let m3 := run false (scratch (run false start full_pro)) full_epi in
  body start (run false start full_pro) (scratch (run false start full_pro)) full full_lay 48 /\
  sp m3 = 1000 /\ g m3 3 = 3 /\ v m3 6 1 = 601 /\ mm m3 1000 = 1000.
Proof.
  cbn zeta. assert (B : body start (run false start full_pro) (scratch (run false start full_pro)) full full_lay 48).
  { split; [vm_compute; reflexivity|]. intros a _ Ha. set (m1 := run false start full_pro) in *. unfold scratch. cbn [mm]. apply upd_ne. intros ->. apply Ha. right. left.
    exists (base full m1 + -32, base full m1 + -32 + 32). split; [right; left; reflexivity|]. unfold meets. cbn [fst snd]. assert (E : base full m1 = sp m1 + 96) by (vm_compute; reflexivity). rewrite E. lia. }
  split; [exact B|]. destruct C44_full_ok as [P _].
  destruct (C44_returns false opts 1 full [2; 5] full_lay full_pro full_epi start _ (proj1 C44_full) P eq_refl B) as (A1 & A2 & A3 & A4 & _ & A6 & _).
  split; [exact A1|]. split; [apply A4; left; left; reflexivity|]. split; [apply (A6 (UX 6)); [right; left; reflexivity|left; reflexivity|cbn; lia]|]. exact A2.
Qed.
Example C44_enters_example : let m1 := run false start full_pro in
  sp m1 = 848 /\ mm m1 1008 = 1 /\ mm m1 1016 = 100 /\ mm m1 1024 = 1024 /\ mm m1 1032 = 1024 - 1024 mod 256 + 9 /\ home_cell start (params full) 3 = 1033.
Proof. vm_compute. repeat split. Qed.
Example C44_unwinds_example : exists s, directives unw0 (dirs_of 0 (map (fun x => (x, 4)) full_pro)) = Ok s /\ all_nonvolatile full.
Proof. vm_compute. eexists. split; [reflexivity|]. repeat constructor; cbv; intuition discriminate. Qed.
(** a procedure that needs no frame: RSP is the register *)
Definition leaf := {| uses := [UG 12; UX 15]; locals := []; params := []; handler := false; forceframe := false; has_vararg := false; stackparam := false |}.
Example C44_leaf : assembled opts 0 leaf [6] = Ok ({| localsize := 16; frameofs := 0; local_ofs := []; param_ofs := [] |},
  [LPush 12; LDir (DPushReg 12); LSub false 64; LDir (DAllocStack 64); LStore true 15 2 48; LDir (DSaveVec 15 48); LDir DEndProlog],
  [LLoad true 4 15 2 48; LAdd false 64; LPop 12]).
Proof. vm_compute. reflexivity. Qed.

(** * What does not hold *)
(** "Any vector register may be in USES."  The line that stores a zmm register
    when no stack is reserved is made with a format that has one place more than it is
    given values (proc.c 3177); no stack is reserved in pass 1, so this happens
    to every FRAME procedure with a zmm register. *)
Theorem C44_zmm_refuted o n p invokes r : In (UZ r) (uses p) -> assembled o n p invokes = UB.
Proof. intros H. apply assembled_zmm. apply Exists_exists. exists (UZ r). split; [exact H|exact Logic.I]. Qed.
Print Assumptions C44_zmm_refuted.
Example C44_zmm_example : In (UZ 8) (uses {| uses := [UG 3; UZ 8]; locals := []; params := []; handler := false; forceframe := true; has_vararg := false; stackparam := false |}).
Proof. right. left. reflexivity. Qed.

(** "FRAME without OPTION FRAME:AUTO leaves the prologue to the programmer."  The
    number of vector registers is then tested without ever having been set
    (proc.c 2983, 3136). *)
Theorem C44_noauto_refuted o n p invokes : o_auto o = false -> assembled o n p invokes = UB.
Proof. exact (assembled_noauto o n p invokes). Qed.
Print Assumptions C44_noauto_refuted.
Example C44_noauto_example : o_auto {| o_save := false; o_autosp := false; o_align16 := false; o_smart := false; o_lea := false; o_auto := false |} = false.
Proof. reflexivity. Qed.

(** "The unwind information describes every prologue."  A register that is not
    preserved across calls, like RAX, may be in USES and is pushed, but there is no
    .PUSHREG for it (proc.c 3034): the operating system takes the contents of RAX
    for the return address. *)
Theorem C44_volatile_refuted : exists o p lay pro epi, assembled o 0 p [] = Ok (lay, pro, epi) /\ proc_ok p /\
  exists s inf, directives unw0 (dirs_of 0 (map (fun x => (x, 1)) pro)) = Ok s /\ read_info (xdata_item s None 0) = Some (inf, None) /\
  forall m0, let m' := execs m0 (map snd (code_of (map (fun x => (x, 1)) pro))) in fst (unwind inf 1 m') = gpr m0 0.
Proof.
  exists opts, {| uses := [UG 0]; locals := []; params := []; handler := false; forceframe := false; has_vararg := false; stackparam := false |}. eexists. eexists. eexists. split; [vm_compute; reflexivity|].
  split; [split; [repeat constructor; lia|split; constructor]|]. eexists. eexists. split; [vm_compute; reflexivity|]. split; [vm_compute; reflexivity|].
  intros m0. cbn. apply upd_eq.
Qed.
Print Assumptions C44_volatile_refuted.
