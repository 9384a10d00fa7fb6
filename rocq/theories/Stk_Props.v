(** C46: stack frames of 16-bit and 32-bit procedures. *)
From Coq Require Import List ZArith Bool Lia.
From Verif Require Import Base Stk_Model Stk_Spec Stk_Proofs StkRun_Proofs StkRet_Proofs.
Import ListNotations.
Open Scope Z_scope.

Lemma setup o n p arg i pro epi : assembled o n p arg = Ok (i, pro, epi) -> proc_ok o p ->
  localsize i = whole o p /\ local_ofs i = final_local o p /\ para_ofs i = final_para o p /\ pro = enter_lines o p /\
  epi = (map LPop (rev (uses p)) ++ (if loadds p then [LPop (US 3)] else []) ++ leave_lines o p) ++ [RetInstr o p arg].
Proof.
  intros H Hp. pose proof Hp as (Ho & _ & _ & _ & Hg & _). destruct (assembled_form o n p arg i pro epi Ho H) as (Hs & -> & -> & Hok). rewrite forallb_app in Hok. apply andb_true_iff in Hok as [Hok _].
  rewrite (prologue_form o p i Hp Hs Hok), (epilogue_form o p i Hg Hs). destruct Hs as (_ & S2 & S3 & S4). auto.
Qed.
Lemma entry o p d m0 : proc_ok o p -> room o p (whole o p) m0 -> at_entry o p m0 (run o d m0 (enter_lines o p)).
Proof. intros Hp Hr. destruct (enters o p d m0 Hp Hr) as (E1 & E2 & _). split; [exact E1|]. intros F. apply E2. exact F. Qed.
(** whether the frame register is set up *)
Definition with_frame (o : options) (p : proc) : Prop := needs_frame o p /\ uses_sp o = false.
Lemma with_framed o p : lang_ok p -> with_frame o p <-> framed o p = true.
Proof. intros Hg. split; [intros [N U]; apply needs_framed; assumption|apply framed_needs; exact Hg]. Qed.

(** What the prologue does.  With locals, parameters on the stack or FORCEFRAME, and
    unless the stack pointer is the base register, the frame register points to its
    saved value just below the return address.  The registers of USES and with LOADDS
    the data segment are saved below the locals.  Nothing else changes: the other
    registers and the memory of the caller stay. *)
Theorem C46_enters o n p arg i pro epi d m0 : assembled o n p arg = Ok (i, pro, epi) -> proc_ok o p -> room o p (localsize i) m0 ->
  let m1 := run o d m0 pro in
  (with_frame o p -> sp m1 = sp m0 - ws o - localsize i - saved_bytes o p /\ the_base o m1 = sp m0 - ws o /\
     load (mem m1) (sp m0 - ws o) (Z.to_nat (ws o)) = value m0 (UG (ws o) (basereg o))) /\
  (~ with_frame o p -> sp m1 = sp m0 - localsize i - saved_bytes o p) /\
  (forall r, (with_frame o p -> r <> basereg o) -> (loadds p = true -> r <> 0) -> g m1 r = g m0 r) /\
  (forall r, (loadds p = true -> r <> 3) -> sg m1 r = sg m0 r) /\ (loadds p = true -> sg m1 3 = low 2 d) /\
  (forall a, sp m0 <= a -> mem m1 a = mem m0 a).
Proof.
  intros H Hp Hr. destruct (setup o n p arg i pro epi H Hp) as (S1 & _ & _ & -> & _). rewrite S1 in *. destruct (enters o p d m0 Hp Hr) as (E1 & E2 & E3 & E4 & E5 & _ & _ & E8 & E9). cbv zeta in *. pose proof Hp as (_ & _ & _ & _ & Hg & _). pose proof (with_framed o p Hg) as W.
  assert (SB : saved_bytes o p = ld o p + widths (ws o) (uses p)) by (unfold saved_bytes, ld, widths; lia).
  repeat split.
  - rewrite E1, SB. unfold fb. rewrite (proj1 W H0). lia.
  - apply E2, W; assumption.
  - apply E8, W; assumption.
  - intros N. rewrite E1, SB. unfold fb. destruct (framed o p); [exfalso; tauto|lia].
  - intros r R1 R2. apply E3; [intros F; apply R1, W; exact F|exact R2].
  - exact E5.
  - intros D. apply E4. exact D.
  - exact E9.
Qed.
Print Assumptions C46_enters.

(** A procedure returns to its caller.  The body may do what it likes with its
    locals, with the memory outside its frame and with the registers other than the
    frame register, if it leaves the stack pointer where it was.  RET then finds the
    return address, removes the arguments if that is up to the procedure, and the
    registers of USES, the frame register and with LOADDS the data segment have
    their old contents.  The memory and the other registers are as the body left
    them.  With FASTCALL the parameters that go to registers have to fit there; see
    [C46_fastcall_refuted]. *)
Theorem C46_returns o n p arg i pro epi d m0 m2 : assembled o n p arg = Ok (i, pro, epi) -> proc_ok o p -> room o p (localsize i) m0 ->
  (plang p = LFastcall -> arg = None -> Forall (fun q => 0 < p_size q /\ fits o q = true) (firstn (registers o LFastcall) (params p))) ->
  body o p m0 (run o d m0 pro) m2 (local_ofs i) ->
  exists epi', let popped := match arg with Some x => x | None => if callee_cleans (plang p) then args_size o p else 0 end in
    epi = epi' ++ [LRet (far p) popped] /\
    let mr := run o d m2 epi' in let m3 := run o d m2 epi in
    sp mr = sp m0 /\ (forall a, sp m0 <= a < sp m0 + ra o p -> mem mr a = mem m0 a) /\
    sp m3 = sp m0 + ra o p + popped /\ mem m3 = mem m2 /\
    (forall u, kept o p u -> value m3 u = value m0 u) /\
    (forall r, (forall n, ~ kept o p (UG n r)) -> g m3 r = g m2 r) /\ (forall r, ~ kept o p (US r) -> sg m3 r = sg m2 r).
Proof.
  intros H Hp Hr Hf Hb. destruct (setup o n p arg i pro epi H Hp) as (S1 & S2 & _ & -> & ->). rewrite S1, S2 in *. destruct (returns o p d m0 m2 Hp Hr Hb) as (R1 & R2 & R3 & R4 & R5 & R6). cbv zeta in *.
  pose proof Hp as (Ho & _ & _ & _ & Hg & _). exists (map LPop (rev (uses p)) ++ (if loadds p then [LPop (US 3)] else []) ++ leave_lines o p). set (e := map LPop _ ++ _) in *. clearbody e.
  set (popped := match arg with Some x => x | None => _ end). assert (E : RetInstr o p arg = LRet (far p) popped).
  { unfold popped. destruct arg as [x|]; [reflexivity|]. apply ret_ok; auto. }
  rewrite E. split; [reflexivity|]. rewrite run_app. set (mr := run o d m2 e) in *. clearbody mr. cbn [run fold_left step set_sp sp mem g sg]. split; [exact R1|]. split; [exact R3|]. split; [rewrite R1; reflexivity|]. split; [exact R2|]. split; [|split; [exact R5|exact R6]].
  intros u Hu. rewrite <- (R4 u Hu). destruct u; reflexivity.
Qed.
Print Assumptions C46_returns.

(** Every local has its own place between the saved registers and the return
    address, or the saved frame register, and is aligned as its elements ask for if
    the stack is aligned. *)
Theorem C46_locals o n p arg i pro epi d m0 : assembled o n p arg = Ok (i, pro, epi) -> proc_ok o p -> room o p (localsize i) m0 ->
  let m1 := run o d m0 pro in
  Forall2 (fun l x => let a := base o m1 + x in
    sp m1 + saved_bytes o p <= a /\ a + size_of l <= sp m0 /\ (with_frame o p -> a + size_of l <= sp m0 - ws o) /\
    (sp m0 mod ws o = 0 -> a mod natural (ws o) (l_elem l) = 0)) (locals p) (local_ofs i) /\
  ForallOrdPairs (fun x y => fst x <= snd x /\ fst y <= snd y /\ (snd x <= fst y \/ snd y <= fst x)) (ranges p (local_ofs i) (base o m1)) /\
  (localsize i = 0 <-> locals p = []) /\ localsize i mod ws o = 0.
Proof.
  intros H Hp Hr. destruct (setup o n p arg i pro epi H Hp) as (S1 & S2 & _ & -> & _). rewrite S1, S2 in *. pose proof (entry o p d m0 Hp Hr) as He. cbv zeta. set (m1 := run o d m0 (enter_lines o p)) in *. clearbody m1. destruct (locals_at o p m0 m1 Hp He) as [L1 L2].
  pose proof Hp as (Ho & _ & _ & Hl & Hg & _). pose proof Ho as (Hw & _). destruct (whole_ok o p Ho Hl) as (_ & W2 & W3 & _). split; [|auto]. cbv zeta in L1.
  assert (SB : saved_bytes o p = ld o p + widths (ws o) (uses p)) by (unfold saved_bytes, ld, widths; lia). destruct He as [He _]. pose proof (with_framed o p Hg) as W.
  assert (F : with_frame o p -> fb o p = ws o) by (intros X; unfold fb; rewrite (proj1 W X); reflexivity). assert (F0 : 0 <= fb o p) by (unfold fb; destruct (framed o p); lia).
  clear - L1 SB He F F0. induction L1 as [|l x ls xs (A1 & A2 & A3) _ IH]; constructor; [|exact IH]. split; [lia|]. split; [lia|]. split; [intros X; specialize (F X); lia|exact A3].
Qed.
Print Assumptions C46_locals.

(** Every parameter on the stack is found where the caller has put the argument, and
    the others are the ones in registers. *)
Theorem C46_params o n p arg i pro epi d m0 k : assembled o n p arg = Ok (i, pro, epi) -> proc_ok o p -> room o p (localsize i) m0 ->
  (k < length (params p))%nat ->
  nth_error (in_source_order o p (para_ofs i)) k =
    Some (if in_register o p k then None else Some (sp m0 + arg_place o p k - base o (run o d m0 pro))).
Proof.
  intros H Hp Hr Hk. destruct (setup o n p arg i pro epi H Hp) as (S1 & _ & S3 & -> & _). rewrite S1, S3 in *. apply params_at; auto. apply entry; assumption.
Qed.
Print Assumptions C46_params.

(** INVOKE pushes every argument that is not in a register once, and so that the
    ones pushed after it and the return address are between it and the stack pointer
    the procedure starts with. *)
Theorem C46_invoke o p : NoDup (push_order o p) /\ (forall k, In k (push_order o p) <-> (k < length (params p))%nat /\ in_register o p k = false) /\
  (forall l1 k l2, push_order o p = l1 ++ k :: l2 -> ra o p + sum (stack_bytes o p) l2 = arg_place o p k) /\
  sum (stack_bytes o p) (push_order o p) = args_size o p.
Proof. exact (conj (push_order_nodup o p) (conj (push_order_in o p) (conj (push_order_place o p) (push_order_all o p)))). Qed.
Print Assumptions C46_invoke.

(** The arguments are removed once: by RET, or after the call, with those that
    belong to VARARG. *)
Theorem C46_balanced o n p i pro epi varargs : assembled o n p None = Ok (i, pro, epi) -> proc_ok o p ->
  (plang p = LFastcall -> Forall (fun q => 0 < p_size q /\ fits o q = true) (firstn (registers o LFastcall) (params p))) ->
  0 <= varargs -> (existsb p_vararg (params p) = false -> varargs = 0) ->
  exists epi' popped, epi = epi' ++ [LRet (far p) popped] /\ popped + cleanup o p varargs = args_size o p + varargs /\
    (callee_cleans (plang p) = true -> cleanup o p varargs = 0) /\ (callee_cleans (plang p) = false -> popped = 0).
Proof.
  intros H Hp Hf Hv0 Hv. destruct (setup o n p None i pro epi H Hp) as (_ & _ & _ & _ & ->). pose proof Hp as (Ho & _ & _ & _ & Hg & _). rewrite (ret_ok o p Ho Hg Hf). rewrite (cleanup_ok o p varargs Ho Hg Hv). eexists. eexists. split; [reflexivity|].
  destruct (callee_cleans (plang p)) eqn:C; repeat split; try discriminate; try lia. destruct (existsb p_vararg (params p)) eqn:V; [|rewrite (Hv eq_refl); lia]. exfalso. destruct Hg as [_ Hg]. destruct (Hg V) as [X|X]; rewrite X in C; discriminate.
Qed.
Print Assumptions C46_balanced.

(** Procedures are accepted, except for two cases treated below: OPTION FRAMEFLAGS in
    16-bit code with locals, and FASTCALL procedures without a frame that use INVOKE. *)
Theorem C46_accepted o n p arg : proc_ok o p -> (ws o = 2 -> o_lea o = true -> locals p = []) ->
  (plang p = LFastcall -> isleaf p = false -> uses_sp o = false /\ (params p <> [] \/ locals p <> [] \/ forceframe p = true)) ->
  exists i pro epi, assembled o n p arg = Ok (i, pro, epi).
Proof. intros H1 H2 H3. destruct (accepted o n p arg H1 H2 H3) as [[[i pro] epi] E]. eauto. Qed.
Print Assumptions C46_accepted.

(** * Examples *)
Definition o32 := {| ws := 4; basereg := 5; o_masm := false; o_lea := false; cpu := 6 |}.
Definition o16 := {| ws := 2; basereg := 5; o_masm := true; o_lea := false; cpu := 0 |}.
Definition o32sp := {| ws := 4; basereg := 4; o_masm := false; o_lea := false; cpu := 6 |}.
Definition dw := {| p_size := 4; p_real := false; p_vararg := false |}.
Definition qw := {| p_size := 8; p_real := false; p_vararg := false |}.
Definition by_ := {| p_size := 1; p_real := false; p_vararg := false |}.
(** f PROC STDCALL USES ebx ds, x:BYTE, y:QWORD; LOCAL a[3]:BYTE, b:DWORD *)
Definition p1 := {| plang := LStdcall; far := false; uses := [UG 4 3; US 3]; locals := [{| l_elem := 1; l_count := 3 |}; {| l_elem := 4; l_count := 1 |}];
  params := [by_; qw]; forceframe := false; loadds := false; isleaf := true |}.
Lemma p1_ok o : opts_ok o -> ws o = 4 -> proc_ok o p1.
Proof.
  intros Ho W. split; [exact Ho|]. split; [repeat constructor; cbn; lia|]. split; [intros _; repeat constructor; cbn; auto|]. split; [split; [repeat constructor; cbn; lia|reflexivity]|]. split; [split; [repeat constructor; cbn; lia||discriminate|discriminate]|]. intros X. discriminate.
Qed.
Example C46_example1 : proc_ok o32 p1 /\ assembled o32 1 p1 None =
  Ok ({| fpo := false; localsize := 8; adjusted := false; local_ofs := [-3; -8]; para_ofs := [Some 12; Some 8] |},
      [LPush (UG 4 5); LMov; LSub 8; LPush (UG 4 3); LPush (US 3)],
      [LPop (US 3); LPop (UG 4 3); LMovSp; LPop (UG 4 5); LRet false 12]).
Proof. split; [apply p1_ok; [cbv; intuition discriminate|reflexivity]|vm_compute; reflexivity]. Qed.
Example C46_example2 : proc_ok o32sp p1 /\ assembled o32sp 0 p1 None =
  Ok ({| fpo := true; localsize := 8; adjusted := true; local_ofs := [13; 8]; para_ofs := [Some 24; Some 20] |},
      [LSub 8; LPush (UG 4 3); LPush (US 3)], [LPop (US 3); LPop (UG 4 3); LAdd 8; LRet false 12]).
Proof. split; [apply p1_ok; [cbv; intuition discriminate|reflexivity]|vm_compute; reflexivity]. Qed.
(** f PROC FAR PASCAL <LOADDS> USES si, x:WORD, y:DWORD *)
Definition p2 := {| plang := LPascal; far := true; uses := [UG 2 6]; locals := []; params := [{| p_size := 2; p_real := false; p_vararg := false |}; dw];
  forceframe := false; loadds := true; isleaf := true |}.
Lemma p2_ok : proc_ok o16 p2.
Proof.
  split; [cbv; intuition discriminate|]. split; [repeat constructor; cbn; lia|]. split; [intros X; discriminate|]. split; [split; [constructor|reflexivity]|]. split; [split; [repeat constructor; cbn; lia||discriminate|discriminate]|].
  intros _. split; [repeat constructor; cbn; lia|]. split; [reflexivity|]. split; [discriminate|]. left. discriminate.
Qed.
Example C46_example3 : proc_ok o16 p2 /\ assembled o16 0 p2 None =
  Ok ({| fpo := false; localsize := 0; adjusted := false; local_ofs := []; para_ofs := [Some 10; Some 6] |},
      [LPush (UG 2 5); LMov; LPush (US 3); LLoadDs; LPush (UG 2 6)], [LPop (UG 2 6); LPop (US 3); LPop (UG 2 5); LRet true 6]).
Proof. split; [exact p2_ok|vm_compute; reflexivity]. Qed.
Definition m_ex := {| sp := 4096; g := fun r => 100 + r; sg := fun r => 10 + r; mem := fun a => a mod 256 |}.
Example C46_example4 : room o32 p1 8 m_ex /\ body o32 p1 m_ex (run o32 7 m_ex [LPush (UG 4 5); LMov; LSub 8; LPush (UG 4 3); LPush (US 3)])
  (let m := run o32 7 m_ex [LPush (UG 4 5); LMov; LSub 8; LPush (UG 4 3); LPush (US 3)] in {| sp := sp m; g := upd (g m) 3 77; sg := sg m; mem := upd (mem m) 4084 9 |}) [-3; -8].
Proof.
  split; [cbv; intuition discriminate|]. split; [reflexivity|]. split; [intros _; reflexivity|]. intros a Ha Hn. cbn [mem]. unfold upd at 1. destruct (Z.eqb_spec a 4084) as [->|N]; [|reflexivity]. exfalso.
  apply (Hn (4084, 4088)); [right; left; vm_compute; reflexivity|cbn; lia].
Qed.

(** * What does not work *)
(** "RET of a FASTCALL procedure removes the arguments that are on the stack."  The
    size of the registers is subtracted from the size of all parameters whether or
    not the parameters are passed in registers (proc.c 443-448): f PROC FASTCALL
    x:QWORD returns with RET 0. *)
Theorem C46_fastcall_refuted : exists p i pro epi, assembled o32 0 p None = Ok (i, pro, epi) /\ proc_ok o32 p /\ plang p = LFastcall /\
  callee_cleans (plang p) = true /\ args_size o32 p = 8 /\ last epi LLeave = LRet false 0.
Proof.
  exists {| plang := LFastcall; far := false; uses := []; locals := []; params := [qw]; forceframe := false; loadds := false; isleaf := true |}. eexists. eexists. eexists. split; [vm_compute; reflexivity|]. split; [|repeat split].
  split; [cbv; intuition discriminate|]. split; [constructor|]. split; [intros X; discriminate|]. split; [split; [constructor|reflexivity]|]. split; [split; [repeat constructor; cbn; lia||discriminate|discriminate]|]. intros X. discriminate.
Qed.
Print Assumptions C46_fastcall_refuted.

(** "Every procedure with INVOKE is accepted."  For a 32-bit FASTCALL procedure that
    needs no frame the prologue is to align the stack with SUB RSP, 8
    (proc.c 4754), as there is no test for 64-bit code. *)
Theorem C46_rsp_refuted : exists p, proc_ok o32 p /\ forall n arg, assembled o32 n p arg = Err.
Proof.
  exists {| plang := LFastcall; far := false; uses := []; locals := []; params := []; forceframe := false; loadds := false; isleaf := false |}. split.
  - split; [cbv; intuition discriminate|]. split; [constructor|]. split; [intros X; discriminate|]. split; [split; [constructor|reflexivity]|]. split; [split; [constructor|discriminate]|]. intros X. discriminate.
  - set (p := {| plang := LFastcall |}). assert (Ho : opts_ok o32) by (cbv; intuition discriminate). intros n arg. unfold assembled. rewrite (pass_lines o32 p true). pose proof (pass1_inv o32 p Ho) as I1. set (i1 := fst (fst (one_pass o32 p true (info0 o32 p)))) in *. clearbody i1. rewrite (pass_lines o32 p false). cbv zeta.
    destruct (one_pass_ok o32 p (later_passes n o32 p i1) Ho (later_inv o32 p n Ho i1 I1)) as [_ (T1 & T2 & _ & _)]. cbv zeta in *. set (i := fst (fst (one_pass o32 p false (later_passes n o32 p i1)))) in *. clearbody i.
    rewrite !forallb_app. replace (forallb (line_ok o32) (generic_prologue o32 false p i)) with false; [rewrite !andb_false_l, !andb_false_r; reflexivity|]. unfold generic_prologue. rewrite T1, T2. reflexivity.
Qed.
Print Assumptions C46_rsp_refuted.

(** "Prologue and epilogue belong together."  With locals that take no memory, like
    LOCAL x[0]:DWORD, the prologue is left out because there is
    nothing to allocate (proc.c 4749), but the epilogue looks at the list of locals
    (5236) and pops the frame register, or executes LEAVE: the return address is
    popped. *)
Theorem C46_empty_local_refuted : exists p i epi, assembled o32 0 p None = Ok (i, [], epi) /\ epi = [LPop (UG 4 5); LRet false 0] /\
  forall d m, sp (run o32 d m epi) = sp m + ra o32 p + 4.
Proof.
  exists {| plang := LStdcall; far := false; uses := []; locals := [{| l_elem := 0; l_count := 1 |}]; params := []; forceframe := false; loadds := false; isleaf := true |}. eexists. eexists. split; [vm_compute; reflexivity|]. split; [reflexivity|].
  intros d m. cbn [run fold_left step pop set_reg set_sp sp width ws o32]. unfold ra. cbn [far ws o32]. lia.
Qed.
Print Assumptions C46_empty_local_refuted.

(** "LOADDS saves and restores DS."  A FASTCALL procedure whose parameters are all in
    registers, without USES and locals, gets no prologue (proc.c 4749, the test
    does not look at LOADDS), but the epilogue pops DS (5197). *)
Theorem C46_loadds_refuted : exists p i epi, assembled o32 0 p None = Ok (i, [], epi) /\ loadds p = true /\ epi = [LPop (US 3); LRet false 0] /\
  forall d m, sp (run o32 d m epi) = sp m + ra o32 p + 4.
Proof.
  exists {| plang := LFastcall; far := false; uses := []; locals := []; params := [dw]; forceframe := false; loadds := true; isleaf := true |}. eexists. eexists. split; [vm_compute; reflexivity|]. split; [reflexivity|]. split; [reflexivity|].
  intros d m. cbn [run fold_left step pop set_reg set_sp sp width ws o32]. unfold ra. cbn [far ws o32]. lia.
Qed.
Print Assumptions C46_loadds_refuted.

(** "The registers of USES are preserved."  LOADDS loads DS through AX before the
    registers of USES are pushed (proc.c 4826-4837): USES AX keeps the address of
    DGROUP and not the AX of the caller. *)
Theorem C46_loadds_ax_refuted : exists p i pro epi, assembled o16 0 p None = Ok (i, pro, epi) /\ In (UG 2 0) (uses p) /\
  value (run o16 7 m_ex (pro ++ epi)) (UG 2 0) = 7 /\ value m_ex (UG 2 0) = 100.
Proof.
  exists {| plang := LPascal; far := false; uses := [UG 2 0]; locals := []; params := []; forceframe := false; loadds := true; isleaf := true |}. eexists. eexists. eexists. split; [vm_compute; reflexivity|]. split; [left; reflexivity|]. split; vm_compute; reflexivity.
Qed.
Print Assumptions C46_loadds_ax_refuted.

(** "Parameters are found where the caller put them."  With the stack pointer as
    base register the offsets count a word for every register of USES and nothing
    for LOADDS (proc.c 4964-4996): with LOADDS, or with USES BX in 32-bit code,
    parameters and locals are addressed at the wrong place. *)
Theorem C46_espbase_refuted : exists p q i pro epi j pro' epi',
  assembled o32sp 0 p None = Ok (i, pro, epi) /\ loadds p = true /\ arg_place o32sp p 0 = 4 /\ para_ofs i = [Some 4] /\ sp m_ex + 4 - sp (run o32sp 7 m_ex pro) = 8 /\
  assembled o32sp 0 q None = Ok (j, pro', epi') /\ uses q = [UG 2 3] /\ arg_place o32sp q 0 = 4 /\ para_ofs j = [Some 8] /\ sp m_ex + 4 - sp (run o32sp 7 m_ex pro') = 6.
Proof.
  exists {| plang := LStdcall; far := false; uses := []; locals := []; params := [dw]; forceframe := false; loadds := true; isleaf := true |},
    {| plang := LStdcall; far := false; uses := [UG 2 3]; locals := []; params := [dw]; forceframe := false; loadds := false; isleaf := true |}.
  do 6 eexists. split; [vm_compute; reflexivity|]. split; [reflexivity|]. split; [reflexivity|]. split; [reflexivity|]. split; [reflexivity|]. split; [vm_compute; reflexivity|]. repeat split.
Qed.
Print Assumptions C46_espbase_refuted.

(** "OPTION FRAMEFLAGS preserves the flags in prologues."  In 16-bit code the line
    is LEA SP, [SP-n], which no processor has (proc.c 4808): every procedure with
    locals is refused. *)
Theorem C46_flags_refuted : exists o p, ws o = 2 /\ proc_ok o p /\ forall n arg, assembled o n p arg = Err.
Proof.
  set (o := {| ws := 2; basereg := 5; o_masm := true; o_lea := true; cpu := 0 |}). set (p := {| plang := LPascal; far := false; uses := []; locals := [{| l_elem := 2; l_count := 1 |}]; params := []; forceframe := false; loadds := false; isleaf := true |}).
  exists o, p. split; [reflexivity|]. split.
  - split; [cbv; intuition discriminate|]. split; [constructor|]. split; [intros X; discriminate|]. split; [split; [repeat constructor; cbn; lia|reflexivity]|]. split; [split; [constructor|discriminate]|]. intros X. discriminate.
  - intros n arg. unfold assembled. rewrite (pass_lines o p true). cbv zeta. destruct (one_pass o p false _) as [[i pro] epi]. rewrite forallb_app. replace (forallb (line_ok o) (generic_prologue o true p _)) with false; [reflexivity|vm_compute; reflexivity].
Qed.
Print Assumptions C46_flags_refuted.

(** "Locals do not share memory."  The number of elements is not checked: with
    LOCAL a[-1]:DWORD, b:DWORD the size of a is -4 and b is put at the address of
    the saved frame register, and with 40000000h elements of 4 bytes the size wraps
    to 0 (proc.c 708, 4948-4962). *)
Theorem C46_count_refuted : exists p i pro epi, assembled o32 0 p None = Ok (i, pro, epi) /\ locals p = [{| l_elem := 4; l_count := -1 |}; {| l_elem := 4; l_count := 1 |}] /\
  nth 1 (local_ofs i) 1 = 0.
Proof.
  exists {| plang := LStdcall; far := false; uses := []; locals := [{| l_elem := 4; l_count := -1 |}; {| l_elem := 4; l_count := 1 |}]; params := [dw]; forceframe := false; loadds := false; isleaf := true |}.
  eexists. eexists. eexists. split; [vm_compute; reflexivity|]. split; reflexivity.
Qed.
Print Assumptions C46_count_refuted.
