(** Proofs about stack frames: alignment, existence, unwinding. *)
From Coq Require Import List ZArith Bool Lia.
From Verif Require Import Base Unwind_Model Unwind_Spec Frame_Model Frame_Spec Frame_Proofs FrameRun_Proofs.
Import ListNotations.
Open Scope Z_scope.

Local Arguments Z.modulo : simpl never.
Local Arguments Z.div : simpl never.
Local Arguments Z.pow : simpl never.
Local Arguments Z.mul : simpl never.
Local Arguments Z.add : simpl never.
Local Arguments Z.sub : simpl never.

(** * Alignment *)
Lemma aligned_app avx l1 : forall m l2, aligned avx m l1 -> aligned avx (run avx m l1) l2 -> aligned avx m (l1 ++ l2).
Proof. induction l1 as [|x l1 IH]; intros m l2 H1 H2; [exact H2|]. destruct H1 as [H1 H3]. split; [exact H1|]. apply IH; [exact H3|exact H2]. Qed.
Definition simple (x : line) : bool := match x with LStore true _ _ _ | LLoad true _ _ _ _ => false | _ => true end.
Lemma aligned_simple avx l : forall m, forallb simple l = true -> aligned avx m l.
Proof. induction l as [|x l IH]; intros m H; [constructor|]. apply andb_true_iff in H as [H1 H2]. split; [|apply IH; exact H2]. destruct x as [| | | | | | | | |[] ? ? ?|[] ? ? ? ?| | |]; try discriminate; auto. Qed.
Lemma home_simple n : forall i l, forallb simple (SaveRegParams n i l) = true.
Proof.
  induction n as [|n IH]; intros i [|q l]; try reflexivity. cbn [SaveRegParams]. destruct (p_vararg q); cbn [negb].
  - cbn [forallb simple andb]. apply IH.
  - rewrite forallb_app, IH, andb_true_r. destruct (p_used q); [|reflexivity]. destruct (p_type q); reflexivity.
Qed.
Lemma push_simple l : forallb simple (push_lines l) = true.
Proof. induction l as [|u l IH]; [reflexivity|]. unfold push_lines. cbn [flat_map]. fold (push_lines l). rewrite forallb_app, IH, andb_true_r. destruct u; try reflexivity. destruct (negb _); reflexivity. Qed.
Lemma pop_simple l : forallb simple (map LPop l) = true.
Proof. induction l as [|u l IH]; [reflexivity|]. exact IH. Qed.
Lemma saves_aligned avx R l : forall i ks m, save_lines R i l = Ok ks -> (sp m + R + i) mod 16 = 0 -> aligned avx m ks.
Proof.
  induction l as [|u l IH]; intros i ks m H Hm; [assert (E : ks = []) by (cbn in H; congruence); subst; constructor|].
  apply save_cons in H as (k' & Hk & -> & _). pose proof (width_units u) as Hw. apply aligned_app.
  - destruct u; cbn [vec_of flat_map app is_al aligned]; auto. split; [|auto]. rewrite <- Hm. f_equal. lia.
  - eapply IH; [exact Hk|]. set (m1 := run avx m _). assert (E : sp m1 = sp m) by (unfold m1; destruct u; reflexivity). rewrite E. lia.
Qed.
Lemma loads_aligned avx b add l : forall i m, (g m b + add + i) mod 16 = 0 -> aligned avx m (load_lines b add i l).
Proof.
  induction l as [|u l IH]; intros i m Hm; [constructor|]. rewrite load_cons. pose proof (width_units u) as Hw. apply aligned_app.
  - destruct u; cbn [vec_of map is_al aligned]; auto. split; [|auto]. rewrite <- Hm. f_equal. lia.
  - apply IH. set (m1 := run avx m _). assert (E : g m1 = g m) by (unfold m1; destruct u; reflexivity). rewrite E. lia.
Qed.
Lemma all_aligned avx o p sym lay pro epi m0 m2 : frame_pass o false p (cntstd (uses p)) sym = Ok (lay, pro, epi) -> proc_ok p -> sym mod 16 = 0 -> 0 <= sym -> (o_autosp o = false -> sym = 0) ->
  sp m0 mod 16 = 8 -> base p m2 = base p (run avx m0 pro) ->
  sp (run avx m0 pro) mod 16 = 0 /\ aligned avx m0 pro /\ aligned avx m2 epi.
Proof.
  intros H Hp Hs Hs0 Hsa Hal Hb. destruct (pass_layout _ _ _ _ _ _ H Hp Hs Hs0) as (Ha & HF & Hpro & Hepi).
  destruct (prologue_run avx o p sym lay pro m0 HF Hpro Hp Hs0) as ((T1 & T2 & _) & saves & Hsv & _ & Hspb).
  pose proof (whole_nonneg _ _ _ _ HF Hs0) as (W1 & W2 & W3 & W4). pose proof HF as (L1 & L2 & L3 & L4 & L5 & L6 & L7 & L8 & L9).
  assert (MR : resv o sym mod 16 = 0) by (unfold resv; destruct (o_autosp o); [exact Hs|reflexivity]).
  assert (M1 : sp (run avx m0 pro) mod 16 = 0). { rewrite T1. unfold whole. destruct (adj_ok p _ L1) as [_ X]. lia. }
  split; [exact M1|]. split.
  - clear Hb T1 T2. destruct (prologue_form o p lay sym pro Hpro L1) as (_ & saves' & Hsv' & E). rewrite Hsv in Hsv'. assert (G : forall a b : list line, Ok a = Ok b -> a = b) by congruence. apply G in Hsv'. subst saves'.
    rewrite Hspb in M1. rewrite E. clear E Hpro H. apply aligned_app. { apply aligned_simple. unfold home. destruct (o_save o); [apply home_simple|reflexivity]. }
    apply aligned_app. { apply aligned_simple. destruct (needs_frame p); reflexivity. }
    apply aligned_app. { apply aligned_simple. apply push_simple. }
    apply aligned_app. { apply aligned_simple. unfold alloc. destruct (_ >? 0); reflexivity. }
    rewrite push_lines_run. fold (before_saves avx o p (whole o p lay sym) m0).
    apply aligned_app. { eapply saves_aligned; [exact Hsv|]. lia. }
    apply aligned_simple. destruct (needs_frame p); [|reflexivity]. destruct (negb _); reflexivity.
  - destruct (epilogue_form o p lay sym Ha L1 W1 Hsa Hs0 L6 ltac:(lia)) as (free & E & Hfree). rewrite E in Hepi. clear E.
    assert (G : forall a b : list line, Ok a = Ok b -> a = b) by congruence. apply G in Hepi. subst epi. clear G.
    assert (Hb5 : g m2 (if needs_frame p then 5 else 4) = base p m2) by (unfold base, sp; destruct (needs_frame p); reflexivity).
    apply aligned_app. { apply loads_aligned. rewrite Hb5, Hb, T2. lia. }
    apply aligned_app. { apply Hfree. }
    apply aligned_simple. rewrite forallb_app, pop_simple. destruct (needs_frame p); reflexivity.
Qed.

(** * Existence *)
Lemma saves_exist R l : Forall (fun u => match u with UZ _ => False | _ => True end) l -> forall i, exists ks, save_lines R i l = Ok ks.
Proof.
  induction 1 as [|u l Hu H IH]; intros i; [exists []; reflexivity|]. destruct u; cbn [save_lines]; [apply IH| | |contradiction].
  - destruct (IH (i + 16)) as [ks ->]. cbn. eauto.
  - destruct (IH (i + 32)) as [ks ->]. cbn. eauto.
Qed.
Lemma saves_zmm l : Exists (fun u => match u with UZ _ => True | _ => False end) l -> forall i, save_lines 0 i l = UB.
Proof.
  induction l as [|u l IH]; intros H i; [inversion H|]. destruct u; cbn [save_lines].
  - apply IH. inversion H; [contradiction|assumption].
  - rewrite IH by (inversion H; [contradiction|assumption]). reflexivity.
  - rewrite IH by (inversion H; [contradiction|assumption]). reflexivity.
  - reflexivity.
Qed.
Lemma pass_exists o b p pushed sym : o_auto o = true -> no_zmm p -> exists r, frame_pass o b p pushed sym = Ok r.
Proof.
  intros Ha Hz. unfold frame_pass. set (lay := SetLocalOffsets_RBP _ _ _ _ _). unfold prologue_RBP, epilogue_RBP. rewrite Ha. cbn [negb]. rewrite pop_register_eq.
  destruct (saves_exist (if o_autosp o then sym else 0) (uses p) Hz (first_loc (localsize lay) (cntxmm (uses p)))) as [ks ->]. destruct (cntxmm (uses p) =? 0); cbn [bindr]; eauto.
Qed.
Lemma later_exists o n p : o_auto o = true -> no_zmm p -> forall pushed sym, exists r, later o n p pushed sym = Ok r.
Proof.
  intros Ha Hz. induction n as [|n IH]; intros pushed sym; cbn [later]; [apply pass_exists; assumption|].
  destruct (pass_exists o false p pushed sym Ha Hz) as [r ->]. cbn [bindr]. apply IH.
Qed.
Lemma assembled_exists o n p invokes : o_auto o = true -> no_zmm p -> exists r, assembled o n p invokes = Ok r.
Proof. intros Ha Hz. unfold assembled. destruct (pass_exists o true p 0 0 Ha Hz) as [r ->]. cbn [bindr]. apply later_exists; assumption. Qed.
Lemma assembled_noauto o n p invokes : o_auto o = false -> assembled o n p invokes = UB.
Proof. intros Ha. unfold assembled, frame_pass, prologue_RBP. rewrite Ha. reflexivity. Qed.
Lemma zmm_counted l : Exists (fun u => match u with UZ _ => True | _ => False end) l -> cntxmm l <> 0.
Proof. induction 1 as [u l H|u l H IH]; rewrite cntxmm_cons; pose proof (cntxmm_nonneg l); destruct u; cbn [units]; try contradiction; lia. Qed.
Lemma assembled_zmm o n p invokes : Exists (fun u => match u with UZ _ => True | _ => False end) (uses p) -> assembled o n p invokes = UB.
Proof.
  intros Hz. unfold assembled, frame_pass, prologue_RBP. destruct (o_auto o); [|reflexivity]. cbn [negb]. destruct (Z.eqb_spec (cntxmm (uses p)) 0) as [E|_]; [apply zmm_counted in Hz; contradiction|].
  replace (if o_autosp o then 0 else 0) with 0 by (destruct (o_autosp o); reflexivity). rewrite saves_zmm by exact Hz. reflexivity.
Qed.

(** * Locals and parameters *)
Lemma locals_ok avx o p sym lay pro epi m0 : frame_pass o false p (cntstd (uses p)) sym = Ok (lay, pro, epi) -> proc_ok p -> sym mod 16 = 0 -> 0 <= sym ->
  sp m0 mod 16 = 8 -> let m1 := run avx m0 pro in
  length (local_ofs lay) = length (locals p) /\ length (param_ofs lay) = length (params p) /\
  Forall2 (fun n o' => sp m1 + resv o sym <= base p m1 + o' /\ base p m1 + o' + n <= sp m0 - 8 * cntstd (uses p) - 16 * cntxmm (uses p) /\ (base p m1 + o') mod natural n = 0) (locals p) (local_ofs lay) /\
  ForallOrdPairs (fun x y => fst x <= snd x /\ fst y <= snd y /\ (snd x <= fst y \/ snd y <= fst x)) (ranges p (local_ofs lay) (base p m1)) /\
  (forall k o', nth_error (param_ofs lay) k = Some o' -> base p m1 + o' = sp m0 + 8 + 8 * Z.of_nat k).
Proof.
  intros H Hp Hs Hs0 Hal. destruct (pass_layout _ _ _ _ _ _ H Hp Hs Hs0) as (Ha & HF & Hpro & Hepi).
  destruct (prologue_run avx o p sym lay pro m0 HF Hpro Hp Hs0) as ((T1 & T2 & _) & _). cbn zeta. set (m1 := run avx m0 pro) in *. clearbody m1.
  pose proof (whole_nonneg _ _ _ _ HF Hs0) as (W1 & W2 & W3 & W4). pose proof HF as (L1 & L2 & L3 & L4 & L5 & L6 & L7 & L8 & L9).
  assert (MR : resv o sym mod 16 = 0) by (unfold resv; destruct (o_autosp o); [exact Hs|reflexivity]).
  assert (M1 : sp m1 mod 16 = 0). { rewrite T1. unfold whole. destruct (adj_ok p _ L1) as [_ X]. lia. }
  assert (Hf : 0 <= frame8 p) by (unfold frame8; destruct (needs_frame p); lia).
  split; [exact L7|]. split; [rewrite L9, map_length, seq_length; reflexivity|]. destruct L8 as (G0 & _ & G2 & G3). split; [|split].
  - clear - L7 G2 T1 T2 M1 L3 W3 Hf. unfold whole in T1. revert L7 G2. generalize (local_ofs lay) as os. induction (locals p) as [|n l IH]; intros [|o' os] L7 G2; try discriminate; constructor.
    + apply Forall_cons_iff in G2 as [G _]. specialize (G eq_refl). cbn [fst snd] in G. destruct G as (A1 & A2 & A3). split; [lia|]. split; [lia|]. rewrite T2.
      assert (D : natural n = 16 \/ natural n = 8 \/ natural n = 4 \/ natural n = 1) by (unfold natural; destruct (n >=? 16), (n >=? 8), (n >=? 4); auto).
      destruct D as [D|[D|[D|D]]]; rewrite D in *; lia.
    + apply IH; [cbn in L7; lia|]. apply Forall_cons_iff in G2 as [_ G2]. exact G2.
  - unfold ranges. clear - G0 G3. induction (combine (locals p) (local_ofs lay)) as [|[n o'] l IH]; [constructor|]. cbn [map]. apply Forall_cons_iff in G0 as [N0 G0].
    assert (HP : Forall (apart (n, o')) l /\ ForallOrdPairs (fun x y => true = true -> true = true -> apart x y) l).
    { inversion G3; subst. split; [|assumption]. eapply Forall_impl; [|eassumption]. cbn. auto. }
    destruct HP as [HP1 HP2]. constructor; [|apply IH; assumption]. cbn in N0. clear - N0 G0 HP1. induction l as [|[n2 o2] l IH]; constructor.
    + apply Forall_cons_iff in G0 as [N2 _]. apply Forall_cons_iff in HP1 as [A _]. unfold apart in A. cbn in *. lia.
    + apply Forall_cons_iff in G0 as [_ G0]. apply Forall_cons_iff in HP1 as [_ HP1]. apply IH; assumption.
  - intros k o' Hk. rewrite L9 in Hk. rewrite nth_error_map in Hk. destruct (nth_error (seq 0 (length (params p))) k) as [j|] eqn:E; [|discriminate].
    assert (J : j = k). { assert (k < length (seq 0 (length (params p))))%nat by (apply nth_error_Some; congruence). rewrite seq_length in *. apply nth_error_nth with (d := 0%nat) in E. rewrite seq_nth in E by assumption. lia. }
    subst j. cbn in Hk. assert (X : forall a b : Z, Some a = Some b -> a = b) by congruence. apply X in Hk. lia.
Qed.

(** * Unwinding *)
Definition free_line (x : line) : bool := match x with LHot | LHome _ _ _ | LHomeX _ _ => true | _ => false end.
Definition partner (x : line) : option directive :=
  match x with LPush r => Some (DPushReg r) | LSub _ n => Some (DAllocStack n) | LStore _ r _ o => Some (DSaveVec r o) | LLea r n => Some (DSetFrame r n) | LMov r => Some (DSetFrame r 0) | _ => None end.
Inductive ann : list line -> Prop :=
| AEnd : ann [LDir DEndProlog]
| AFree x l : free_line x = true -> ann l -> ann (x :: l)
| APair x d l : partner x = Some d -> ann l -> ann (x :: LDir d :: l).
Lemma ann_dirs l : ann l -> forall ls pos, map fst ls = l -> dirs_of pos ls = source pos (code_of ls).
Proof.
  induction 1 as [|x l Hx H IH|x d l Hx H IH]; intros ls pos E.
  - destruct ls as [|[x n] [|]]; try discriminate. cbn in E. assert (x = LDir DEndProlog) by congruence. subst. reflexivity.
  - destruct ls as [|[y n] ls]; try discriminate. cbn [map fst] in E. injection E as -> E. cbn [dirs_of code_of flat_map]. fold (code_of ls). destruct x; try discriminate; cbn [instr_of map app source]; apply IH; exact E.
  - destruct ls as [|[y n] [|[y2 n2] ls]]; try discriminate. cbn [map fst] in E. injection E as -> -> E. cbn [code_of flat_map instr_of map app]. fold (code_of ls).
    destruct x; try discriminate; cbn in Hx; assert (X : forall a b : directive, Some a = Some b -> a = b) by congruence; apply X in Hx; subst d; cbn [dirs_of instr_of map app source]; f_equal; apply IH; exact E.
Qed.
Lemma nonvol_bit r : nonvolatile r -> negb (Z.land (Z.shiftl 1 r) win64_nvgpr =? 0) = true.
Proof. intros H. unfold nonvolatile in H. repeat (destruct H as [<-|H]; [reflexivity|]). contradiction. Qed.
Lemma ann_home n : forall i l k, ann k -> ann (SaveRegParams n i l ++ k).
Proof.
  induction n as [|n IH]; intros i [|q l] k Hk; try exact Hk. cbn [SaveRegParams]. destruct (p_vararg q); cbn [negb].
  - apply AFree; [reflexivity|]. apply IH; exact Hk.
  - rewrite <- app_assoc. destruct (p_used q); cbn [app]; [|apply IH; exact Hk]. apply AFree; [destruct (p_type q); reflexivity|]. apply IH; exact Hk.
Qed.
Lemma ann_push l k : Forall (fun u => match u with UG r => nonvolatile r | UX r => nonvolatile_xmm r | _ => False end) l -> ann k -> ann (push_lines l ++ k).
Proof.
  intros H Hk. induction H as [|u l Hu H IH]; [exact Hk|]. unfold push_lines. cbn [flat_map]. fold (push_lines l). rewrite <- app_assoc. destruct u; try exact IH. rewrite (nonvol_bit _ Hu). apply APair; [reflexivity|exact IH].
Qed.
Lemma ann_saves R l k : ann k -> forall i ks, save_lines R i l = Ok ks -> ann (ks ++ k).
Proof.
  intros Hk. induction l as [|u l IH]; intros i ks H; [assert (E : ks = []) by (cbn in H; congruence); subst; exact Hk|].
  apply save_cons in H as (k' & Hk' & -> & _). rewrite <- app_assoc. specialize (IH _ _ Hk'). destruct u; cbn [vec_of flat_map app]; [exact IH| | |]; (apply APair; [reflexivity|exact IH]).
Qed.
Definition timed (ls : list (line * Z)) : Prop := Forall (fun x => 0 < snd x) ls.
Lemma code_app a b : code_of (a ++ b) = code_of a ++ code_of b.
Proof. apply flat_map_app. Qed.
Lemma first_free top sp0 room ls k : Forall (fun x => 0 < snd x) ls -> sp0 = top ->
  Forall (fun x => match fst x with LHot => True | LHome i _ _ | LHomeX i _ => 0 <= i | _ => False end) ls -> first top sp0 room k -> first top sp0 room (code_of ls ++ k).
Proof.
  intros H -> H2 Hk. induction ls as [|[x n] ls IH]; [exact Hk|]. apply Forall_cons_iff in H as [Hn H]. apply Forall_cons_iff in H2 as [Hx H2]. cbn [fst snd] in *.
  unfold code_of. cbn [flat_map]. fold (code_of ls). specialize (IH H H2). destruct x; try contradiction; cbn [instr_of map app first]; (split; [exact Hn|]; split; [|exact IH]); intros m Hm.
  - repeat split.
  - unfold store, rsp in *. cbn [gpr xmm mem]. split; [reflexivity|]. split; [reflexivity|]. split; [reflexivity|]. intros a Ha. apply upd_ne. lia.
  - unfold store, rsp in *. cbn [gpr xmm mem]. split; [reflexivity|]. split; [reflexivity|]. split; [reflexivity|]. intros a Ha. apply upd_ne. lia.
Qed.
Lemma first_push top l k : Forall (fun u => match u with UG r => nonvolatile r | UX r => nonvolatile_xmm r | _ => False end) l ->
  forall ls sp0, timed ls -> map fst ls = push_lines l -> first top (sp0 - 8 * cntstd l) 0 k -> first top sp0 0 (code_of ls ++ k).
Proof.
  induction 1 as [|u l Hu H IH]; intros ls sp0 Ht E Hk.
  - destruct ls; [|discriminate]. cbn in *. replace (sp0 - 8 * 0) with sp0 in Hk by lia. exact Hk.
  - rewrite cntstd_cons in Hk. unfold push_lines in E. cbn [flat_map] in E. fold (push_lines l) in E. destruct u as [r|r|r|r]; try contradiction.
    + rewrite (nonvol_bit _ Hu) in E. destruct ls as [|[x n] [|[x2 n2] ls]]; try discriminate. cbn [map fst app] in E. injection E as -> -> E. apply Forall_cons_iff in Ht as [Hn Ht]. apply Forall_cons_iff in Ht as [_ Ht]. cbn [snd] in Hn.
      unfold code_of. cbn [flat_map instr_of map app first]. fold (code_of ls). split; [exact Hn|]. split; [exact Hu|]. apply IH; [exact Ht|exact E|]. replace (sp0 - 8 - 8 * cntstd l) with (sp0 - 8 * (1 + cntstd l)) by lia. exact Hk.
    + apply IH; assumption.
Qed.
Lemma second_saves top sp0 room R l k : Forall (fun u => match u with UG r => nonvolatile r | UX r => nonvolatile_xmm r | _ => False end) l ->
  forall i ks ls used, timed ls -> map fst ls = ks -> save_lines R i l = Ok ks -> (R + i) mod 16 = 0 -> 0 <= R + i -> R + i + 16 * cntxmm l <= room -> Forall (fun a => a < R + i) used ->
  (forall used, second top sp0 room used None k) -> second top sp0 room used None (code_of ls ++ k).
Proof.
  induction 1 as [|u l Hu H IH]; intros i ks ls used Ht E Hs Hm H0 Hr Hus Hk.
  - assert (ks = []) by (cbn in Hs; congruence). subst. destruct ls; [apply Hk|discriminate].
  - apply save_cons in Hs as (k' & Hs & -> & _). rewrite cntxmm_cons in Hr. pose proof (cntxmm_nonneg l) as Hc. destruct u as [r|r|r|r]; try contradiction; unfold width in Hs; cbn [vec_of flat_map app lanes_of units] in *.
    + replace (i + 8 * 0) with i in Hs by lia. apply (IH i k'); try assumption; lia.
    + destruct ls as [|[x n] [|[x2 n2] ls]]; try discriminate. cbn [map fst app] in E. injection E as -> -> E. apply Forall_cons_iff in Ht as [Hn Ht]. apply Forall_cons_iff in Ht as [_ Ht]. cbn [snd] in Hn.
      unfold code_of. cbn [flat_map instr_of map app second]. fold (code_of ls). split; [exact Hn|]. split; [exact Hu|]. split; [lia|]. split; [lia|]. split; [lia|]. rewrite Forall_forall in Hus.
      split; [intros X; apply Hus in X; lia|]. split; [intros X; apply Hus in X; lia|]. change (8 * 2) with 16 in Hs. apply (IH (i + 16) k'); try assumption; try lia.
      constructor; [lia|]. constructor; [lia|]. rewrite Forall_forall. intros a A. apply Hus in A. lia.
Qed.
Lemma first_second top sp0 room k : match k with (_, IPush _) :: _ | (_, ISub _) :: _ | (_, IOther _) :: _ => False | _ => True end -> second top sp0 room [] None k -> first top sp0 room k.
Proof. destruct k as [|[n []] k]; cbn [first]; auto; contradiction. Qed.
Lemma code_saves R l : forall i ks ls, save_lines R i l = Ok ks -> map fst ls = ks -> Forall (fun x => match snd x with ISaveX _ o => exists d, o = R + d /\ i <= d /\ d + 16 <= i + 16 * cntxmm l | _ => False end) (code_of ls).
Proof.
  induction l as [|u l IH]; intros i ks ls Hs E; [assert (ks = []) by (cbn in Hs; congruence); subst; destruct ls; [constructor|discriminate]|].
  apply save_cons in Hs as (k' & Hs & -> & _). rewrite cntxmm_cons. pose proof (cntxmm_nonneg l) as Hc. pose proof (width_units u) as Hw.
  assert (W : forall ls', map fst ls' = k' -> Forall (fun x => match snd x with ISaveX _ o => exists d, o = R + d /\ i <= d /\ d + 16 <= i + 16 * (units u + cntxmm l) | _ => False end) (code_of ls')).
  { intros ls' E'. eapply Forall_impl; [|apply (IH _ _ ls' Hs E')]. intros [n ins] X. cbn [snd] in *. destruct ins; auto. destruct X as (d & X1 & X2 & X3). exists d. assert (0 <= units u) by (destruct u; cbn; lia). lia. }
  destruct u as [r|r|r|r]; cbn [vec_of flat_map app] in E; [apply W; exact E| | |];
  (destruct ls as [|[x n] [|[x2 n2] ls]]; try discriminate; cbn [map fst] in E; injection E as -> -> E; unfold code_of; cbn [flat_map instr_of map app]; fold (code_of ls); constructor; [|apply W; exact E];
   cbn [snd units]; exists i; lia).
Qed.
Lemma split_ls {A B} (ls : list (A * B)) : forall a b, map fst ls = a ++ b -> exists la lb, ls = la ++ lb /\ map fst la = a /\ map fst lb = b.
Proof. intros a b H. apply map_eq_app in H as (la & lb & H1 & H2 & H3). eauto. Qed.
Lemma home_lines n : forall i l, 0 <= i -> Forall (fun x => match x with LHot => True | LHome i _ _ | LHomeX i _ => 0 <= i | _ => False end) (SaveRegParams n i l).
Proof.
  induction n as [|n IH]; intros i [|q l] Hi; try constructor. cbn [SaveRegParams]. destruct (p_vararg q); cbn [negb].
  - constructor; [exact Hi|]. apply IH. lia.
  - apply Forall_app. split; [|apply IH; lia]. destruct (p_used q); constructor; [destruct (p_type q); exact Hi|constructor].
Qed.
Lemma unwindable o p sym lay pro epi ls top : frame_pass o false p (cntstd (uses p)) sym = Ok (lay, pro, epi) -> proc_ok p -> sym mod 16 = 0 -> 0 <= sym ->
  all_nonvolatile p -> localsize lay + resv o sym < 2 ^ 20 -> map fst ls = pro -> Forall (fun x => 0 < snd x) ls ->
  dirs_of 0 ls = source 0 (code_of ls) /\ wf_prologue top (code_of ls) /\ near (code_of ls).
Proof.
  intros H Hp Hs Hs0 Hnv Hbig E Ht. destruct (pass_layout _ _ _ _ _ _ H Hp Hs Hs0) as (Ha & HF & Hpro & _). clear H.
  pose proof (whole_nonneg _ _ _ _ HF Hs0) as (W1 & W2 & W3 & W4). pose proof HF as (L1 & L2 & L3 & L4 & L5 & L6 & L7 & L8 & L9).
  destruct (prologue_form o p lay sym pro Hpro L1) as (_ & saves & Hsv & Ep). destruct (adj_ok p _ L1) as [A1 A2]. pose proof (cntxmm_nonneg (uses p)) as Hc.
  assert (MR : resv o sym mod 16 = 0) by (unfold resv; destruct (o_autosp o); [exact Hs|reflexivity]).
  assert (M8 : frame8 p mod 8 = 0) by (unfold frame8; destruct (needs_frame p); reflexivity).
  set (fin := (if needs_frame p then _ else []) ++ [LDir DEndProlog]) in Ep.
  assert (AN : ann pro).
  { rewrite Ep. unfold home. assert (A0 : ann (push_lines (uses p) ++ alloc o (whole o p lay sym) ++ saves ++ fin)).
    { apply ann_push; [exact Hnv|]. unfold alloc. assert (A00 : ann (saves ++ fin)). { eapply ann_saves; [|exact Hsv]. unfold fin. destruct (needs_frame p); [|apply AEnd]. destruct (Z.eqb_spec (frameofs lay) 0) as [->|]; cbn [negb]; (apply APair; [reflexivity|apply AEnd]). }
      destruct (_ >? 0); [|exact A00]. apply APair; [reflexivity|exact A00]. }
    assert (A3 : ann ((if needs_frame p then [LHot; LPush 5; LDir (DPushReg 5)] else []) ++ push_lines (uses p) ++ alloc o (whole o p lay sym) ++ saves ++ fin)).
    { destruct (needs_frame p); [|exact A0]. apply AFree; [reflexivity|]. apply APair; [reflexivity|exact A0]. }
    destruct (o_save o); [apply ann_home; exact A3|exact A3]. }
  split; [apply (ann_dirs pro AN); exact E|]. rewrite Ep in E. clear Ep AN Hpro.
  apply split_ls in E as (l1 & r1 & -> & E1 & E). apply split_ls in E as (l2 & r2 & -> & E2 & E). apply split_ls in E as (l3 & r3 & -> & E3 & E). apply split_ls in E as (l4 & r4 & -> & E4 & E). apply split_ls in E as (l5 & l6 & -> & E5 & E6).
  apply Forall_app in Ht as [T1 Ht]. apply Forall_app in Ht as [T2 Ht]. apply Forall_app in Ht as [T3 Ht]. apply Forall_app in Ht as [T4 Ht]. apply Forall_app in Ht as [T5 T6].
  rewrite !code_app. pose proof (code_saves _ _ _ _ l5 Hsv E5) as CS.
  assert (C6 : code_of l6 = [] /\ needs_frame p = false \/ exists n, 0 < n /\ code_of l6 = [(n, ISetFp 5 (frameofs lay))]).
  { unfold fin in E6. destruct (needs_frame p).
    - right. destruct l6 as [|[x n] [|[x2 n2] [|[x3 n3] [|]]]]; try discriminate. cbn [map fst app] in E6. apply Forall_cons_iff in T6 as [Hn _]. cbn [snd] in Hn. exists n. split; [exact Hn|].
      injection E6 as -> -> ->. destruct (Z.eqb_spec (frameofs lay) 0) as [->|]; reflexivity.
    - left. destruct l6 as [|[x n] [|]]; try discriminate. cbn [map fst app] in E6. injection E6 as ->. auto. }
  split.
  - unfold wf_prologue. apply first_free; [exact T1|reflexivity| |].
    { unfold home in E1. destruct (o_save o); [|destruct l1; [constructor|discriminate]]. pose proof (home_lines 4 0 (params p) (Z.le_refl 0)) as X. rewrite <- E1 in X. rewrite Forall_map in X. exact X. }
    assert (F3 : forall sp0, first top sp0 0 (code_of l3 ++ code_of l4 ++ code_of l5 ++ code_of l6)).
    { intros sp0. apply (first_push top (uses p)); [exact Hnv|exact T3|exact E3|]. set (sp1 := sp0 - _). clearbody sp1.
      assert (F5 : forall sp2, first top sp2 (whole o p lay sym) (code_of l5 ++ code_of l6)).
      { intros sp2. apply first_second.
        - inversion CS as [|x l X Y Z]; [|destruct x as [n []]; cbn in X; try contradiction; exact Coq.Init.Logic.I]. cbn. destruct C6 as [[-> _]|(n & _ & ->)]; exact Coq.Init.Logic.I.
        - eapply second_saves with (R := resv o sym) (l := uses p) (i := localsize lay - 16 * cntxmm (uses p)); [exact Hnv|exact T5|exact E5|exact Hsv|lia|lia|unfold whole; lia|constructor|].
          intros used. destruct C6 as [[-> _]|(n & Hn & ->)]; [exact Coq.Init.Logic.I|]. cbn [second]. split; [exact Hn|]. split; [right; left; reflexivity|]. split; [reflexivity|]. split; [lia|]. split; [exact L3|exact Coq.Init.Logic.I]. }
      unfold alloc in E4. destruct (Z.gtb_spec (whole o p lay sym) 0) as [G|G].
      - destruct l4 as [|[x n] [|[x2 n2] [|]]]; try discriminate. cbn [map fst] in E4. injection E4 as -> ->. apply Forall_cons_iff in T4 as [Hn _]. cbn [snd] in Hn. cbn [code_of flat_map instr_of map app first].
        split; [exact Hn|]. unfold whole in *. change (2 ^ 20) with 1048576 in Hbig. change (2 ^ 32) with 4294967296. split; [lia|]. split; [lia|]. replace (0 + (localsize lay + adj p (localsize lay) + resv o sym)) with (localsize lay + adj p (localsize lay) + resv o sym) by lia. apply F5.
      - destruct l4; [|discriminate]. cbn [code_of flat_map app]. replace 0 with (whole o p lay sym) at 1 by lia. apply F5. }
    destruct (needs_frame p).
    + destruct l2 as [|[x n] [|[x2 n2] [|[x3 n3] [|]]]]; try discriminate. cbn [map fst] in E2. injection E2 as -> -> ->. apply Forall_cons_iff in T2 as [Hn T2]. apply Forall_cons_iff in T2 as [Hn2 _]. cbn [snd] in Hn, Hn2. cbn [code_of flat_map instr_of map app first].
      split; [exact Hn|]. split; [intros m _; repeat split|]. split; [exact Hn2|]. split; [right; left; reflexivity|]. apply F3.
    + destruct l2; [|discriminate]. cbn [code_of flat_map app]. apply F3.
  - unfold near. assert (N1 : forall l, forallb (fun x => match x with LStore _ _ _ _ => false | _ => true end) (map fst l) = true -> Forall (fun '(_, i) => match i with ISave _ o => o < 2 ^ 19 | ISaveX _ o => o < 2 ^ 20 | _ => True end) (code_of l)).
    { clear. induction l as [|[x n] l IH]; intros X; [constructor|]. cbn [map fst forallb] in X. apply andb_true_iff in X as [X1 X2]. unfold code_of. cbn [flat_map]. fold (code_of l). apply Forall_app. split; [|apply IH; exact X2].
      destruct x; try discriminate; cbn; try constructor; auto. }
    assert (NS : forall l, Forall (fun x => match x with LHot => True | LHome i _ _ | LHomeX i _ => 0 <= i | _ => False end) l -> forallb (fun x => match x with LStore _ _ _ _ => false | _ => true end) l = true).
    { clear. induction 1 as [|x l Hx H IH]; [reflexivity|]. cbn. rewrite IH. destruct x; try contradiction; reflexivity. }
    assert (NP : forall l, forallb (fun x => match x with LStore _ _ _ _ => false | _ => true end) (push_lines l) = true).
    { clear. induction l as [|u l IH]; [reflexivity|]. unfold push_lines. cbn [flat_map]. fold (push_lines l). rewrite forallb_app, IH, andb_true_r. destruct u; try reflexivity. destruct (negb _); reflexivity. }
    apply Forall_app. split; [apply N1; rewrite E1; unfold home; destruct (o_save o); [apply NS, home_lines; lia|reflexivity]|].
    apply Forall_app. split; [apply N1; rewrite E2; destruct (needs_frame p); reflexivity|].
    apply Forall_app. split; [apply N1; rewrite E3; apply NP|].
    apply Forall_app. split; [apply N1; rewrite E4; unfold alloc; destruct (_ >? 0); reflexivity|].
    apply Forall_app. split.
    + eapply Forall_impl; [|exact CS]. intros [n []]; cbn [snd]; auto; try contradiction. intros (d & -> & D1 & D2). lia.
    + apply N1. rewrite E6. unfold fin. destruct (needs_frame p); [|reflexivity]. destruct (negb _); reflexivity.
Qed.
Lemma homed_cell m l k : (k < 4)%nat -> homed m 0 l k (mm m (sp m + 8 + 8 * Z.of_nat k)) = home_cell m l k.
Proof.
  intros Hk. unfold homed, home_cell, passed_in. rewrite Nat.add_0_l. assert (E : ms64_reg (Z.of_nat k) = nth k [1; 2; 8; 9] 0) by (do 4 (destruct k as [|k]; [reflexivity|]); lia).
  rewrite E. destruct (existsb _ _); [reflexivity|]. destruct (nth_error l k) as [q|]; [|reflexivity]. destruct (p_used q); [|reflexivity]. destruct (p_type q); reflexivity.
Qed.
Lemma pushed_bytes_eq p : pushed_bytes p = 8 * cntstd (uses p).
Proof. unfold pushed_bytes, zlen. f_equal. induction (uses p) as [|u l IH]; [reflexivity|]. rewrite cntstd_cons, <- IH. destruct u; cbn [filter length]; lia. Qed.
Lemma vector_bytes_eq p : vector_bytes p = 16 * cntxmm (uses p).
Proof. unfold vector_bytes. induction (uses p) as [|u l IH]; [reflexivity|]. cbn [fold_right]. rewrite cntxmm_cons, IH. destruct u; cbn [lanes_of units]; lia. Qed.

Definition both (x : line) : Prop := match x with LHot | LDir _ | LPush _ | LSub _ _ | LLea _ _ | LMov _ | LHome _ _ _ | LHomeX _ _ => True | LStore _ _ k _ => k = 2 | _ => False end.
Lemma step_same avx x c m : both x -> same_state c m -> same_state (step avx c x) (execs m (instr_of x)).
Proof.
  intros Hx (H1 & H2 & H3). unfold execs. destruct x; cbn in Hx; try contradiction; cbn [instr_of fold_left exec step]; try (split; [assumption|]; split; assumption).
  - unfold store, set_gpr, put, set_g, rsp, sp. rewrite !H1. split; [|split]; cbn [gpr xmm mem g v mm]; auto; intros a; unfold upd; [destruct (a =? 4); auto|destruct (a =? _); auto].
  - unfold set_gpr, set_g, rsp, sp. rewrite !H1. split; [|split]; cbn [gpr xmm mem g v mm]; auto; intros a; unfold upd; destruct (a =? 4); auto.
  - unfold set_gpr, set_g, rsp, sp. rewrite !H1. split; [|split]; cbn [gpr xmm mem g v mm]; auto; intros a; unfold upd; destruct (a =? r); auto.
  - unfold set_gpr, set_g, rsp, sp. rewrite !H1. split; [|split]; cbn [gpr xmm mem g v mm]; auto; intros a; unfold upd; destruct (a =? r); auto. lia.
  - subst lanes. unfold store, rsp. cbn [gpr]. rewrite !H1, !H2. fold (sp c). split; [|split]; cbn [gpr xmm mem g v mm]; auto. intros a. unfold upd. rewrite H3. cbn [fst snd].
    destruct (Z.eqb_spec a (sp c + ofs + 8)) as [->|N1].
    + replace (sp c + ofs + 8) with (sp c + ofs + 8 * 1) by lia. rewrite lane_in by lia. reflexivity.
    + destruct (Z.eqb_spec a (sp c + ofs)) as [->|N2].
      * replace (lane_at (sp c + ofs) 2 (sp c + ofs)) with (Some 0); [reflexivity|]. rewrite <- (lane_in (sp c + ofs) 2 0) by lia. f_equal. lia.
      * destruct (lane_at (sp c + ofs) 2 a) as [j|] eqn:E; [|reflexivity]. apply lane_some in E. lia.
  - unfold store, put, rsp, sp. rewrite !H1, !H3. split; [|split]; cbn [gpr xmm mem g v mm]; auto. intros a. unfold upd. destruct (a =? _); auto.
  - unfold store, put, rsp, sp. rewrite !H1, !H3, !H2. cbn [fst]. split; [|split]; cbn [gpr xmm mem g v mm]; auto. intros a. unfold upd. destruct (a =? _); auto.
Qed.
Lemma run_same avx : forall ls c m, Forall both (map fst ls) -> same_state c m -> same_state (run avx c (map fst ls)) (execs m (map snd (code_of ls))).
Proof.
  induction ls as [|[x n] ls IH]; intros c m H Hs; [exact Hs|]. cbn [map fst] in *. apply Forall_cons_iff in H as [Hx H]. unfold code_of. cbn [flat_map]. fold (code_of ls).
  rewrite map_app, map_map. cbn [snd]. rewrite map_id. unfold execs. rewrite fold_left_app. apply (IH (step avx c x) (execs m (instr_of x)) H). apply step_same; assumption.
Qed.
Lemma prologue_both o p sym lay pro : layout_facts o p lay sym -> prologue_RBP o false p lay sym = Ok pro -> all_nonvolatile p -> Forall both pro.
Proof.
  intros HF Hpro Hnv. destruct HF as (L1 & _). destruct (prologue_form o p lay sym pro Hpro L1) as (_ & saves & Hsv & ->).
  apply Forall_app. split.
  { unfold home. destruct (o_save o); [|constructor]. eapply Forall_impl; [|apply (home_lines 4 0 (params p)); lia]. intros []; cbn; auto; contradiction. }
  apply Forall_app. split; [destruct (needs_frame p); repeat constructor|]. apply Forall_app. split.
  { clear. induction (uses p) as [|u l IH]; [constructor|]. unfold push_lines. cbn [flat_map]. fold (push_lines l). apply Forall_app. split; [|exact IH]. destruct u; try constructor; [exact Coq.Init.Logic.I|]. destruct (negb _); repeat constructor. }
  apply Forall_app. split; [unfold alloc; destruct (_ >? 0); repeat constructor|]. apply Forall_app. split.
  { clear Hpro. revert Hsv. generalize (localsize lay - 16 * cntxmm (uses p)) as i. unfold all_nonvolatile in Hnv. revert saves. induction Hnv as [|u l Hu Hnv IH]; intros saves i Hsv; [assert (saves = []) by (cbn in Hsv; congruence); subst; constructor|].
    apply save_cons in Hsv as (k' & Hk & -> & _). apply Forall_app. split; [|eapply IH; exact Hk]. destruct u; try contradiction; repeat constructor. }
  destruct (needs_frame p); [|repeat constructor]. destruct (negb _); repeat constructor.
Qed.
