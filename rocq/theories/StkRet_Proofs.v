(** Proofs about the stack frames of 16-bit and 32-bit procedures: the bytes RET and
    INVOKE remove, the order arguments are pushed in, and which procedures are accepted. *)
From Coq Require Import List ZArith Bool Lia.
From Verif Require Import Base Stk_Model Stk_Spec Stk_Proofs StkRun_Proofs.
Import ListNotations.
Open Scope Z_scope.

Local Arguments Z.modulo : simpl never.
Local Arguments Z.div : simpl never.
Local Arguments Z.pow : simpl never.
Local Arguments Z.mul : simpl never.
Local Arguments Z.add : simpl never.

Lemma lsum_cons x l : lsum (x :: l) = x + lsum l.
Proof. reflexivity. Qed.
Lemma round0 w : (w = 2 \/ w = 4) -> ROUND_UP 0 w = 0.
Proof. intros [->| ->]; reflexivity. Qed.
Lemma parasize_sum o p : opts_ok o -> lang_ok p -> parasize o p = lsum (map (fun q => ROUND_UP (p_size q) (ws o)) (params p)).
Proof.
  intros (Hw & _) (Hv & _). unfold parasize. assert (G : forall s, fold_left (fun s q => if p_vararg q then s else s + ROUND_UP (p_size q) (ws o)) (params p) s = s + lsum (map (fun q => ROUND_UP (p_size q) (ws o)) (params p))); [|rewrite G; lia].
  induction Hv as [|q l [H1 H2] _ IH]; intros s; [cbn; lia|]. cbn [fold_left map]. rewrite IH, lsum_cons. destruct (p_vararg q); [rewrite (H2 eq_refl), round0 by exact Hw; lia|lia].
Qed.
Lemma round_pos n w : (w = 2 \/ w = 4) -> 0 <= n -> 0 <= ROUND_UP n w /\ (n <= w -> ROUND_UP n w <= w) /\ (0 < n <= w -> ROUND_UP n w = w).
Proof. intros Hw Hn. rewrite slot_round by exact Hw. unfold slot. destruct Hw as [->| ->]; lia. Qed.
Lemma lsum_nonneg l : Forall (fun x => 0 <= x) l -> 0 <= lsum l.
Proof. induction 1; [cbn; lia|]. rewrite lsum_cons. lia. Qed.
Lemma args_plain o p : opts_ok o -> lang_ok p -> plang p <> LFastcall -> parasize o p = args_size o p.
Proof.
  intros Ho Hl Hf. rewrite parasize_sum, args_sz by assumption. unfold cls. generalize 0. induction (params p) as [|q l IH]; intros u; [reflexivity|].
  destruct (plang p); try contradiction; cbn [classify map]; rewrite !lsum_cons; f_equal; apply IH; exact Hl.
Qed.
(** the parameters that ought to be in registers are *)
Lemma classify_fast o ps : (ws o = 2 \/ ws o = 4) -> Forall (fun q => 0 <= p_size q) ps -> forall used, 0 <= used <= ms32_maxreg o -> Forall (fun q => 0 < p_size q /\ fits o q = true) (firstn (Z.to_nat (ms32_maxreg o - used)) ps) ->
  let s := lsum (map (fun q => ROUND_UP (p_size q) (ws o)) ps) in
  let b := (ms32_maxreg o - used) * ws o in
  lsum (map (sz o) (classify o LFastcall used ps)) = if s >? b then s - b else 0.
Proof.
  intros Hw. induction 1 as [|q l Hq Hps IH]; intros used Hu HF; cbv zeta in *.
  - cbn [map classify]. change (lsum []) with 0. rewrite Z.gtb_ltb. assert (0 <= (ms32_maxreg o - used) * ws o) by nia. destruct (Z.ltb_spec ((ms32_maxreg o - used) * ws o) 0); lia.
  - assert (S0 : 0 <= lsum (map (fun q => ROUND_UP (p_size q) (ws o)) l)). { apply lsum_nonneg. apply Forall_map. eapply Forall_impl; [|exact Hps]. intros x Hx. apply (round_pos (p_size x) (ws o) Hw Hx). }
    cbn [map classify]. rewrite fits_pcheck. rewrite lsum_cons. destruct (Z.ltb_spec used (ms32_maxreg o)) as [L|L].
    + replace (Z.to_nat (ms32_maxreg o - used)) with (S (Z.to_nat (ms32_maxreg o - (used + 1)))) in HF by lia. cbn [firstn] in HF. apply Forall_cons_iff in HF as [[F1 F2] HF]. rewrite F2. cbn [andb map]. rewrite lsum_cons. rewrite (IH (used + 1)) by (try lia; exact HF).
      unfold sz at 1. cbn [fst snd]. unfold fits in F2. apply andb_true_iff in F2 as [F2 _]. apply Z.leb_le in F2. destruct (round_pos (p_size q) (ws o) Hw Hq) as (_ & _ & R). rewrite R by lia. rewrite !Z.gtb_ltb.
      set (s := lsum _) in *. destruct (Z.ltb_spec ((ms32_maxreg o - (used + 1)) * ws o) s), (Z.ltb_spec ((ms32_maxreg o - used) * ws o) (ws o + s)); lia.
    + assert (used = ms32_maxreg o) by lia. subst used. rewrite andb_false_r. cbn [map]. rewrite lsum_cons. rewrite (IH (ms32_maxreg o)); [|lia|rewrite Z.sub_diag; constructor].
      unfold sz at 1. cbn [fst snd]. destruct (round_pos (p_size q) (ws o) Hw Hq) as (R & _ & _). rewrite !Z.sub_diag. rewrite !Z.mul_0_l. rewrite !Z.gtb_ltb. set (s := lsum _) in *. destruct (Z.ltb_spec 0 s), (Z.ltb_spec 0 (ROUND_UP (p_size q) (ws o) + s)); lia.
Qed.
Definition ret_bytes (l : line) : Z := match l with LRet _ n => n | _ => 0 end.
Lemma ret_ok o p : opts_ok o -> lang_ok p -> (plang p = LFastcall -> Forall (fun q => 0 < p_size q /\ fits o q = true) (firstn (registers o LFastcall) (params p))) ->
  RetInstr o p None = LRet (far p) (if callee_cleans (plang p) then args_size o p else 0).
Proof.
  intros Ho Hl HF. pose proof (args_plain o p Ho Hl) as A. unfold RetInstr. f_equal. destruct (plang p) eqn:E; cbn [callee_cleans]; try reflexivity; try (apply A; discriminate).
  - destruct (has_vararg p) eqn:V; cbn [negb]; [|apply A; discriminate]. exfalso. destruct Hl as [_ Hl]. destruct (Hl V) as [X|X]; congruence.
  - specialize (HF eq_refl). rewrite args_sz by exact Ho. unfold cls. rewrite E. pose proof Ho as (Hw & _). assert (R : registers o LFastcall = Z.to_nat (ms32_maxreg o - 0)) by (unfold registers, ms32_maxreg; destruct (ws o =? 2); reflexivity). rewrite R in HF.
    rewrite (classify_fast o (params p) Hw); [|destruct Hl as [Hl _]; eapply Forall_impl; [|exact Hl]; cbn; tauto|unfold ms32_maxreg; destruct (ws o =? 2); lia|exact HF].
    unfold ms32_return. rewrite parasize_sum by assumption. rewrite Z.sub_0_r. reflexivity.
Qed.
Lemma cleanup_ok o p v : opts_ok o -> lang_ok p -> (has_vararg p = false -> v = 0) -> cleanup o p v = if callee_cleans (plang p) then 0 else args_size o p + v.
Proof.
  intros Ho Hl Hv. pose proof (args_plain o p Ho Hl) as A. unfold cleanup. destruct (plang p) eqn:E; cbn [callee_cleans]; try reflexivity;
  (rewrite A by discriminate; destruct (Z.eqb_spec (args_size o p) 0) as [Z0|Z0]; cbn [negb orb]; destruct (has_vararg p) eqn:V; cbn [andb]; [destruct (Z.eqb_spec v 0); cbn [negb]; lia|rewrite (Hv eq_refl); lia|lia|rewrite (Hv eq_refl); lia]).
Qed.

(** * Pushing the arguments *)
Lemma filter_split {A} (f : A -> bool) l : forall l1 k l2, filter f l = l1 ++ k :: l2 -> exists a b, l = a ++ k :: b /\ filter f a = l1 /\ filter f b = l2 /\ f k = true.
Proof.
  induction l as [|x l IH]; intros l1 k l2 H; [destruct l1; discriminate|]. cbn [filter] in H. destruct (f x) eqn:F.
  - destruct l1 as [|y l1]; cbn [app] in H; injection H as -> H.
    + exists [], l. auto.
    + destruct (IH _ _ _ H) as (a & b & -> & <- & <- & Fk). exists (y :: a), b. cbn [filter app]. rewrite F. auto.
  - destruct (IH _ _ _ H) as (a & b & -> & <- & <- & Fk). exists (x :: a), b. cbn [filter app]. rewrite F. auto.
Qed.
Lemma seq_split n : forall s a k b, seq s n = a ++ k :: b -> (s <= k < s + n)%nat /\ a = seq s (k - s) /\ b = seq (S k) (s + n - S k).
Proof.
  induction n as [|n IH]; intros s a k b H; [destruct a; discriminate|]. cbn [seq] in H. destruct a as [|x a]; cbn [app] in H; injection H as E H.
  - subst k b. rewrite Nat.sub_diag. split; [lia|]. split; [reflexivity|]. f_equal. lia.
  - subst x. destruct (IH _ _ _ _ H) as (L & Ea & Eb). split; [lia|]. split; [|rewrite Eb; f_equal; lia]. rewrite Ea. replace (k - s)%nat with (S (k - S s)) by lia. reflexivity.
Qed.
Lemma sum_filter o p l : sum (stack_bytes o p) (filter (fun k => negb (in_register o p k)) l) = sum (stack_bytes o p) l.
Proof.
  induction l as [|k l IH]; [reflexivity|]. assert (C : forall k l, sum (stack_bytes o p) (k :: l) = stack_bytes o p k + sum (stack_bytes o p) l) by reflexivity. cbn [filter]. destruct (in_register o p k) eqn:R; cbn [negb].
  - rewrite IH, C. assert (Z0 : stack_bytes o p k = 0) by (unfold stack_bytes; destruct (nth_error (params p) k); [rewrite R|]; reflexivity). lia.
  - rewrite !C, IH. reflexivity.
Qed.
Lemma sum_app f a b : sum f (a ++ b) = sum f a + sum f b.
Proof. induction a as [|x a IH]; [reflexivity|]. cbn [app sum fold_right]. fold (sum f (a ++ b)). fold (sum f a). lia. Qed.
Lemma sum_rev f a : sum f (rev a) = sum f a.
Proof. induction a as [|x a IH]; [reflexivity|]. cbn [rev]. rewrite sum_app, IH. cbn [sum fold_right]. fold (sum f a). lia. Qed.
Lemma push_order_eq o p : push_order o p = filter (fun k => negb (in_register o p k)) (if pascal_order o (plang p) then seq 0 (length (params p)) else rev (seq 0 (length (params p)))).
Proof.
  unfold push_order. fold (cls o p). unfold in_source_order. rewrite order_eq. apply filter_ext_in. intros k Hk. rewrite cls_nth. assert (L : (k < length (params p))%nat).
  { destruct (pascal_order o (plang p)); [|apply in_rev in Hk]; apply in_seq in Hk; lia. }
  apply nth_error_Some in L. destruct (nth_error (params p) k); [reflexivity|contradiction].
Qed.
Lemma push_order_in o p k : In k (push_order o p) <-> (k < length (params p))%nat /\ in_register o p k = false.
Proof.
  rewrite push_order_eq, filter_In, negb_true_iff. assert (G : In k (if pascal_order o (plang p) then seq 0 (length (params p)) else rev (seq 0 (length (params p)))) <-> (k < length (params p))%nat); [|tauto].
  destruct (pascal_order o (plang p)); [|rewrite <- in_rev]; rewrite in_seq; lia.
Qed.
Lemma push_order_place o p l1 k l2 : push_order o p = l1 ++ k :: l2 -> ra o p + sum (stack_bytes o p) l2 = arg_place o p k.
Proof.
  rewrite push_order_eq. intros H. apply filter_split in H as (a & b & E & _ & <- & _). rewrite sum_filter. unfold arg_place. f_equal. destruct (pascal_order o (plang p)).
  - apply seq_split in E as (_ & _ & ->). reflexivity.
  - assert (E' : seq 0 (length (params p)) = rev b ++ k :: rev a). { rewrite <- (rev_involutive (seq 0 _)), E, rev_app_distr. cbn [rev]. rewrite <- app_assoc. reflexivity. }
    apply seq_split in E' as (_ & Eb & _). rewrite <- sum_rev. rewrite Eb, Nat.sub_0_r. reflexivity.
Qed.
Lemma push_order_nodup o p : NoDup (push_order o p).
Proof. rewrite push_order_eq. apply NoDup_filter. destruct (pascal_order o (plang p)); [|apply NoDup_rev]; apply seq_NoDup. Qed.
Lemma push_order_all o p : sum (stack_bytes o p) (push_order o p) = args_size o p.
Proof. rewrite push_order_eq, sum_filter. unfold args_size. destruct (pascal_order o (plang p)); [reflexivity|apply sum_rev]. Qed.

(** * What is accepted *)
Lemma push_ok o l : forallb (line_ok o) (map LPush l) = true.
Proof. induction l; [reflexivity|exact IHl]. Qed.
Lemma pop_ok o l : forallb (line_ok o) (map LPop l) = true.
Proof. induction l; [reflexivity|exact IHl]. Qed.
Lemma lines_ok o p pass1 i : opts_ok o -> lang_ok p ->
  (ws o = 2 -> o_lea o = true -> localsize i = 0 /\ (has_frame o p = true -> fpo i = false)) ->
  (pass1 = true \/ plang p <> LFastcall \/ isleaf p = true \/ fpo i = false) ->
  forallb (line_ok o) (generic_prologue o pass1 p i ++ generic_epilogue o p i) = true.
Proof.
  intros (Hw & _) Hl H16 Hf. rewrite forallb_app. apply andb_true_iff. split.
  - unfold generic_prologue. match goal with |- forallb _ (if ?b then [] else _) = true => destruct b; [reflexivity|] end.
    match goal with |- forallb _ (?A ++ _) = true => assert (X : A = []) end.
    { destruct Hf as [->|[Hf|[->| ->]]]; cbn [andb]; try reflexivity.
      - rewrite orb_true_r. cbn [negb]. rewrite andb_false_r. reflexivity.
      - destruct (plang p); try contradiction; rewrite andb_false_r; reflexivity.
      - cbn [orb negb]. rewrite andb_false_r. reflexivity. }
    rewrite X. cbn [app]. rewrite !forallb_app. rewrite push_ok, andb_true_r. apply andb_true_iff. split; [destruct (has_frame o p && negb (fpo i)); reflexivity|]. apply andb_true_iff. split; [|destruct (loadds p); reflexivity].
    destruct (Z.eqb_spec (localsize i) 0) as [E|E]; cbn [negb]; [reflexivity|]. destruct (o_lea o); cbn [forallb line_ok andb]; [|reflexivity]. rewrite andb_true_r. destruct (Z.eqb_spec (ws o) 2) as [W|W]; [|reflexivity]. destruct (H16 W eq_refl). contradiction.
  - unfold generic_epilogue. rewrite !forallb_app, pop_ok. cbn [andb]. apply andb_true_iff. split; [destruct (loadds p); reflexivity|]. destruct (has_frame o p) eqn:F; cbn [negb]; [|reflexivity]. destruct (pe_type o && negb (fpo i)); [reflexivity|].
    destruct (fpo i) eqn:Fp; [|destruct (negb (localsize i =? 0)); reflexivity]. destruct (o_lea o) eqn:L; [|destruct (negb (localsize i =? 0)); reflexivity]. cbn [forallb line_ok]. rewrite andb_true_r. destruct (Z.eqb_spec (ws o) 2) as [W|W]; [|reflexivity]. destruct (H16 W eq_refl) as [_ X]. specialize (X eq_refl). congruence.
Qed.
Lemma pass1_size o p : localsize (fst (fst (one_pass o p true (info0 o p)))) = whole o p.
Proof. unfold one_pass, info0. cbn [fst localsize]. unfold SetLocalOffsets, whole. cbn [fpo localsize adjusted local_ofs para_ofs]. destruct (local_loop o 0 (locals p)) as [n ofs]. reflexivity. Qed.
Lemma pass1_fpo o p : uses_sp o = false -> fpo (fst (fst (one_pass o p true (info0 o p)))) = false.
Proof.
  unfold uses_sp. intros U. unfold one_pass, info0. cbn [fst fpo]. unfold check_proc_fpo. rewrite U. cbn [andb]. destruct (forceframe p); [reflexivity|]. destruct (_ || _); [reflexivity|]. rewrite orb_true_r. reflexivity.
Qed.
Lemma pass_lines o p b i : one_pass o p b i = (fst (fst (one_pass o p b i)), generic_prologue o b p (fst (fst (one_pass o p b i))), generic_epilogue o p (fst (fst (one_pass o p b i)))).
Proof. reflexivity. Qed.
Lemma accepted o n p arg : proc_ok o p -> (ws o = 2 -> o_lea o = true -> locals p = []) ->
  (plang p = LFastcall -> isleaf p = false -> uses_sp o = false /\ (params p <> [] \/ locals p <> [] \/ forceframe p = true)) ->
  exists r, assembled o n p arg = Ok r.
Proof.
  intros (Ho & _ & _ & Hl & Hg & _) H16 Hf. destruct (whole_ok o p Ho Hl) as (_ & _ & W3 & _). unfold assembled. rewrite (pass_lines o p true). pose proof (pass1_inv o p Ho) as I1. pose proof (pass1_size o p) as S1. pose proof (pass1_fpo o p) as F1. set (i1 := fst (fst (one_pass o p true (info0 o p)))) in *. clearbody i1. cbv zeta.
  pose proof (later_inv o p n Ho i1 I1) as I2. rewrite (pass_lines o p false). destruct (one_pass_ok o p (later_passes n o p i1) Ho I2) as [_ (T1 & T2 & _ & _)]. cbv zeta in *. set (i := fst (fst (one_pass o p false (later_passes n o p i1)))) in *. clearbody i.
  assert (U2 : ws o = 2 -> uses_sp o = false). { intros W. unfold uses_sp. destruct (Z.eqb_spec (basereg o) 4) as [E|E]; [|reflexivity]. destruct Ho as (_ & _ & Ho). specialize (Ho E). lia. }
  rewrite app_assoc, forallb_app. rewrite lines_ok; [rewrite lines_ok; [eexists; reflexivity| | | |]| | | |]; auto.
  - intros W L. rewrite T1, T2. split; [apply W3; auto|]. intros F. destruct (final_fpo o p) eqn:FP; [|reflexivity]. rewrite (fpo_frame o p Hg FP (U2 W)) in F. discriminate.
  - rewrite T1. destruct (isleaf p) eqn:IL; [auto|]. destruct (plang p) eqn:PL; try (right; left; discriminate). destruct (Hf eq_refl eq_refl) as [U X]. right. right. right. unfold final_fpo. rewrite U. cbn [orb].
    destruct X as [X|[X| ->]]; [destruct (params p); [congruence|]|destruct (locals p); [congruence|]|reflexivity]; rewrite ?andb_false_r; reflexivity.
  - intros W L. rewrite S1. split; [apply W3; auto|]. intros _. apply F1. auto.
Qed.
