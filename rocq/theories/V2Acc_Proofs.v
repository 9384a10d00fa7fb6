(** C39-C41: the instructions accepted, and the position of a constant with fixup. *)
From Coq Require Import String Ascii.
From Verif Require Import Base Mem_Model Mem_Spec V2_Model V2_Table V2_Spec V2Bits_Proofs V2Row_Proofs V2Type_Proofs V2Gen_Proofs V2Asm_Proofs V2Sel_Proofs.
Open Scope list_scope.
Local Arguments wrap : simpl never.
Local Arguments swrap : simpl never.
Local Arguments Z.land : simpl never.
Local Arguments Z.testbit : simpl never.

Definition tabs : list Z := 17 :: zs 16.
Lemma tab_all : forallb (fun s => forallb (fun b => forallb (fun i => negb (Z.testbit (snd (fst (tab s b i))) 4)) tabs) tabs && negb (Z.testbit (snd (fst (tab s 16 17))) 4)) [USE16; USE32; USE64] = true.
Proof. vm_compute. reflexivity. Qed.
Lemma tabs_in b : 0 <= b < 16 \/ b = 17 -> In b tabs.
Proof.
  intros [H | ->]; [right|left; reflexivity]. unfold zs. apply in_map_iff. exists (Z.to_nat b). split; [lia|]. apply in_seq. lia.
Qed.
Lemma tab_ok s b i : (0 <= b < 16 \/ b = 17) /\ (0 <= i < 16 \/ i = 17) \/ (b = 16 /\ i = 17) -> Z.testbit (snd (fst (tab s b i))) 4 = false.
Proof.
  intros H. pose proof tab_all as T. rewrite forallb_forall in T. assert (Hs : In s [USE16; USE32; USE64]) by (destruct s; cbn; tauto). specialize (T s Hs). apply andb_prop in T as [T1 T2].
  destruct H as [[A B] | [-> ->]]; [|apply negb_true_iff; exact T2].
  rewrite forallb_forall in T1. specialize (T1 b (tabs_in b A)). rewrite forallb_forall in T1. specialize (T1 i (tabs_in i B)). apply negb_true_iff. exact T1.
Qed.
Local Opaque tab regs row_entry lookup InstrTableV2.

(** facts of the table *)
Definition row_facts (d : row) : bool :=
  imp (has EVEX_K (d_evex d)) (gather d) &&
  imp (has EVEX_ONLY (d_evex d) || has EVEX (d_vex d)) (has EVEX_MASK (d_evex d) || same_name (d_name d) "vcvtsi2ss") &&
  imp (has EVEX_ONLY (d_evex d) || has EVEX (d_vex d)) (has EVEX_Z (d_evex d) || same_name (d_name d) "vcvtsi2ss" || gather d || mem_type (nth 0 (d_types d) T_R_RIP)) &&
  negb (has EVEX_SAE (d_evex d)) &&
  imp (existsb (same_name (d_name d)) ["vmulps"; "vpshufd"; "vblendmpd"; "vcvtdq2pd"]%string && existsb (optype_beq T_M_ANY) (d_types d) && (has EVEX_ONLY (d_evex d) || has EVEX (d_vex d)))
      (has EVEX_BRD (d_evex d) &&
       forallb (fun b => imp ((written_bc b =? 8 * d_size d / bc_bits d) || (same_name (d_name d) "vcvtdq2pd" && (written_bc b =? 2 * (8 * d_size d / bc_bits d)))) (PromoteBroadcast d b =? bc_elems (d_elem d)))
               [0x10; 0x20; 0x30; 0x40]) &&
  imp (gp_group (d_group d) && existsb mem_type (d_types d)) (has ALLOW_SEG (d_flags d)) &&
  imp (has NO_MEM_REG (d_flags d)) (has ALLOW_SEGX (d_flags d)) &&
  imp (gather d) (has VEX_VSIB (d_vex d) && imp (has EVEX_ONLY (d_evex d) || has EVEX (d_vex d)) (has EVEX_VSIB (d_evex d))) &&
  imp (has EVEX_VSIB (d_evex d)) (gather d).
Lemma facts_all : forallb row_facts InstrTableV2 = true.
Proof. vm_compute. reflexivity. Qed.
Record rfacts (d : row) : Prop := {
  rf_k : has EVEX_K (d_evex d) = true -> gather d = true;
  rf_mask : has EVEX_ONLY (d_evex d) || has EVEX (d_vex d) = true -> has EVEX_MASK (d_evex d) = true \/ same_name (d_name d) "vcvtsi2ss" = true;
  rf_z : has EVEX_ONLY (d_evex d) || has EVEX (d_vex d) = true -> has EVEX_Z (d_evex d) = true \/ same_name (d_name d) "vcvtsi2ss" = true \/ gather d = true \/ mem_type (nth 0 (d_types d) T_R_RIP) = true;
  rf_sae : has EVEX_SAE (d_evex d) = false;
  rf_broad : existsb (same_name (d_name d)) ["vmulps"; "vpshufd"; "vblendmpd"; "vcvtdq2pd"]%string = true -> In T_M_ANY (d_types d) -> has EVEX_ONLY (d_evex d) || has EVEX (d_vex d) = true ->
    has EVEX_BRD (d_evex d) = true /\ forall b, In b [0x10; 0x20; 0x30; 0x40] -> written_bc b = 8 * d_size d / bc_bits d \/ (same_name (d_name d) "vcvtdq2pd" = true /\ written_bc b = 2 * (8 * d_size d / bc_bits d)) ->
      PromoteBroadcast d b = bc_elems (d_elem d);
  rf_seg : gp_group (d_group d) = true -> existsb mem_type (d_types d) = true -> has ALLOW_SEG (d_flags d) = true;
  rf_segx : has NO_MEM_REG (d_flags d) = true -> has ALLOW_SEGX (d_flags d) = true;
  rf_vsib : gather d = true -> has VEX_VSIB (d_vex d) = true /\ (has EVEX_ONLY (d_evex d) || has EVEX (d_vex d) = true -> has EVEX_VSIB (d_evex d) = true);
  rf_evsib : has EVEX_VSIB (d_evex d) = true -> gather d = true }.
Lemma row_facts_ok d : In d InstrTableV2 -> rfacts d.
Proof.
  intros Hin. pose proof facts_all as T. rewrite forallb_forall in T. specialize (T d Hin). unfold row_facts in T.
  apply andb_prop in T as [T T9]. apply andb_prop in T as [T T8]. apply andb_prop in T as [T T7]. apply andb_prop in T as [T T6]. apply andb_prop in T as [T T5]. apply andb_prop in T as [T T4].
  apply andb_prop in T as [T T3]. apply andb_prop in T as [T1 T2]. constructor.
  - apply imp_true. exact T1.
  - intros H. apply orb_prop. exact (imp_true _ _ T2 H).
  - intros H. pose proof (imp_true _ _ T3 H) as X. repeat (apply orb_prop in X; destruct X as [X | X]); auto.
  - apply negb_true_iff. exact T4.
  - intros A B C. assert (B' : existsb (optype_beq T_M_ANY) (d_types d) = true) by (apply existsb_exists; exists T_M_ANY; auto).
    rewrite A, B', C in T5. cbn [andb] in T5. pose proof (imp_true _ _ T5 eq_refl) as X. apply andb_prop in X as [X1 X2]. split; [exact X1|]. intros b Hb Hw. rewrite forallb_forall in X2. specialize (X2 b Hb).
    apply Z.eqb_eq. apply (imp_true _ _ X2). apply orb_true_iff. destruct Hw as [Hw | [Hn Hw]]; [left; apply Z.eqb_eq; exact Hw|right; rewrite Hn; apply Z.eqb_eq; exact Hw].
  - intros A B. apply (imp_true _ _ T6). rewrite A, B. reflexivity.
  - apply imp_true. exact T7.
  - intros H. pose proof (imp_true _ _ T8 H) as X. apply andb_prop in X as [X1 X2]. split; [exact X1|apply imp_true; exact X2].
  - apply imp_true. exact T9.
Qed.
Lemma evex_has d c : evex_used d c = true -> has EVEX_ONLY (d_evex d) || has EVEX (d_vex d) = true.
Proof. unfold evex_used. intros H. apply orb_prop in H as [H | H]; [rewrite H; reflexivity|]. apply andb_prop in H as [_ H]. rewrite H. apply orb_true_r. Qed.

Section Memory.
Variables (d : row) (c : ci) (m : memx) (i : nat).
Hypotheses (RF : rfacts d) (Hm : c_mode c = USE32 \/ c_mode c = USE64) (Em : d_mem d = MemOpnd i) (MK : mem_ok (c_mode c) (evex_used d c) (row_vec d) m) (EN : encodable (c_mode c) m).
Lemma vec_gather : row_vec d <> None -> gather d = true.
Proof. unfold row_vec. destruct (gather d); congruence. Qed.
Lemma addr_no_simd mode r : addr_reg mode r -> simd (Some r) = false.
Proof. destruct r as [[] n]; cbn; tauto. Qed.
Lemma swapped : (if has VEX_VSIB (d_vex d) && simd (x_base m) then (regno (x_idx m), regno (x_base m)) else (regno (x_base m), regno (x_idx m))) = (regno (src_base m), regno (src_idx m)).
Proof.
  unfold src_base, src_idx. destruct (simd (x_base m)) eqn:E; [|rewrite andb_false_r; reflexivity].
  assert (G : gather d = true). { apply vec_gather. intros N. pose proof (mk_idx _ _ _ _ MK) as X. rewrite N in X. unfold src_idx in X. rewrite E in X. destruct (x_base m) as [r|]; [|discriminate]. destruct (X r eq_refl) as [X1 _]. apply addr_no_simd in X1. congruence. }
  destruct (rf_vsib _ RF G) as [-> _]. reflexivity.
Qed.
Lemma base_range : (0 <= regno (src_base m) < 16 /\ (8 <= regno (src_base m) -> c_mode c = USE64)) \/ (regno (src_base m) = 16 /\ c_mode c = USE64 /\ src_idx m = None) \/ (regno (src_base m) = 17 /\ src_base m = None).
Proof.
  destruct (src_base m) as [r|] eqn:E; [|right; right; split; reflexivity]. pose proof (mk_base _ _ _ _ MK r E) as A. destruct r as [k n]. destruct k; cbn [addr_reg regno] in *; try contradiction.
  - left. lia.
  - left. destruct A as [A1 A2]. split; [lia|exact A2].
  - left. destruct A as [A1 A2]. split; [lia|auto].
  - right. left. split; [reflexivity|]. split; [exact A|]. unfold src_base, src_idx in *. destruct (simd (x_base m)) eqn:S1; [pose proof (en_vec _ _ EN S1); congruence|]. exact (en_rip _ _ EN n E).
Qed.
Lemma idx_range : (0 <= regno (src_idx m) < 32 /\ (8 <= regno (src_idx m) -> c_mode c = USE64) /\ (16 <= regno (src_idx m) -> has EVEX_VSIB (d_evex d) = true)) \/ (regno (src_idx m) = 17 /\ src_idx m = None /\ has EVEX_VSIB (d_evex d) = false).
Proof.
  destruct (src_idx m) as [r|] eqn:E.
  - left. pose proof (mk_idx _ _ _ _ MK r E) as A. destruct (row_vec d) as [k|] eqn:V.
    + destruct A as (A1 & A2 & A3 & A4). destruct r as [k' n]. cbn [fst snd] in *. subst k'. assert (G : gather d = true) by (apply vec_gather; congruence).
      assert (K : k = KX \/ k = KY \/ k = KZ) by (unfold row_vec in V; rewrite G in V; destruct (d_types d) as [|[] ?]; inversion V; auto).
      assert (Rn : V2_Model.regno (@Some reg (k, n)) = n) by (destruct K as [-> | [-> | ->]]; reflexivity). rewrite Rn. split; [exact A2|]. split; [exact A3|]. intros H. apply (proj2 (rf_vsib _ RF G)). apply (evex_has d c). exact (A4 H).
    + destruct A as (A1 & A2 & A3). destruct r as [k n]. destruct k; cbn [addr_reg regno fst] in *; try contradiction; try congruence; (split; [lia|split; [|lia]]); try tauto; try lia; intros; tauto.
  - right. split; [reflexivity|]. split; [reflexivity|]. destruct (has EVEX_VSIB (d_evex d)) eqn:V; [|reflexivity]. exfalso. pose proof (rf_evsib _ RF V) as G. apply (mk_vec _ _ _ _ MK); [|exact E]. unfold row_vec. rewrite G. destruct (d_types d) as [|[] ?]; discriminate.
Qed.
Lemma mem_accepted broad : exists n, BuildMemoryEncoding d m c broad = Ok n.
Proof.
  unfold BuildMemoryEncoding. rewrite Em. cbv zeta. cbn [negb andb]. rewrite swapped. cbv iota beta.
  set (rr := has EVEX_VSIB (d_evex d) && (15 <? regno (src_idx m))). set (i2 := if rr then Z.land (regno (src_idx m)) 7 else regno (src_idx m)).
  assert (Ri : (0 <= i2 < 16 /\ (8 <= i2 -> c_mode c = USE64)) \/ (i2 = 17 /\ src_idx m = None)).
  { subst i2 rr. destruct idx_range as [(A & B & C) | (A & B & C)].
    - left. destruct (15 <? regno (src_idx m)) eqn:E; cbn [andb].
      + rewrite C by lia. cbn [andb]. pose proof (land7_range (regno (src_idx m))). split; [lia|]. intros. lia.
      + rewrite andb_false_r. split; [lia|exact B].
    - right. rewrite C. cbn [andb]. split; assumption. }
  assert (C1 : negb (regsize (c_mode c) (x_base m) =? regsize (c_mode c) (x_idx m)) && (regsize (c_mode c) (x_idx m) <? 16) && (0 <? regsize (c_mode c) (x_idx m)) && (0 <? regsize (c_mode c) (x_base m)) = false).
  { destruct (x_base m) as [[k n]|] eqn:B, (x_idx m) as [[k' n']|] eqn:X; try (cbn [regsize]; rewrite ?andb_false_r; reflexivity).
    destruct (en_kind _ _ EN k n k' n' B X) as [H | ->].
    - destruct k'; try discriminate H; cbn [regsize]; rewrite andb_false_r; reflexivity.
    - replace (regsize (c_mode c) (Some (k, n'))) with (regsize (c_mode c) (Some (k, n))) by reflexivity. rewrite Z.eqb_refl. reflexivity. }
  rewrite C1.
  assert (C2 : ofs_eqb (c_mode c) USE64 && (regsize (c_mode c) (x_base m) =? 2) = false).
  { destruct Hm as [-> | H64]; [reflexivity|]. rewrite H64. cbn [ofs_eqb andb]. change (ofs_eqb USE64 USE64) with true. cbn [andb]. destruct (x_base m) as [[k n]|] eqn:B; [|reflexivity]. destruct k; try reflexivity. exfalso.
    assert (A : src_base m = Some (K16, n)) by (unfold src_base; rewrite B; reflexivity). destruct (mk_base _ _ _ _ MK _ A) as [_ A']. congruence. }
  rewrite C2.
  assert (C3 : ((7 <? i2) || (7 <? regno (src_base m))) && negb (ofs_eqb (c_mode c) USE64) && (i2 <? 16) && (regno (src_base m) <? 16) = false).
  { destruct Hm as [H32 | ->]; [|change (ofs_eqb USE64 USE64) with true; cbn [negb]; rewrite andb_false_r; reflexivity].
    assert (X : i2 < 8 \/ 16 <= i2). { destruct Ri as [[A B] | [A B]]; [|lia]. destruct (Z_lt_le_dec i2 8); [lia|]. specialize (B ltac:(lia)). congruence. }
    assert (Y : regno (src_base m) < 8 \/ 16 <= regno (src_base m)). { destruct base_range as [[A B] | [[A B] | [A B]]]; [|lia|lia]. destruct (Z_lt_le_dec (regno (src_base m)) 8); [lia|]. specialize (B ltac:(lia)). congruence. }
    destruct (7 <? i2) eqn:E1, (7 <? regno (src_base m)) eqn:E2, (i2 <? 16) eqn:E3, (regno (src_base m) <? 16) eqn:E4; cbn [orb andb]; rewrite ?andb_false_r; try reflexivity; lia. }
  rewrite C3.
  set (sa := match x_sym m with Some _ => x_addr m | None => false end).
  set (b2 := if sa && ofs_eqb (c_mode c) USE64 && negb (match x_sym m with Some st => st | None => false end) && (regno (src_base m) =? 17) then 16 else regno (src_base m)).
  assert (Rb : (0 <= b2 < 16 \/ b2 = 17) /\ (0 <= i2 < 16 \/ i2 = 17) \/ (b2 = 16 /\ i2 = 17)).
  { assert (Ri' : 0 <= i2 < 16 \/ i2 = 17) by tauto. assert (R0 : src_idx m = None -> i2 = 17). { intros N. subst i2 rr. destruct idx_range as [(A & B & C) | (A & B & C)]; [rewrite N in A, C; cbn [regno] in *; exfalso|rewrite C; exact A].
        pose proof (rf_evsib _ RF (C ltac:(lia))) as G. apply (mk_vec _ _ _ _ MK); [|exact N]. unfold row_vec. rewrite G. destruct (d_types d) as [|[] ?]; discriminate. }
    subst b2. destruct (sa && ofs_eqb (c_mode c) USE64 && negb (match x_sym m with Some st => st | None => false end) && (regno (src_base m) =? 17)) eqn:E.
    - right. split; [reflexivity|]. apply andb_prop in E as [E E4]. apply andb_prop in E as [E E3]. apply andb_prop in E as [E1 E2]. apply ofs64 in E2. apply R0. apply (en_label _ _ EN E2).
      + unfold label. subst sa. destruct (x_sym m); [exact E3|discriminate].
      + destruct base_range as [[A B] | [[A B] | [A B]]]; [lia|lia|exact B].
    - destruct base_range as [[A B] | [(A & B & C) | [A B]]]; [left; auto|right; split; [exact A|exact (R0 C)]|left; auto]. }
  set (a16 := ofs_eqb (c_mode c) USE32 && (regsize (c_mode c) (x_base m) =? 2)).
  pose proof (tab_ok (c_mode c) b2 i2 Rb) as TK. destruct a16; cbn [negb andb].
  - destruct (tab (c_mode c) 0 0) as [[tm tf] ts]. cbn [negb andb]. repeat match goal with |- context [let '(_, _) := ?x in _] => destruct x end. eexists; reflexivity.
  - destruct (tab (c_mode c) b2 i2) as [[tm tf] ts]. cbn [fst snd] in TK. rewrite TK. repeat match goal with |- context [let '(_, _) := ?x in _] => destruct x end. eexists; reflexivity.
Qed.
End Memory.

Lemma in_opn l i m : opn l i = OMem m -> In (OMem m) l.
Proof. unfold opn. intros H. destruct (Nat.lt_ge_cases i (length l)) as [L | L]; [rewrite <- H; apply nth_In; exact L|]. rewrite nth_overflow in H by exact L. discriminate. Qed.
Lemma promote_0 d : PromoteBroadcast d 0 = 0.
Proof. unfold PromoteBroadcast. destruct (same_name _ _); reflexivity. Qed.
Lemma evex_accepted d c l : In d InstrTableV2 -> written_ok d c l -> allowed d c l -> evex_used d c = true -> evex_ok d l c (PromoteBroadcast d (c_broad c)) = true.
Proof.
  intros Hin WO AW EU. pose proof (row_facts_ok d Hin) as RF. pose proof (evex_has d c EU) as EH.
  assert (L7 : Z.land (c_deco c) 7 = (c_deco c) mod 8) by (change 7 with (Z.ones 3); rewrite Z.land_ones by lia; reflexivity).
  assert (BR : c_broad c = 0 \/ (PromoteBroadcast d (c_broad c) = bc_elems (d_elem d) /\ has EVEX_BRD (d_evex d) = true)).
  { destruct (Z.eq_dec (c_broad c) 0) as [H | H]; [left; exact H|right]. destruct (aw_broad _ _ _ AW EU H) as (A & B & C). destruct (rf_broad _ RF A B EH) as [D E]. split; [|exact D]. apply E; [|exact C].
    destruct (wo_broad _ _ _ WO) as [X _]. destruct X as [X | X]; [congruence|exact X]. }
  unfold evex_ok. cbv zeta. rewrite L7. repeat (apply andb_true_intro; split).
  - apply negb_true_iff. destruct (has EVEX_K (d_evex d)) eqn:K; [|reflexivity]. cbn [andb]. apply Z.eqb_neq. apply (aw_gather _ _ _ AW EU). apply (rf_k _ RF K).
  - apply negb_true_iff. destruct BR as [-> | [-> _]]; [rewrite promote_0; cbn [negb]; apply andb_false_r|]. rewrite Z.eqb_refl. cbn [negb]. rewrite andb_false_r. reflexivity.
  - apply negb_true_iff. destruct BR as [-> | [_ ->]]; [rewrite promote_0; reflexivity|]. apply andb_false_r.
  - apply negb_true_iff. destruct (has EVEX_MASK (d_evex d)) eqn:K; [reflexivity|]. cbn [negb andb]. apply negb_false_iff, Z.eqb_eq. destruct (Z.eq_dec (c_deco c mod 8) 0) as [H | H]; [exact H|]. pose proof (aw_mask _ _ _ AW EU H). destruct (rf_mask _ RF EH); congruence.
  - apply negb_true_iff. destruct (has EVEX_Z (d_evex d)) eqn:K; [reflexivity|]. cbn [negb andb]. destruct (Z.testbit (c_deco c) 7) eqn:Z7; [|reflexivity]. exfalso. destruct (aw_z _ _ _ AW EU Z7) as [A B]. destruct (rf_z _ RF EH) as [X | [X | [X | X]]]; try congruence.
    pose proof (wo_z _ _ _ WO Z7) as W. destruct l as [|o l'] eqn:El; [pose proof (len_types d c _ WO) as LT; destruct (d_types d); discriminate|].
    destruct (typed_mem d c _ WO 0%nat ltac:(cbn; lia) X) as (m & M & _). unfold opn in M. cbn [nth] in M. rewrite M in W. exact W.
  - destruct (c_sae c =? 0) eqn:Z0; [reflexivity|]. apply Z.eqb_neq in Z0. rewrite (rf_sae _ RF). destruct (has EVEX_RND (d_evex d)); [|reflexivity]. apply andb_true_intro. split.
    + apply negb_true_iff, Z.eqb_neq. destruct (wo_sae _ _ _ WO) as [X | [X | [X | [X | [X | []]]]]]; lia.
    + apply negb_true_iff. pose proof (aw_sae _ _ _ AW EU Z0) as N. assert (K : forall i, is_m (opn l i) = false). { intros i. destruct (opn l i) eqn:E; try reflexivity. exfalso. exact (N _ (in_opn _ _ _ E)). } rewrite !K. reflexivity.
Qed.
Theorem gen_accepted d c l : In d InstrTableV2 -> written_ok d c l -> allowed d c l -> exists o, gen d c l = Ok o.
Proof.
  intros Hin WO AW. pose proof (row_facts_ok d Hin) as RF. unfold gen. cbv zeta.
  assert (ME : exists n, match d_mem d with NoMem => Ok no_menc | _ => BuildMemoryEncoding d (the_mem d l) c (PromoteBroadcast d (c_broad c)) end = Ok n).
  { destruct (d_mem d) as [|i|i] eqn:Em; [eexists; reflexivity| |].
    - pose proof mem_types as M. rewrite forallb_forall in M. specialize (M d Hin). rewrite Em in M. apply andb_prop in M as [M1 M2]. apply Nat.ltb_lt in M1. rewrite (len_types d c l WO) in M1.
      destruct (typed_mem d c l WO i M1 M2) as (m & X & [Y _] & Zm). assert (T : the_mem d l = m) by (unfold the_mem; rewrite Em; cbn [memidx]; rewrite X; reflexivity). rewrite T.
      apply (mem_accepted d c m i RF (wo_mode _ _ _ WO) Em Y). destruct (aw_mem _ _ _ AW m Zm) as [N | N]; [|exact N]. destruct (wo_abs _ _ _ WO N) as [_ Q]. destruct (Q m Zm) as [Q1 Q2].
      constructor; unfold src_base, src_idx; rewrite ?Q1, ?Q2; intros; try discriminate; try reflexivity.
    - unfold BuildMemoryEncoding. rewrite Em. cbn [negb andb]. change (17 <? 16) with false. rewrite !andb_false_r. change (negb (0 =? 0)) with false. cbn [andb]. rewrite ?andb_false_r.
      cbv zeta. change (0 =? 2) with false. rewrite ?andb_false_r. cbn [negb andb]. match goal with |- context [tab (c_mode c) ?x 17] => destruct (tab (c_mode c) x 17) as [[tm tf] ts] end. eexists; reflexivity. }
  destruct ME as [n En]. rewrite En. cbn [bindr]. destruct (BuildModRM d l) as [mm need].
  fold (vex_used d c). fold (evex_used d c).
  assert (VX : exists vx, (if vex_used d c then Ok (BuildVEX d l (n_B n) (n_X n)) else if evex_used d c then if evex_ok d l c (PromoteBroadcast d (c_broad c)) then Ok (pack_evex (evex_fields d l c (PromoteBroadcast d (c_broad c)) (n_B n) (n_X n) (n_RR n))) else Err else Ok []) = Ok vx).
  { destruct (vex_used d c); [eexists; reflexivity|]. destruct (evex_used d c) eqn:EU; [|eexists; reflexivity]. rewrite (evex_accepted d c l Hin WO AW EU). eexists; reflexivity. }
  destruct VX as [vx VX]. rewrite VX. cbn [bindr].
  assert (EE : c_evex c && match d_evex d with [] => true | _ => false end = false) by (destruct (c_evex c) eqn:E; [|reflexivity]; pose proof (aw_evex _ _ _ AW E); destruct (d_evex d); [congruence|reflexivity]).
  rewrite EE. rewrite (aw_ins _ _ _ AW). cbn [ins_prefix bindr].
  assert (SP : exists sp, seg_prefix d c = Ok sp).
  { unfold seg_prefix. destruct (c_seg c) as [s|] eqn:Es; [|eexists; reflexivity]. destruct (aw_seg _ _ _ AW s Es) as (A & (m & Hm) & C).
    assert (T : existsb mem_type (d_types d) = true). { apply (In_nth _ _ ONone) in Hm as (i & Hi & Ni). destruct (typed d c l WO i Hi) as (T & _). unfold opn in T. rewrite Ni in T. apply type_mem in T as [T _]. apply existsb_exists. exists (nth i (d_types d) T_R_RIP). split; [apply nth_In; rewrite (len_types d c l WO); exact Hi|exact T]. }
    rewrite (rf_seg _ RF A T). destruct C as [-> | [-> | [-> | [-> | C]]]].
    - cbn [ofs_eqb andb]. eexists; reflexivity.
    - destruct (ofs_eqb (c_mode c) USE64); eexists; reflexivity.
    - destruct (ofs_eqb (c_mode c) USE64); eexists; reflexivity.
    - destruct (ofs_eqb (c_mode c) USE64); eexists; reflexivity.
    - rewrite (rf_segx _ RF C). cbn [negb]. rewrite andb_false_r. destruct (ofs_eqb (c_mode c) USE64 && ((s =? 4) || (s =? 5) || (s =? 2))); eexists; reflexivity. }
  destruct SP as [sp SP]. rewrite SP. cbn [bindr]. eexists; reflexivity.
Qed.

(** ** A constant with fixup *)
Definition set_imm (k : Z) (o : opnd) : opnd := match o with OImm t _ f => OImm t k f | _ => o end.
Lemma opn_set k l i : opn (map (set_imm k) l) i = set_imm k (opn l i).
Proof. unfold opn. change ONone with (set_imm k ONone) at 1. apply map_nth. Qed.
Lemma set_base k o : base_reg (set_imm k o) = base_reg o. Proof. destruct o; reflexivity. Qed.
Lemma set_idx k o : idx_reg (set_imm k o) = idx_reg o. Proof. destruct o; reflexivity. Qed.
Lemma set_ind k o : indirect (set_imm k o) = indirect o. Proof. destruct o; reflexivity. Qed.
Lemma set_ism k o : is_m (set_imm k o) = is_m o. Proof. destruct o; reflexivity. Qed.
Lemma set_modrm k d l : BuildModRM d (map (set_imm k) l) = BuildModRM d l.
Proof. unfold BuildModRM. rewrite !opn_set, !set_base. reflexivity. Qed.
Lemma set_rex k r d l : BuildREX r d (map (set_imm k) l) = BuildREX r d l.
Proof. unfold BuildREX, above. rewrite !opn_set, !set_base. destruct (opn l (memidx (d_mem d))); reflexivity. Qed.
Lemma set_vex k d l b x : BuildVEX d (map (set_imm k) l) b x = BuildVEX d l b x.
Proof. unfold BuildVEX, vex_fields, above. rewrite !opn_set, !set_base, !set_ind. reflexivity. Qed.
Lemma set_evex k d l c br b x r : evex_fields d (map (set_imm k) l) c br b x r = evex_fields d l c br b x r.
Proof. unfold evex_fields, above, nbase. rewrite !opn_set, !set_base, !set_ind, !set_idx. reflexivity. Qed.
Lemma set_evok k d l c br : evex_ok d (map (set_imm k) l) c br = evex_ok d l c br.
Proof. unfold evex_ok. rewrite !opn_set, !set_ism. reflexivity. Qed.
Lemma set_mem k d l : the_mem d (map (set_imm k) l) = the_mem d l.
Proof. unfold the_mem. rewrite opn_set. destruct (opn l (memidx (d_mem d))); reflexivity. Qed.
Lemma set_opc k d l : opcode_bytes d (map (set_imm k) l) = opcode_bytes d l.
Proof. unfold opcode_bytes. rewrite opn_set, set_base. reflexivity. Qed.
Lemma is4_types : forallb (fun d => imp (has VEX_4OPND (d_vex d)) (match d_imm d with Some i => Nat.ltb i (length (d_types d)) && negb (imm_type (nth i (d_types d) T_R_RIP)) | None => true end)) InstrTableV2 = true.
Proof. vm_compute. reflexivity. Qed.
Theorem gen_imm d c l o p k : In d InstrTableV2 -> map MatchOperand l = d_types d \/ map DemoteOperand (map MatchOperand l) = d_types d -> gen d c l = Ok o -> o_ifix o = Some p ->
  0 <= p <= zlen (o_bytes o) /\ exists o', gen d c (map (set_imm k) l) = Ok o' /\ o_dfix o' = o_dfix o /\ o_ifix o' = o_ifix o /\
  o_bytes o' = firstn (Z.to_nat p) (o_bytes o) ++ le_bytes (length (o_bytes o) - Z.to_nat p) k.
Proof.
  intros Hin Ty G P. unfold gen in *. rewrite set_mem, set_modrm, set_opc in *.
  destruct (match d_mem d with NoMem => Ok no_menc | _ => BuildMemoryEncoding d (the_mem d l) c (PromoteBroadcast d (c_broad c)) end) as [n| |] eqn:En; cbn [bindr] in *; try discriminate.
  destruct (BuildModRM d l) as [mm need]. rewrite set_vex, set_evex, set_evok.
  destruct (if has VEX (d_vex d) && negb (has EVEX_ONLY (d_evex d)) && negb (c_evex c) then _ else _) as [vx| |]; cbn [bindr] in *; try discriminate.
  destruct (c_evex c && _); [discriminate|]. rewrite set_rex. destruct (ins_prefix d (c_ins c)) as [ip| |]; cbn [bindr] in *; try discriminate. destruct (seg_prefix d c) as [sp| |]; cbn [bindr] in *; try discriminate. cbv zeta in *.
  match type of G with Ok {| o_bytes := ?a ++ _ ++ _; o_dfix := _; o_ifix := _; o_oob := _ |} = _ => set (pre := a) in * end.
  set (dsp := le_bytes (n_dsize n) (n_disp n)) in *.
  assert (E : forall a b : out, Ok a = Ok b -> a = b) by congruence. apply E in G. clear E. subst o. cbn [o_ifix o_bytes o_dfix] in *.
  assert (IM : exists i t v, d_imm d = Some i /\ opn l i = OImm t v true). { destruct (d_imm d) as [i|]; [|discriminate]. destruct (opn l i) as [| |t v f|] eqn:Eo; try discriminate. destruct f; [|discriminate]. eauto 6. }
  destruct IM as (i & t & v & I1 & I2). rewrite I1, I2 in P. assert (Ep : p = zlen pre + zlen dsp) by congruence. 
  assert (LN : length (le_bytes (imm_size d) (imm_value d l)) = imm_size d) by apply le_bytes_length.
  assert (Tp : Z.to_nat p = length (pre ++ dsp)) by (rewrite Ep, app_length; unfold zlen; lia).
  split. { rewrite !zlen_app. pose proof (zlen_nonneg pre). pose proof (zlen_nonneg dsp). pose proof (zlen_nonneg (le_bytes (imm_size d) (imm_value d l))). lia. }
  eexists. split; [reflexivity|]. cbn [o_ifix o_bytes o_dfix]. rewrite I1, opn_set, I2. cbn [set_imm]. split; [reflexivity|]. split; [reflexivity|].
  rewrite Tp, !app_assoc, firstn_app, Nat.sub_diag, firstn_all, firstn_O, app_nil_r. f_equal. rewrite !app_length, LN. replace (length pre + length dsp + imm_size d - (length pre + length dsp))%nat with (imm_size d) by lia.
  f_equal. unfold imm_value. rewrite I1, opn_set, I2. cbn [set_imm].
  pose proof is4_types as I4. rewrite forallb_forall in I4. specialize (I4 d Hin). destruct (has VEX_4OPND (d_vex d)); [|reflexivity]. exfalso. cbn [imp negb orb] in I4. rewrite I1 in I4. apply andb_prop in I4 as [X1 X2]. apply Nat.ltb_lt in X1.
  pose proof (nth_typed d l i Ty X1) as X3. rewrite I2 in X3. apply type_imm in X3 as [X3 _]. rewrite X3 in X2. discriminate.
Qed.

(** ** Instructions without operands *)
Definition simple (name : string) (types : list optype) (mode : ofssize) (swap : bool) (d : row) : bool :=
  same_name (d_name d) name && types_eqb (d_types d) types && existsb (cpumode_eqb (mode_bit mode)) (d_modes d) && negb (has SRCHDSTL (d_flags d) && swap).
Lemma simple_ok name types c src dst d : same_name name "vcvtpd2ps" || same_name name "vcvttpd2dq" = false ->
  row_matches name types false c src dst d = simple name types (c_mode c) (((src <=? 7) && (7 <? dst)) || ((src <=? 7) && (dst <=? 7)) || ((7 <? src) && (7 <? dst)) || c_evex c) d.
Proof. intros H. unfold row_matches, simple. rewrite H. cbn [negb andb]. rewrite orb_true_r, !andb_true_r. reflexivity. Qed.
Lemma find_ext_all {A} (p q : A -> bool) l : (forall x, p x = q x) -> find p l = find q l.
Proof. intros H. induction l as [|a l IH]; [reflexivity|]. cbn [find]. rewrite H, IH. reflexivity. Qed.
Definition plain_row (d : row) : bool :=
  match d_mem d, d_imm d, d_vex d, d_evex d, d_types d, d_oso d, has F_OPCODE_REG (d_flags d), has F_MODRM (d_flags d), has REX (d_flags d), has EREX (d_flags d), has REXP_MEM (d_flags d) with
  | NoMem, None, [], [], [], false, false, false, false, false, false => true
  | _, _, _, _, _, _, _, _, _, _, _ => false
  end.
Definition zlist_eqb (a b : list Z) : bool := if list_eq_dec Z.eq_dec a b then true else false.
Definition plain_check (nb : string * list Z) : bool :=
  negb (same_name (fst nb) "vcvtpd2ps" || same_name (fst nb) "vcvttpd2dq") &&
  forallb (fun mode => forallb (fun swap =>
    match find (simple (fst nb) [] mode swap) InstrTableV2 with
    | Some d => plain_row d && zlist_eqb (mand1 (d_pfx d) ++ mand2 (d_pfx d) ++ firstn (d_nop d) (d_opc d)) (snd nb)
    | None => false
    end) [true; false]) (modes_of (fst nb)).
Lemma plain_all : forallb plain_check plain = true.
Proof. vm_compute. reflexivity. Qed.
Lemma plain_gen d c : plain_row d = true -> c_evex c = false -> c_ins c = None -> c_seg c = None ->
  gen d c [] = Ok {| o_bytes := mand1 (d_pfx d) ++ mand2 (d_pfx d) ++ firstn (d_nop d) (d_opc d); o_dfix := None; o_ifix := None; o_oob := false |}.
Proof.
  unfold plain_row. destruct (d_mem d) eqn:E1; try discriminate. destruct (d_imm d) eqn:E2; try discriminate. destruct (d_vex d) eqn:E3; try discriminate. destruct (d_evex d) eqn:E4; try discriminate.
  destruct (d_types d) eqn:E5; try discriminate. destruct (d_oso d) eqn:E6; try discriminate. destruct (has F_OPCODE_REG (d_flags d)) eqn:E7; try discriminate. destruct (has F_MODRM (d_flags d)) eqn:E8; try discriminate.
  destruct (has REX (d_flags d)) eqn:E9; try discriminate. destruct (has EREX (d_flags d)) eqn:E10; try discriminate. destruct (has REXP_MEM (d_flags d)) eqn:E11; try discriminate. intros _ H1 H2 H3.
  unfold gen, BuildModRM, BuildREX, seg_prefix, use_oso, opcode_bytes, imm_size, imm_value. rewrite E1, E2, E3, E4, E6, E7, E8, E9, E10, E11, H1, H2, H3. cbn [bindr has existsb andb orb negb ins_prefix no_menc n_modrm n_rex n_needmod n_needsib n_sib n_dsize n_disp n_aso n_oob n_B n_X n_RR].
  change (Z.lor 0 0) with 0. change (0 =? 0) with true. destruct (ofs_eqb (c_mode c) USE64); cbn [le_bytes app Nat.eqb negb andb]; rewrite !app_nil_r; reflexivity.
Qed.
Theorem plain_assembled name bytes : In (name, bytes) plain -> forall hash word c, In (c_mode c) (modes_of name) -> c_evex c = false -> c_ins c = None -> c_seg c = None ->
  CodeGenV2 hash (BuildInstructionTable hash InstrTableV2) name word c [] = Some (Ok {| o_bytes := bytes; o_dfix := None; o_ifix := None; o_oob := false |}).
Proof.
  intros Hp hash word c Hm H1 H2 H3. pose proof plain_all as P. rewrite forallb_forall in P. specialize (P _ Hp). unfold plain_check in P. cbn [fst snd] in P. apply andb_prop in P as [P1 P2]. apply negb_true_iff in P1.
  rewrite forallb_forall in P2. specialize (P2 _ Hm). rewrite forallb_forall in P2.
  unfold CodeGenV2. cbn [fix_imm]. rewrite select_found. unfold found. cbn [map existsb opn nth base_reg]. rewrite lookup_find. rewrite (find_ext_all _ _ InstrTableV2 (fun d => simple_ok name [] c 0 0 d P1)).
  match goal with |- context [simple name [] (c_mode c) ?s] => specialize (P2 s) end. match type of P2 with _ -> ?b = true => assert (P3 : b = true) by (apply P2; match goal with |- In ?s _ => destruct s; cbn; tauto end) end.
  destruct (find _ InstrTableV2) as [d|]; [|discriminate]. apply andb_prop in P3 as [P3 P4]. assert (NM : d_mem d = NoMem) by (unfold plain_row in P3; destruct (d_mem d); [reflexivity|discriminate..]). rewrite NM.
  rewrite (plain_gen d c P3 H1 H2 H3). unfold zlist_eqb in P4. destruct (list_eq_dec Z.eq_dec _ bytes) as [E | E]; [|discriminate]. rewrite E. reflexivity.
Qed.
