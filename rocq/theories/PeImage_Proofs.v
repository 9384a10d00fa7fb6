(** Images of regular programs. *)
From Coq Require Import ZArith List Bool Lia Permutation Sorted.
From Verif Require Import Base Sort_Model Sort_Spec Sort_Proofs Pe_Model Pe_Spec PeReloc_Proofs PePlace_Proofs PeTable_Proofs PeAll_Proofs.
Import ListNotations.
Open Scope Z_scope.

Local Arguments Z.pow : simpl never.
Local Arguments Z.div : simpl never.
Local Arguments Z.modulo : simpl never.

(** ** .reloc is the last *)

Lemma relocs_last : forall t l, stably_sorted gt_model (t ++ [reloc_seg]) l -> Forall (fun s => p_type s <> T_RELOC) t ->
  Forall (fun s => idx s <> 10) l -> exists l0, l = l0 ++ [reloc_seg] /\ Permutation t l0.
Proof.
  intros t l (P & S0 & _) NR NI.
  assert (IN : In reloc_seg l) by (apply (Permutation_in _ P); apply in_or_app; right; left; reflexivity).
  apply in_split in IN as (a & b & E). subst l.
  pose proof (Permutation_app_inv t [] a b reloc_seg P) as P2. rewrite app_nil_r in P2.
  destruct b as [|x b]; [exists a; rewrite app_nil_r in P2; split; [reflexivity|exact P2]|]. exfalso.
  assert (G : gt_model reloc_seg x = false).
  { clear - S0. induction a as [|y a IH]; cbn [app] in S0; inversion S0 as [|? ? S1 S2]; subst; [exact (Forall_inv S2)|exact (IH S1)]. }
  apply gt_false in G. change (idx reloc_seg) with 6 in G.
  assert (X1 : p_type x <> T_RELOC).
  { rewrite Forall_forall in NR. apply NR. apply (Permutation_in _ (Permutation_sym P2)). apply in_or_app. right. left. reflexivity. }
  assert (X2 : idx x <> 10) by (rewrite Forall_forall in NI; apply NI; apply in_or_app; right; right; left; reflexivity).
  pose proof (idx_range (p_type x) X2) as R. apply X1. apply idx_type; [unfold idx in *; change (lname_idx T_RELOC) with 6; lia|exact X2].
Qed.

Lemma iruns_snoc : forall l r, Forall (fun s => idx s <> idx r) l -> iruns (l ++ [r]) = iruns l ++ [[r]].
Proof.
  induction l as [|s l IH]; intros r F; [reflexivity|]. inversion F as [|? ? F1 F2]; subst. cbn [app iruns]. rewrite (IH r F2).
  destruct (iruns l) as [|[|x g] t]; cbn [app]; [|reflexivity|destruct (idx s =? idx x); reflexivity].
  apply Z.eqb_neq in F1. rewrite F1. reflexivity.
Qed.

Lemma last_idx_in : forall R i, last_idx i R = i \/ exists s, In s (concat R) /\ last_idx i R = idx s.
Proof.
  induction R as [|r R IH]; intro i; [left; reflexivity|]. unfold last_idx. cbn [fold_left]. fold (last_idx (match r with s :: _ => idx s | [] => i end) R).
  destruct (IH (match r with s :: _ => idx s | [] => i end)) as [H|(s & H1 & H2)].
  - rewrite H. destruct r as [|s r]; [left; reflexivity|]. right. exists s. split; [left; reflexivity|reflexivity].
  - right. exists s. split; [cbn [concat]; apply in_or_app; right; exact H1|exact H2].
Qed.

Lemma bases_in : forall fa ma R b0 f0 b f r, In (b, f, r) (bases fa ma b0 f0 R) -> In r R.
Proof.
  intros fa ma. induction R as [|r0 R IH]; intros b0 f0 b f r X; [destruct X|]. cbn [bases] in X. cbv zeta in X.
  destruct X as [X|X]; [inversion X; left; reflexivity|right; eapply IH; exact X].
Qed.

Lemma lay_in : forall r b f e q, In q (lay b f e r) -> In (q_s q) r.
Proof.
  induction r as [|s r IH]; intros b f e q X; [destruct X|]. cbn [lay] in X.
  destruct X as [X|X]; [subst q; left; reflexivity|right; eapply IH; exact X].
Qed.

Lemma place_relocs : forall k m l0 size b, let r1 := with_relocs size b reloc_seg in
  regular k m (l0 ++ [r1]) -> ascending (-1) (l0 ++ [reloc_seg]) -> Forall (fun s => p_type s <> T_RELOC) l0 -> 0 <= size ->
  exists pl0 q z, place k (2 ^ m) true (-1) 0 0 (l0 ++ [reloc_seg]) = (pl0 ++ [q], z) /\
    q_s q = reloc_seg /\ Forall (fun q => p_type (q_s q) <> T_RELOC) pl0 /\
    positions (2 ^ k) (2 ^ m) (l0 ++ [r1]) = pl0 ++ [set_reloc size b q] /\
    fst (ends (2 ^ k) (2 ^ m) 0 0 (runs (l0 ++ [r1]))) = q_rva q + size.
Proof.
  intros k m l0 size b r1 RG A NR SZ. destruct RG as [K M SO TI HD FX SM [E1 E2]].
  pose proof SO as SO'. apply Forall_app in SO' as [SO0 SO1].
  assert (ID0 : Forall (fun s => idx s <> 6) l0).
  { rewrite Forall_forall in *. intros s X E. apply (NR s X). apply idx_type; [exact E|]. apply so_idx. apply SO0. exact X. }
  assert (RE : runs (l0 ++ [r1]) = iruns l0 ++ [[r1]]) by (rewrite runs_eq by exact SO; apply iruns_snoc; exact ID0).
  rewrite RE in *. apply Forall_app in TI as [TI0 TI1].
  set (R0 := iruns l0) in *.
  assert (OK0 : Forall (okrun k) R0) by (apply ok_runs; assumption).
  rewrite ends_app in *. cbn [ends] in E1, E2 |- *. cbv zeta in *.
  set (b' := fst (ends (2 ^ k) (2 ^ m) 0 0 R0)) in *. set (f' := snd (ends (2 ^ k) (2 ^ m) 0 0 R0)) in *.
  assert (A1 : p_align r1 = 2) by reflexivity. assert (S1 : p_size r1 = size) by reflexivity.
  assert (EX : extent 0 [r1] = size) by (cbn [extent]; rewrite A1, up_zero by (apply pow_pos; lia); exact S1).
  assert (BS : is_bss [r1] = false) by reflexivity.
  rewrite EX, BS, A1 in *. cbn [fst snd] in *. rewrite max_pow in * by lia.
  destruct (ends_ge k m R0 0 0 ltac:(lia) ltac:(lia) OK0) as [G1 G2]. fold b' in G1. fold f' in G2.
  pose proof (up_bounds (2 ^ m) b' (pow_pos m ltac:(lia))) as UB.
  pose proof (up_bounds (2 ^ Z.max k 2) f' (pow_pos (Z.max k 2) ltac:(lia))) as UF.
  change (2 ^ 30) with 1073741824 in *.
  assert (CH : chain (-1) R0).
  { unfold R0. destruct l0 as [|s l0]; [exact Logic.I|]. cbn [app ascending] in A. destruct A as [A2 A3].
    apply chain_runs; [|cbn [ascending]; split; [lia|]].
    - pose proof (idx_range (p_type s) (so_idx s (Forall_inv SO0))). unfold idx. lia.
    - clear - A3. revert A3. generalize (idx s). induction l0 as [|x l IH]; intros j H; [exact Logic.I|]. cbn [app ascending] in *. destruct H. split; [assumption|apply IH; assumption]. }
  assert (L8 : 2 ^ 31 = 2147483648) by reflexivity.
  pose proof (place_ok k m R0 (-1) 0 0 [reloc_seg] K M CH OK0 ltac:(lia) ltac:(lia) ltac:(fold b'; unfold LIM; lia) ltac:(fold f'; unfold LIM; lia)) as P.
  unfold R0 in P at 1. rewrite iruns_concat in P.
  assert (EE : ends (2 ^ k) (2 ^ m) 0 0 R0 = (b', f')) by (unfold b', f'; destruct (ends (2 ^ k) (2 ^ m) 0 0 R0); reflexivity).
  rewrite EE in P.
  assert (SR : sound reloc_seg).
  { constructor; [cbn; lia|cbn; lia|reflexivity|cbn; tauto|constructor]. }
  rewrite place_new in P; [|assumption..| |unfold LIM; lia|unfold LIM; lia|change (p_size reloc_seg) with 8; unfold LIM; lia|].
  2:{ change (idx reloc_seg) with 6. destruct (last_idx_in R0 (-1)) as [H|(s & H1 & H2)]; [rewrite H; lia|].
      rewrite H2. unfold R0 in H1. rewrite iruns_concat in H1. rewrite Forall_forall in ID0. apply ID0. exact H1. }
  2:{ change (bss reloc_seg) with false. change (p_size reloc_seg) with 8. change (p_align reloc_seg) with 2. unfold foff, LIM. lia. }
  cbn [place] in P. change (p_align reloc_seg) with 2 in P.
  exists (flat_map alone (bases (2 ^ k) (2 ^ m) 0 0 R0)). eexists. eexists. split; [|split; [|split; [|split]]].
  - assert (FI : place k (2 ^ m) true (-1) 0 0 (l0 ++ [reloc_seg]) = place k (2 ^ m) false (-1) 0 0 (l0 ++ [reloc_seg])).
    { destruct l0 as [|s l0]; [apply place_first; reflexivity|]. apply (place_first k (2 ^ m) (-1) 0 0 s (l0 ++ [reloc_seg])). apply (so_loc s). exact (Forall_inv SO0). }
    rewrite FI, P. reflexivity.
  - reflexivity.
  - apply Forall_forall. intros q Q. assert (X : In (q_s q) l0).
    { unfold R0 in Q. apply in_flat_map in Q as ([[bb ff] r] & X1 & X2). cbn [alone] in X2.
      rewrite <- (iruns_concat l0). apply in_concat. exists r. split; [eapply bases_in; exact X1|eapply lay_in; exact X2]. }
    rewrite Forall_forall in NR. apply NR. exact X.
  - unfold positions. rewrite RE, bases_app. fold b' f'. rewrite flat_map_app. cbn [bases flat_map]. rewrite A1, max_pow by lia. cbn [lay app].
    rewrite A1, up_zero by (apply pow_pos; lia). rewrite !Z.add_0_r. change (bss r1) with false. reflexivity.
  - reflexivity.
Qed.

(** ** The table of a regular program *)

Lemma hdr_idx : forall s, idx s <> 10 -> (p_type s =? T_HDR) = (idx s =? 0).
Proof.
  intros s N. destruct (idx s =? 0) eqn:E.
  - apply Z.eqb_eq in E. apply Z.eqb_eq. apply idx_type; [exact E|exact N].
  - apply Z.eqb_neq in E. apply Z.eqb_neq. intro H. apply E. unfold idx. rewrite H. reflexivity.
Qed.

Lemma fill_hdr : forall fa r b f e rest st, Forall (fun s => p_type s = T_HDR) r -> fill fa (lay b f e r ++ rest) st = fill fa rest st.
Proof.
  intros fa. induction r as [|s r IH]; intros b f e rest st F; [reflexivity|]. inversion F as [|? ? F1 F2]; subst.
  cbn [lay app fill q_s]. rewrite F1, Z.eqb_refl. cbn [orb]. apply IH. exact F2.
Qed.

Lemma chain_pos : forall R i, chain i R -> 0 <= i -> Forall (fun r => Forall sound r) R -> Forall (fun r => is_hdr r = false) R.
Proof.
  induction R as [|r R IH]; intros i CH I0 F; [constructor|]. destruct r as [|s r]; [destruct CH|]. destruct CH as (C1 & C2 & C3).
  inversion F as [|? ? F1 F2]; subst. constructor; [|apply (IH (idx s)); [exact C3|lia|exact F2]].
  cbn [is_hdr]. rewrite hdr_idx by (apply so_idx; exact (Forall_inv F1)). apply Z.eqb_neq. lia.
Qed.

Lemma filter_bases : forall fa ma R b f, Forall (fun r => is_hdr r = false) R ->
  filter (fun x => negb (is_hdr (snd x))) (bases fa ma b f R) = bases fa ma b f R.
Proof.
  intros fa ma. induction R as [|r R IH]; intros b f F; [reflexivity|]. inversion F as [|? ? F1 F2]; subst.
  cbn [bases filter snd]. cbv zeta. rewrite F1. cbn [negb]. f_equal. apply IH. exact F2.
Qed.

(** What a regular list looks like. *)
Lemma regular_split : forall k m l, regular k m l -> ascending (-1) l ->
  exists h R, runs l = h :: R /\ h <> [] /\ Forall (fun s => p_type s = T_HDR) h /\ Forall sound h /\ okrun k h /\ chain 0 R /\ R <> [] /\
    Forall (tidy_run k) R /\ Forall (fun r => is_hdr r = false) R /\ 0 < extent 0 h /\ concat (h :: R) = l.
Proof.
  intros k m l RG A. destruct RG as [K M SO TI HD FX SM [E1 E2]].
  assert (RE : runs l = iruns l) by (apply runs_eq; exact SO). rewrite RE in *.
  pose proof (iruns_concat l) as CC.
  assert (OK : Forall (okrun k) (iruns l)) by (apply ok_runs; assumption).
  destruct l as [|s l]; [destruct HD; discriminate|]. destruct HD as [HD1 HD2]. cbn [is_hdr] in HD1. pose proof HD1 as HD3. apply Z.eqb_eq in HD3.
  assert (I0 : idx s = 0) by (unfold idx; rewrite HD3; reflexivity).
  assert (CH : chain (-1) (iruns (s :: l))).
  { cbn [ascending] in A. destruct A as [A1 A2]. apply chain_runs; [lia|cbn [ascending]; split; [lia|exact A2]]. }
  destruct (iruns (s :: l)) as [|h R]; [discriminate|]. exists h, R.
  destruct h as [|s' h]; [destruct CH|]. cbn [concat app] in CC. injection CC as CC1 CC2. subst s'.
  destruct CH as (C1 & C2 & C3). rewrite I0 in *.
  inversion OK as [|? ? OK1 OK2]; subst. inversion TI as [|? ? TI1 TI2]; subst.
  assert (SR : Forall (fun r => Forall sound r) R) by (eapply Forall_impl; [|exact OK2]; intros r X; exact (proj1 X)).
  assert (HH : Forall (fun s => p_type s = T_HDR) (s :: h)).
  { constructor; [exact HD3|]. destruct OK1 as [SH _]. inversion SH as [|? ? SH1 SH2]; subst. rewrite Forall_forall in *. intros x X.
    apply idx_type; [apply (C2 x X)|]. apply so_idx. apply SH2. exact X. }
  assert (NH : Forall (fun r => is_hdr r = false) R) by (apply (chain_pos R 0 C3); [lia|exact SR]).
  split; [reflexivity|]. split; [discriminate|]. split; [exact HH|]. split; [exact (proj1 OK1)|]. split; [exact OK1|]. split; [exact C3|].
  split.
  { intro E. subst R. destruct SM as (x & X1 & X2). cbn [concat] in X1. rewrite app_nil_r in X1. apply X2. rewrite Forall_forall in HH. apply HH. exact X1. }
  split.
  { rewrite Forall_forall in *. intros r X. split; [apply OK2; exact X|]. apply (proj2 (TI2 r X)). apply NH. exact X. }
  split; [exact NH|]. split; [exact HD2|reflexivity].
Qed.

Lemma table_regular : forall k m l, regular k m l -> ascending (-1) l ->
  let f := fill (2 ^ k) (positions (2 ^ k) (2 ^ m) l) st0 in let t := table (2 ^ k) (2 ^ m) l in
  s_done f ++ [s_cur f] = t /\ s_hdr f = headers (2 ^ k) (2 ^ m) l /\
  s_cb f = base_of 0x20000000 t /\ s_cs f = size_of_all 0x20000000 t /\ s_db f = base_of 0x40 t /\ s_ds f = size_of_all 0x40 t.
Proof.
  intros k m l RG A. destruct (regular_split k m l RG A) as (h & R & RE & HN & HH & SH & OKH & CH & RN & TR & NH & EX & CC).
  destruct RG as [K M SO TI HD FX SM [E1 E2]]. unfold positions, table, headers. rewrite RE in *. clear TI HD SM.
  cbn [bases ends filter flat_map map snd] in *. cbv zeta in *.
  assert (HB : is_hdr h = true /\ is_bss h = false).
  { destruct h as [|s h]; [congruence|]. cbn [is_hdr is_bss]. unfold bss. rewrite (Forall_inv HH). split; reflexivity. }
  destruct HB as [HB1 HB2]. rewrite HB1, HB2 in *. cbn [negb].
  assert (AP : 0 < Z.max (2 ^ k) (match h with s :: _ => 2 ^ p_align s | [] => 1 end)) by (pose proof (pow_pos k ltac:(lia)); lia).
  rewrite !(up_zero (2 ^ m)) in * by (apply pow_pos; lia). rewrite !(up_zero _ AP) in *. rewrite !Z.add_0_l in *.
  rewrite filter_bases by exact NH. rewrite fill_hdr by exact HH.
  change (fun x : Z * Z * list seg => let '(b, f, r) := x in lay b f 0 r) with alone.
  assert (L31 : 2 ^ 31 = 2147483648) by reflexivity. change (2 ^ 30) with 1073741824 in *.
  pose proof (fill_all k m R 0 (extent 0 h) (extent 0 h) st0 K M CH ltac:(lia) TR RN) as F. cbv zeta in F.
  destruct F as (Q1 & Q2 & Q3 & Q4 & Q5 & Q6); try assumption; try reflexivity; try (cbn; lia); try (unfold LIM; lia).
  split; [exact Q1|]. split; [rewrite Q2; reflexivity|]. split; [rewrite Q3; reflexivity|]. split; [rewrite Q4; reflexivity|].
  split; [rewrite Q5; reflexivity|]. rewrite Q6; reflexivity.
Qed.

(** ** The number of sections *)

Definition six : list Z := [T_CODE; T_CDATA; T_DATA; T_BSS; T_RSRC; T_RELOC].

Lemma chain_above : forall R i, chain i R -> Forall (fun r => match r with s :: _ => i < idx s | [] => False end) R.
Proof.
  induction R as [|r R IH]; intros i CH; [constructor|]. destruct r as [|s r]; [destruct CH|]. destruct CH as (C1 & C2 & C3).
  constructor; [exact C1|]. specialize (IH _ C3). eapply Forall_impl; [|exact IH]. intros [|x u]; [tauto|]. lia.
Qed.

Definition head_type (r : list seg) : Z := match r with s :: _ => p_type s | [] => 0 end.

Lemma chain_same : forall R i r, chain i R -> In r R -> exists s u, r = s :: u /\ Forall (fun x => idx x = idx s) u.
Proof.
  induction R as [|r0 R IH]; intros i r CH IN; [destruct IN|]. destruct r0 as [|s u]; [destruct CH|]. destruct CH as (C1 & C2 & C3).
  destruct IN as [IN|IN]; [subst r; exists s, u; split; [reflexivity|exact C2]|apply (IH (idx s)); assumption].
Qed.

Lemma chain_nodup : forall R i, chain i R -> NoDup (map head_type R).
Proof.
  induction R as [|r R IH]; intros i CH; [constructor|]. destruct r as [|s r]; [destruct CH|]. destruct CH as (C1 & C2 & C3).
  cbn [map]. constructor; [|apply (IH _ C3)]. intro IN. apply in_map_iff in IN as (r' & E & IN).
  pose proof (chain_above R _ C3) as AB. rewrite Forall_forall in AB. specialize (AB r' IN). destruct r' as [|x u]; [exact AB|].
  cbn [head_type] in E. unfold idx in AB. rewrite E in AB. lia.
Qed.

Lemma number_regular : forall k m l, regular k m l -> ascending (-1) l -> objects l = zlen (table (2 ^ k) (2 ^ m) l).
Proof.
  intros k m l RG A. destruct (regular_split k m l RG A) as (h & R & RE & HN & HH & SH & OKH & CH & RN & TR & NH & EX & CC).
  unfold table. rewrite RE. cbn [bases filter snd]. cbv zeta.
  assert (HB1 : is_hdr h = true) by (destruct h as [|s h]; [congruence|]; cbn [is_hdr]; rewrite (Forall_inv HH); reflexivity).
  rewrite HB1. cbn [negb]. rewrite filter_bases by exact NH.
  assert (BL : forall fa ma R b f, length (bases fa ma b f R) = length R).
  { intros fa ma. induction R0 as [|r R0 IH]; intros b f; [reflexivity|]. cbn [bases length]. cbv zeta. cbn [length]. rewrite IH. reflexivity. }
  unfold zlen. rewrite map_length, BL. rewrite <- (map_length head_type R).
  unfold objects. fold six. set (P := fun t => existsb (fun s => (p_type s =? t) && negb (p_size s =? 0)) l).
  assert (N6 : NoDup six) by (repeat constructor; cbn; intuition discriminate).
  assert (SRR : forall r, In r R -> Forall sound r) by (intros r X; rewrite Forall_forall in TR; apply (TR r X)).
  assert (ST : forall r x, In r R -> In x r -> p_type x = head_type r).
  { intros r x X Y. destruct (chain_same R 0 r CH X) as (s & u & E & F). subst r. cbn [head_type]. destruct Y as [Y|Y]; [subst; reflexivity|].
    rewrite Forall_forall in F. apply idx_type; [apply (F x Y)|]. apply so_idx. specialize (SRR _ X). rewrite Forall_forall in SRR. apply SRR. right. exact Y. }
  assert (I1 : incl (filter P six) (map head_type R)).
  { intros t X. apply filter_In in X as [X1 X2]. unfold P in X2. apply existsb_exists in X2 as (s & Y1 & Y2). apply andb_prop in Y2 as [Y2 Y3]. apply Z.eqb_eq in Y2.
    rewrite <- CC in Y1. cbn [concat] in Y1. apply in_app_or in Y1 as [Y1|Y1].
    - exfalso. rewrite Forall_forall in HH. specialize (HH s Y1). rewrite HH in Y2. subst t. cbn in X1. unfold T_HDR, T_CODE, T_CDATA, T_DATA, T_BSS, T_RSRC, T_RELOC in X1. intuition discriminate.
    - apply in_concat in Y1 as (r & Z1 & Z2). apply in_map_iff. exists r. split; [rewrite <- Y2; symmetry; apply ST; assumption|exact Z1]. }
  assert (I2 : incl (map head_type R) (filter P six)).
  { intros t X. apply in_map_iff in X as (r & E & X). apply filter_In.
    destruct (chain_same R 0 r CH X) as (s & u & E2 & F).
    assert (SS : sound s) by (specialize (SRR r X); rewrite E2 in SRR; exact (Forall_inv SRR)).
    assert (TS : p_type s = t) by (rewrite E2 in E; exact E).
    split.
    - assert (NT : t <> T_HDR).
      { rewrite Forall_forall in NH. specialize (NH r X). rewrite E2 in NH. cbn [is_hdr] in NH. apply Z.eqb_neq in NH. congruence. }
      destruct SS as [_ _ _ SK _]. rewrite TS in SK. unfold kinds in SK. cbn [In] in SK. unfold six, T_CODE, T_CDATA, T_DATA, T_BSS, T_RSRC, T_RELOC, T_HDR in *. cbn [In]. intuition congruence.
    - unfold P. apply existsb_exists. exists (last r s).
      assert (LI : In (last r s) r).
      { rewrite E2. clear. revert s. induction u as [|y u IH]; intro s; [left; reflexivity|]. right. change (last (s :: y :: u) s) with (last (y :: u) s).
        assert (Q : forall d1 d2, last (y :: u) d1 = last (y :: u) d2) by (clear; revert y; induction u as [|z u IH]; intros y d1 d2; [reflexivity|]; cbn [last] in *; apply IH).
        rewrite (Q s y). apply IH. }
      split; [rewrite <- CC; cbn [concat]; apply in_or_app; right; apply in_concat; exists r; split; assumption|].
      apply andb_true_intro. split; [apply Z.eqb_eq; rewrite (ST r (last r s) X LI); exact E|].
      rewrite Forall_forall in TR. destruct (TR r X) as [_ TL]. specialize (TL s). apply negb_true_iff. apply Z.eqb_neq. lia. }
  pose proof (NoDup_incl_length (NoDup_filter P N6) I1) as L1.
  pose proof (NoDup_incl_length (chain_nodup R 0 CH) I2) as L2. unfold zlen. f_equal. apply Nat.le_antisymm; assumption.
Qed.
