(** The image: segments, table, sizes and relocations together. *)
From Coq Require Import ZArith List Bool Lia Permutation Sorted.
From Verif Require Import Base Sort_Model Sort_Spec Sort_Proofs Pe_Model Pe_Spec PeReloc_Proofs PePlace_Proofs PeTable_Proofs PeAll_Proofs PeImage_Proofs.
Import ListNotations.
Open Scope Z_scope.

Local Arguments Z.pow : simpl never.
Local Arguments Z.div : simpl never.
Local Arguments Z.modulo : simpl never.

Lemma lay_bounds : forall r b f e q, Forall sound r -> In q (lay b f e r) ->
  b + e <= q_rva q /\ q_rva q + p_size (q_s q) <= b + extent e r.
Proof.
  induction r as [|s r IH]; intros b f e q F X; [destruct X|]. inversion F as [|? ? F1 F2]; subst. destruct F1 as [SA SS _ _ _].
  pose proof (up_bounds (2 ^ p_align s) e (pow_pos (p_align s) ltac:(lia))) as U.
  pose proof (extent_ge r (up (2 ^ p_align s) e + p_size s) (sized r F2)). pose proof (sizes_nonneg r (sized r F2)).
  cbn [lay extent] in *. destruct X as [X|X].
  - subst q. cbn [q_rva q_s]. lia.
  - specialize (IH _ _ _ _ F2 X). lia.
Qed.

Lemma bases_bounds : forall k m R b f b' f' r, 0 <= k -> 0 <= m -> Forall (okrun k) R -> In (b', f', r) (bases (2 ^ k) (2 ^ m) b f R) ->
  b <= b' /\ b' + extent 0 r <= fst (ends (2 ^ k) (2 ^ m) b f R).
Proof.
  intros k m. induction R as [|r0 R IH]; intros b f b' f' r K M OK X; [destruct X|]. inversion OK as [|? ? [O1 O2] O3]; subst.
  cbn [bases ends] in *. cbv zeta in *. pose proof (up_bounds (2 ^ m) b (pow_pos m M)) as U. pose proof (extent_nonneg r0 O1).
  destruct X as [X|X].
  - inversion X; subst. match goal with |- context [ends _ _ ?x ?y R] => pose proof (ends_ge k m R x y K M O3) end. lia.
  - specialize (IH _ _ _ _ _ K M O3 X). lia.
Qed.

Lemma regular_runs : forall k m l, regular k m l -> Forall (okrun k) (runs l).
Proof. intros k m l RG. destruct RG as [K M SO TI HD FX SM [E1 E2]]. rewrite runs_eq in * by exact SO. apply ok_runs; assumption. Qed.

Lemma positions_bounds : forall k m l q, regular k m l -> In q (positions (2 ^ k) (2 ^ m) l) ->
  0 <= q_rva q /\ q_rva q + p_size (q_s q) <= 2 ^ 30 /\ sound (q_s q).
Proof.
  intros k m l q RG X. pose proof (regular_runs k m l RG) as OK. destruct RG as [K M SO TI HD FX SM [E1 E2]].
  unfold positions in X. apply in_flat_map in X as ([[b f] r] & X1 & X2).
  destruct (bases_bounds k m (runs l) 0 0 b f r ltac:(lia) ltac:(lia) OK X1) as [B1 B2].
  assert (SR : Forall sound r) by (rewrite Forall_forall in OK; apply (OK r); eapply bases_in; exact X1).
  destruct (lay_bounds r b f 0 q SR X2) as [L1 L2]. split; [lia|]. split; [lia|].
  rewrite Forall_forall in SR. apply SR. eapply lay_in. exact X2.
Qed.

Lemma fix_count : forall pl, zlen (fixups pl) <= zlen (flat_map p_fix (map q_s pl)).
Proof.
  induction pl as [|q pl IH]; [reflexivity|]. unfold fixups in *. cbn [map flat_map]. rewrite !zlen_app.
  destruct (p_type (q_s q) =? T_HDR).
  - pose proof (zlen_nonneg (p_fix (q_s q))). change (zlen (@nil (Z * Z * Z))) with 0. lia.
  - unfold zlen at 1 3. rewrite map_length. lia.
Qed.

Lemma addresses_app : forall a b, addresses (a ++ b) = addresses a ++ addresses b.
Proof. intros. unfold addresses. apply flat_map_app. Qed.

Record image (k m : Z) (relocs : bool) (v : values) (l : list seg) : Prop := {
  im_segs : v_segs v = positions (2 ^ k) (2 ^ m) l;
  im_image : v_image v = up (2 ^ m) (fst (ends (2 ^ k) (2 ^ m) 0 0 (runs l)));
  im_table : v_table v = table (2 ^ k) (2 ^ m) l;
  im_number : v_number v = zlen (v_table v);
  im_headers : v_headers v = headers (2 ^ k) (2 ^ m) l;
  im_cb : v_cb v = base_of 0x20000000 (v_table v); im_cs : v_cs v = size_of_all 0x20000000 (v_table v);
  im_db : v_db v = base_of 0x40 (v_table v); im_ds : v_ds v = size_of_all 0x40 (v_table v);
  im_relocs : relocs = true -> exists l0 r b n, l = l0 ++ [r] /\ p_type r = T_RELOC /\ p_buf r = Some b /\ p_size r = zlen b /\
    decode n b = Some (addresses (v_segs v))
}.

Lemma objects_ext : forall a b, (forall t, existsb (fun s => (p_type s =? t) && negb (p_size s =? 0)) a = existsb (fun s => (p_type s =? t) && negb (p_size s =? 0)) b) ->
  objects a = objects b.
Proof. intros a b H. unfold objects. f_equal. apply filter_ext. exact H. Qed.

Lemma existsb_perm : forall (P : seg -> bool) a b, Permutation a b -> existsb P a = existsb P b.
Proof.
  intros P a b H. apply eq_true_iff_eq. rewrite !existsb_exists. split; intros (x & X1 & X2); exists x; split; try assumption;
    [eapply Permutation_in; eassumption|eapply Permutation_in; [apply Permutation_sym; eassumption|assumption]].
Qed.

Lemma objects_reloc : forall a r, Forall (fun s => p_type s <> T_RELOC) a -> p_type r = T_RELOC -> p_size r <> 0 -> objects (a ++ [r]) = objects a + 1.
Proof.
  intros a r NR TR SR. unfold objects.
  assert (E : forall t, t <> T_RELOC -> existsb (fun s => (p_type s =? t) && negb (p_size s =? 0)) (a ++ [r]) = existsb (fun s => (p_type s =? t) && negb (p_size s =? 0)) a).
  { intros t T. rewrite existsb_app. cbn [existsb]. rewrite TR. assert (F : (T_RELOC =? t) = false) by (apply Z.eqb_neq; congruence). rewrite F. cbn [andb orb]. apply orb_false_r. }
  assert (E1 : existsb (fun s => (p_type s =? T_RELOC) && negb (p_size s =? 0)) (a ++ [r]) = true).
  { rewrite existsb_app. cbn [existsb]. rewrite TR, Z.eqb_refl. apply Z.eqb_neq in SR. rewrite SR. cbn. apply orb_true_r. }
  assert (E2 : existsb (fun s => (p_type s =? T_RELOC) && negb (p_size s =? 0)) a = false).
  { apply not_true_is_false. intro H. apply existsb_exists in H as (x & X1 & X2). apply andb_prop in X2 as [X2 _]. apply Z.eqb_eq in X2. rewrite Forall_forall in NR. exact (NR x X1 X2). }
  cbn [filter]. rewrite !E by (unfold T_CODE, T_CDATA, T_DATA, T_BSS, T_RSRC, T_RELOC; lia). rewrite E1, E2.
  repeat match goal with |- context [if existsb ?f a then _ else _] => destruct (existsb f a) end; reflexivity.
Qed.

Lemma asc_eq : forall l l', map idx l = map idx l' -> forall i, ascending i l -> ascending i l'.
Proof.
  induction l as [|s l IH]; intros [|s' l'] E i A; try discriminate; [exact Logic.I|]. cbn [map] in E. injection E as E1 E2.
  cbn [ascending] in *. rewrite E1 in A. destruct A as [A1 A2]. split; [exact A1|]. apply (IH _ E2). exact A2.
Qed.

Lemma sorted_neg : forall l, StronglySorted (fun a b => gt_model a b = false) l -> ascending (-1) l.
Proof.
  intros l S0. apply sorted_asc; [exact S0|]. destruct l as [|s l]; [exact Logic.I|]. unfold idx, lname_idx, T_ERROR.
  repeat match goal with |- context [if ?c then _ else _] => destruct c; [lia|] end. lia.
Qed.

Lemma values_ok : forall relocs k m segs v, 0 <= k <= 16 -> Forall (fun s => retype s <> T_RELOC) segs ->
  pe_set_values relocs (2 ^ k) (2 ^ m) segs = Some v -> regular k m (map q_s (v_segs v)) -> image k m relocs v (map q_s (v_segs v)).
Proof.
  intros relocs k m segs v K0 NR E RG. pose proof (typed_other segs NR) as NT.
  destruct relocs.
  - destruct (values_relocs k m segs K0) as (l & ST & VR).
    pose proof ST as (PM & SS & _). pose proof (sorted_neg l SS) as A.
    pose proof (place_segs k (2 ^ m) l true (-1) 0 0) as PS.
    destruct (place k (2 ^ m) true (-1) 0 0 l) as [pl rva] eqn:PL. cbn [fst] in PS.
    destruct (base_relocs pl) as [size b] eqn:BR. rewrite VR in E. injection E as E. subst v.
    cbn [values_of v_segs] in RG |- *.
    assert (LM : map q_s (map (set_reloc size b) pl) = map (with_relocs size b) l).
    { rewrite <- PS, !map_map. apply map_ext. intro. apply set_reloc_seg. }
    rewrite LM in *.
    assert (NI : Forall (fun s => idx s <> 10) l).
    { pose proof (re_sound _ _ _ RG) as SO. rewrite Forall_forall in *. intros s X.
      specialize (SO (with_relocs size b s) (in_map _ _ _ X)). apply so_idx in SO. intro H. apply SO.
      pose proof (with_key size b s) as WK. unfold sort_key in WK. injection WK as WK _. congruence. }
    destruct (relocs_last (typed segs) l ST NT NI) as (l0 & LE & P0). rewrite LE in *.
    assert (N0 : Forall (fun s => p_type s <> T_RELOC) l0).
    { rewrite Forall_forall in *. intros s X. apply NT. apply (Permutation_in _ (Permutation_sym P0)). exact X. }
    assert (L1 : map (with_relocs size b) (l0 ++ [reloc_seg]) = l0 ++ [with_relocs size b reloc_seg]).
    { rewrite map_app. cbn [map]. f_equal. rewrite <- (map_id l0) at 2. apply map_ext_in. intros s X. unfold with_relocs.
      rewrite Forall_forall in N0. specialize (N0 s X). apply Z.eqb_neq in N0. rewrite N0. reflexivity. }
    rewrite L1 in *. set (r1 := with_relocs size b reloc_seg) in *.
    assert (SZ : 0 <= size).
    { pose proof (re_sound _ _ _ RG) as SO. apply Forall_app in SO as [_ SO]. exact (so_size r1 (Forall_inv SO)). }
    destruct (place_relocs k m l0 size b RG A N0 SZ) as (pl0 & q & z & P1 & P2 & P3 & P4 & P5). fold r1 in P4, P5.
    rewrite PL in P1. injection P1 as P1 P1'. subst pl.
    assert (PP : map (set_reloc size b) (pl0 ++ [q]) = positions (2 ^ k) (2 ^ m) (l0 ++ [r1])).
    { rewrite P4, map_app. cbn [map]. f_equal. rewrite <- (map_id pl0) at 2. apply map_ext_in. intros x X. apply set_reloc_id.
      rewrite Forall_forall in P3. apply P3. exact X. }
    rewrite PP in *.
    assert (A' : ascending (-1) (l0 ++ [r1])).
    { apply (asc_eq (l0 ++ [reloc_seg])); [rewrite !map_app; reflexivity|exact A]. }
    destruct (table_regular k m (l0 ++ [r1]) RG A') as (Q1 & Q2 & Q3 & Q4 & Q5 & Q6).
    assert (FI : find (fun q => p_type (q_s q) =? T_RELOC) (pl0 ++ [q]) = Some q).
    { clear - P3 P2. induction pl0 as [|x pl0 IH]; cbn [app find]; [rewrite P2; reflexivity|].
      inversion P3 as [|? ? X1 X2]; subst. apply Z.eqb_neq in X1. rewrite X1. apply IH. exact X2. }
    rewrite FI. unfold values_of.
    assert (QB : 0 <= q_rva q /\ q_rva q + size <= 2 ^ 30).
    { assert (IN : In (set_reloc size b q) (positions (2 ^ k) (2 ^ m) (l0 ++ [r1]))) by (rewrite P4; apply in_or_app; right; left; reflexivity).
      destruct (positions_bounds k m _ _ RG IN) as (B1 & B2 & _). unfold set_reloc in B1, B2. rewrite P2 in B1, B2. exact (conj B1 B2). }
    destruct QB as [QB1 QB2].
    assert (ZP : p_size r1 <> 0).
    { destruct (regular_split k m _ RG A') as (h & R & RE & HN & HH & SH & OKH & CH & RN & TR & NH & EX & CC).
      pose proof (re_tidy _ _ _ RG) as TD.
      assert (RR : runs (l0 ++ [r1]) = iruns l0 ++ [[r1]]).
      { rewrite runs_eq by (apply (re_sound _ _ _ RG)). apply iruns_snoc. rewrite Forall_forall in *. intros s X E. apply (N0 s X).
        apply idx_type; [exact E|]. apply NI. apply in_or_app. left. exact X. }
      rewrite RR in TD. apply Forall_app in TD as [_ TD]. destruct (Forall_inv TD) as [_ TD2]. specialize (TD2 eq_refl r1). cbn [last] in TD2. lia. }
    constructor; cbn [v_segs v_table v_number v_image v_headers v_cb v_cs v_db v_ds]; try rewrite Q1; try assumption; try reflexivity.
    + rewrite P5. change (2 ^ 30) with 1073741824 in *. rewrite wrap_small by (change (2 ^ 32) with 4294967296; lia).
      apply round_ok; [unfold LIM; change (2 ^ 31) with 2147483648; lia|]. pose proof (re_k _ _ _ RG). pose proof (re_m _ _ _ RG). lia.
    + rewrite <- (number_regular k m _ RG A'). rewrite objects_reloc by (assumption || reflexivity).
      f_equal. apply objects_ext. intro. apply existsb_perm. exact P0.
    + intros _. exists l0, r1, b.
      assert (FX : Forall fix_in (pl0 ++ [q])).
      { apply Forall_app. split.
        - apply Forall_forall. intros x X.
          assert (IN : In x (positions (2 ^ k) (2 ^ m) (l0 ++ [r1]))) by (rewrite P4; apply in_or_app; left; exact X).
          destruct (positions_bounds k m _ _ RG IN) as (B1 & B2 & B3). split; [exact B1|]. pose proof (so_fix _ B3) as B4.
          eapply Forall_impl; [|exact B4]. intros f [F1 F2]. change (2 ^ 30) with 1073741824 in *. change (2 ^ 31) with 2147483648. lia.
        - constructor; [|constructor]. split; [exact QB1|]. rewrite P2. constructor. }
      assert (CT : 12 * zlen (fixups (pl0 ++ [q])) < 2 ^ 31).
      { pose proof (fix_count (pl0 ++ [q])) as C1. rewrite PS in C1. pose proof (re_fix _ _ _ RG) as C2.
        rewrite flat_map_app in C1, C2. change (flat_map p_fix [r1]) with (flat_map p_fix [reloc_seg]) in C2. lia. }
      pose proof (relocs_ok (pl0 ++ [q]) FX CT) as RO. rewrite BR in RO. destruct RO as (R1 & R2 & R3 & (n & R4)). exists n.
      split; [reflexivity|]. split; [reflexivity|]. split; [reflexivity|]. split; [symmetry; exact R1|].
      rewrite R4. f_equal. rewrite P4, !addresses_app. f_equal. unfold addresses, set_reloc. cbn [flat_map]. rewrite P2. reflexivity.
  - destruct (values_plain k m segs K0) as (l & ST & VR).
    pose proof ST as (PM & SS & _). pose proof (sorted_neg l SS) as A.
    pose proof (place_segs k (2 ^ m) l true (-1) 0 0) as PS.
    destruct (place k (2 ^ m) true (-1) 0 0 l) as [pl rva] eqn:PL. cbn [fst] in PS.
    rewrite VR in E. injection E as E. subst v. cbn [values_of v_segs] in RG |- *. rewrite PS in *.
    rewrite (place_regular k m l RG A) in PL. injection PL as PL1 PL2. subst pl rva.
    destruct (table_regular k m l RG A) as (Q1 & Q2 & Q3 & Q4 & Q5 & Q6).
    constructor; cbn [values_of v_segs v_table v_number v_image v_headers v_cb v_cs v_db v_ds]; try rewrite Q1; try assumption; try discriminate; try reflexivity.
    + pose proof (re_end _ _ _ RG) as [E1 _].
      assert (E0 : 0 <= fst (ends (2 ^ k) (2 ^ m) 0 0 (runs l))).
      { pose proof (re_k _ _ _ RG). apply (ends_ge k m (runs l) 0 0 ltac:(lia) ltac:(lia) (regular_runs k m l RG)). }
      apply round_ok; [change (2 ^ 30) with 1073741824 in *; unfold LIM; change (2 ^ 31) with 2147483648; lia|]. pose proof (re_k _ _ _ RG). pose proof (re_m _ _ _ RG). lia.
    + rewrite <- (number_regular k m _ RG A). rewrite Z.add_0_r. apply objects_ext. intro. apply existsb_perm. exact PM.
Qed.
