From Coq Require Import Permutation Sorted.
From Verif Require Import Base Sort_Model Sort_Spec Sort_Proofs Data_Proofs Bin_Model Bin_Spec Bin_Proofs BinFix_Proofs BinFile_Proofs BinMz_Proofs BinTop_Proofs BinHdr_Proofs BinAll_Proofs.

Lemma sites_perm : forall ss l l', Permutation l l' -> zlen (sites ss l') = zlen (sites ss l).
Proof. intros ss l l' P. unfold zlen. f_equal. apply Permutation_length. symmetry. unfold sites. apply Permutation_flat_map. exact P. Qed.
Lemma prepare_same : forall ss n fmt d k, segment (snd (initial fmt d n ss)) k = nth k (map prepare ss) no_seg.
Proof. intros. unfold segment. rewrite (proj1 (initial_segs fmt d n ss)). reflexivity. Qed.
Lemma count_ok : forall d n ss l, Permutation (seq 0 (length ss)) l -> zlen (sites (map prepare ss) l) < 2 ^ 16 -> reloc_count MZ d n ss = zlen (sites (map prepare ss) l) /\ header MZ d n ss = mz_sizehdr d (zlen (sites (map prepare ss) l)).
Proof.
  intros d n ss l P H. assert (reloc_count MZ d n ss = zlen (sites (map prepare ss) l)) as E.
  { unfold reloc_count, initial. cbn [fst].
    match goal with |- context [GetSegRelocs ?a ?b] => rewrite (sites_count (map prepare ss) a b) end.
    - unfold zlen at 1. rewrite map_length. fold (zlen (sites (map prepare ss) (seq 0 (length (map prepare ss))))). rewrite map_length, (sites_perm _ _ _ (Permutation_sym P)). apply wrap_small. split; [apply zlen_nonneg|exact H].
    - intros k. apply placed_refl. }
  split; [exact E|]. rewrite <- E. reflexivity.
Qed.
Lemma Forall2_map_r : forall A B (f : A -> B) (P : A -> B -> Prop) l, (forall x, In x l -> P x (f x)) -> Forall2 P l (map f l).
Proof. intros A B f P l H. induction l as [|x l IH]; constructor; [apply H; left; reflexivity|]. apply IH. intros y Y. apply H. right. exact Y. Qed.
Lemma sites_in : forall ss l k f, In (k, f) (sites ss l) -> In k l /\ real ss k = true /\ In f (s_fix (nth k ss no_seg)) /\ needs ss f = true.
Proof.
  intros ss l k f H. unfold sites in H. apply in_flat_map in H. destruct H as (j & J & H). destruct (real ss j) eqn:R; [|destruct H]. apply in_map_iff in H. destruct H as (g & E & H). injection E as -> ->. apply filter_In in H.
  destruct H. auto.
Qed.
Lemma word_same : forall f h p, byte_at f p = byte_at h p -> byte_at f (p + 1) = byte_at h (p + 1) -> word_at f p = word_at h p.
Proof. intros f h p A B. unfold word_at. rewrite A, B. reflexivity. Qed.
Lemma entries_same : forall n f h p lim, (forall q, q < lim -> byte_at f q = byte_at h q) -> p + 4 * Z.of_nat n <= lim -> entries n f p = entries n h p.
Proof.
  induction n as [|n IH]; intros f h p lim H L; [reflexivity|]. cbn [entries]. rewrite (IH f h (p + 4) lim H) by lia. rewrite (word_same f h p), (word_same f h (p + 2)) by (apply H; lia). reflexivity.
Qed.
Lemma find_placed : forall ss im l, (forall k, placed (nth k ss no_seg) (segment im k)) -> find (fun k => s_stack (segment im k)) l = find (fun k => s_stack (nth k ss no_seg)) l.
Proof. intros ss im l H. induction l as [|k l IH]; [reflexivity|]. cbn [find]. destruct (H k) as (a & b & c & ->). cbn [place s_stack]. rewrite IH. reflexivity. Qed.
Lemma min_alloc_ok : forall d heap m, 0 <= heap <= 16 * m -> m < 2 ^ 16 -> 0 <= heapmin d < 2 ^ 16 -> heap <= 16 * min_alloc d heap /\ min_alloc d heap <= Z.max (heapmin d) m.
Proof.
  intros d heap m H M HM. change (2 ^ 16) with 65536 in *. unfold min_alloc. pose proof (Z.div_mod heap 16 ltac:(lia)). pose proof (Z.mod_pos_bound heap 16 ltac:(lia)).
  destruct (Z.eqb_spec (heap mod 16) 0); rewrite wrap_small by (change (2 ^ 16) with 65536; lia); destruct (Z.ltb_spec (heap / 16 + 0) (heapmin d)); destruct (Z.ltb_spec (heap / 16 + 1) (heapmin d)); lia.
Qed.
Lemma min_alloc_low : forall d heap, 0 <= heapmin d -> heapmin d <= min_alloc d heap.
Proof. intros d heap H. unfold min_alloc. match goal with |- context [if ?x <? ?y then _ else _] => destruct (Z.ltb_spec x y) end; lia. Qed.

Theorem mz_ok_file : forall d flat o n ss start l ks im file, mz_ok d -> program_ok n ss -> laid_out MZ d flat o n ss l ks im ->
  (forall s, In s ss -> whole MZ (prepare s)) -> (forall s, In s ss -> fixups_ok MZ s) -> buffers_ok ss -> locations_ok ss -> zlen (sites (map prepare ss) l) < 2 ^ 16 ->
  bin_write_module MZ d flat o n ss start = Ok file ->
  file_ok MZ (header MZ d n ss) l im file /\ mz_file d (header MZ d n ss) (map prepare ss) l im start file.
Proof.
  intros d flat o n ss start l ks im file HM PO L W FO BO LO CT E. pose proof (module_eq MZ d flat o n ss start l ks im L) as ME. rewrite ME in E. clear ME.
  destruct (fix_all MZ l l im) as [bufs| |] eqn:FA; [|discriminate E|discriminate E]. cbn [bindr] in E.
  destruct (laid_out_segs _ _ _ _ _ _ _ _ _ L) as (P & ND & RE & IL). pose proof (lo_same _ _ _ _ _ _ _ _ _ L) as SA. pose proof (sites_count (map prepare ss) l im SA) as SC.
  destruct (count_ok d n ss l (lo_perm _ _ _ _ _ _ _ _ _ L) CT) as [CE CH]. pose proof (lo_hdr _ _ _ _ _ _ _ _ _ L) as LH. pose proof (lo_addr _ _ _ _ _ _ _ _ _ L) as AO.
  assert (zlen (GetSegRelocs l im) = zlen (sites (map prepare ss) l)) as ZR by (rewrite SC; unfold zlen; rewrite map_length; reflexivity).
  assert (forall k, (k < length ss)%nat -> real (map prepare ss) k = true -> In (nth k ss no_seg) ss /\ s_type (prepare (nth k ss no_seg)) <> 5) as RT.
  { intros k K R. split; [apply nth_In; exact K|]. unfold real in R. rewrite nth_prepare in R by exact K. apply negb_true_iff, Z.eqb_neq in R. exact R. }
  assert (forall k f, In (k, f) (sites (map prepare ss) l) -> 0 <= f_locofs f /\ base im k + f_locofs f + 40 < 2 ^ 32) as LB.
  { intros k f KF. destruct (sites_in _ _ _ _ KF) as (K & R & F & _). pose proof (proj1 (IL k) K) as KL. destruct (RT k KL R) as [IN NT].
    rewrite nth_prepare in F by exact KL. specialize (LO _ IN NT f F). pose proof (lo_base _ _ _ _ _ _ _ _ _ L k) as BB.
    destruct (lo_size _ _ _ _ _ _ _ _ _ L k ltac:(apply (Permutation_in _ P); exact K) ltac:(rewrite RE; exact R)) as [_ SZ]. destruct (SA k) as (a & b & c & EQ). rewrite EQ in SZ. cbn [place s_max_offset] in SZ. rewrite nth_prepare in SZ by exact KL. cbn [prepare s_max_offset] in SZ.
    change (2 ^ 31) with 2147483648 in *. change (2 ^ 30) with 1073741824 in *. change (2 ^ 32) with 4294967296. lia. }
  assert (forall oo s, In (oo, s) (GetSegRelocs l im) -> 0 <= oo < 2 ^ 16 /\ 0 <= s < 2 ^ 16) as RB.
  { intros oo s OS. rewrite SC in OS. apply in_map_iff in OS. destruct OS as ([k f] & EQ & KF). cbn [fst snd] in EQ. destruct (LB k f KF) as [L1 L2]. pose proof (reloc_ok im k f AO L1 L2) as RO. rewrite EQ in RO. tauto. }
  rewrite CE in E. destruct (header_ok d l im (zlen (sites (map prepare ss) l)) start HM (eq_sym ZR) CT ltac:(rewrite LH; exact CH) RB) as (h & HE & HL & H0 & H1 & H2 & H3 & H4 & H5 & H6 & H7 & H8 & H9 & H10 & H11).
  rewrite HE in E. cbn [bindr] in E. rewrite LH in *.
  destruct (sections_ok MZ d flat o n ss l ks im bufs h file ltac:(intros _; exact HM) PO L W FO FA HL E) as [FK FB]. split; [exact FK|].
  pose proof HM as (OF & AL & _ & HMN & HMX). destruct (sizehdr_ok d _ HM ltac:(split; [apply (zlen_nonneg (sites (map prepare ss) l))|exact CT])) as [SB _]. rewrite <- CH in SB. pose proof (zlen_nonneg (sites (map prepare ss) l)) as Z0.
  assert (forall p, p <= 24 -> word_at file p = word_at h p) as WD by (intros p Pp; apply word_same; apply FB; lia).
  pose proof (laid_small _ _ _ _ _ _ _ _ _ ltac:(intros _; exact HM) PO L) as SM.
  assert (has_data im l) as HD.
  { intros k K WR. pose proof (proj1 (IL k) K) as KL. assert (s_written (segment im k) = s_written (nth k ss no_seg)) as EW by (destruct (SA k) as (a & b & c & ->); cbn [place s_written]; rewrite nth_prepare by exact KL; reflexivity). rewrite EW in WR.
    destruct (proj1 (BO (nth k ss no_seg) ltac:(apply nth_In; exact KL)) WR) as [B1 B2].
    assert (real (map prepare ss) k = true) as R by (unfold real; rewrite nth_prepare by exact KL; apply negb_true_iff, Z.eqb_neq; exact B1). split; [rewrite RE; exact R|].
    assert (In k ks) as KS by (apply (Permutation_in _ P); exact K). apply in_split in KS. destruct KS as (pre & post & KS).
    pose proof (pl_org _ _ _ _ _ _ _ _ (placement_ok MZ d flat o n ss l ks im ltac:(intros _; exact HM) PO L) pre k post KS) as OG. destruct (proj1 PO (nth k ss no_seg) ltac:(apply nth_In; exact KL)) as (_ & _ & SO). destruct (SO B1) as (_ & SL & _).
    unfold extent. rewrite OG. destruct (SA k) as (a & b & c & ->). cbn [place s_max_offset]. rewrite nth_prepare by exact KL. cbn [prepare s_max_offset s_start_loc]. match goal with |- context [if ?x then _ else _] => destruct x end; lia.
  }
  assert (forall k, emits im l k -> exists b, s_buf (segment im k) = Some b) as EB.
  { intros k EM. destruct (emits_in _ _ _ EM) as (K & R & X). pose proof (proj1 (IL k) K) as KL. rewrite RE in R. destruct (RT k KL R) as [IN NT]. destruct (proj2 (BO _ IN) NT) as (b & SBF).
    - pose proof (lo_size _ _ _ _ _ _ _ _ _ L k ltac:(apply (Permutation_in _ P); exact K) ltac:(rewrite RE; exact R)) as [SZ _]. unfold extent in X. destruct (SA k) as (x & y & z & EQ). rewrite EQ in X, SZ. cbn [place s_max_offset s_start_loc] in X, SZ. rewrite nth_prepare in X, SZ by exact KL. cbn [prepare s_max_offset] in X, SZ. lia.
    - exists b. destruct (SA k) as (x & y & z & ->). cbn [place s_buf]. rewrite nth_prepare by exact KL. exact SBF. }
  destruct (size_file_end im l SM HD (lo_sorted _ _ _ _ _ _ _ _ _ L)) as [T1 T2]. destruct FK as [_ _ (FL1 & FL2 & FL3)].
  assert (forall k b, emits im l k -> s_buf (segment im k) = Some b -> GetImageSize false l im = zlen file) as TS.
  { intros k b EM SBF. pose proof (T1 k EM) as X1. pose proof (FL2 k b EM SBF) as X2. destruct (emits_in _ _ _ EM) as (K & R & X). destruct (laid_fits _ _ _ _ _ _ _ _ _ L W) as [FH _]. pose proof (FH k K R) as X3. pose proof (header_range MZ d n ss ltac:(intros _; exact HM)) as HR.
    destruct T2 as [T2|(j & EJ & T2)]; [lia|]. destruct (EB j EJ) as (bj & BJ). pose proof (FL2 j bj EJ BJ) as X4. destruct FL3 as [FL3|(i & bi & EI & BI & FL3)]; [lia|]. pose proof (T1 i EI). lia. }
  constructor.
  - rewrite WD by lia. exact H0.
  - rewrite !WD by lia. split; [exact H3|exact H4].
  - intros k b EM SBF SZ. pose proof (TS k b EM SBF) as TE. unfold header_size. rewrite !WD by lia. fold (header_size h). rewrite <- TE. apply H1. rewrite TE. split; [apply zlen_nonneg|exact SZ].
  - rewrite WD by lia. exact H2.
  - rewrite !WD by lia. rewrite H2, H4. rewrite (entries_same _ file h _ (header MZ d n ss) FB) by lia. rewrite H5, SC. apply Forall2_map_r. intros [k f] KF. cbn [fst snd]. destruct (LB k f KF) as [L1 L2].
    pose proof (reloc_ok im k f AO L1 L2) as RO. pose proof (reloc_exact im k f AO L1) as RX. destruct (reloc_entry im (segment im k) f) as [oo sg]. split; [apply RO|exact RX].
  - destruct start as [[k oo]|].
    + intros CF IPR. rewrite !WD by lia. rewrite H10, H11. pose proof (start_linear im k oo AO) as SL. destruct AO as [A1 A2]. unfold code_frame in *.
      assert (snd (start_seg im (Some (k, oo))) = match s_grp (segment im k) with Some g => g_offset (group_of im g) | None => s_start (segment im k) end / 16) as SS by (unfold start_seg; destruct (s_grp (segment im k)); cbn [snd]; rewrite Z.shiftr_div_pow2 by lia; reflexivity).
      rewrite SS in *. set (fr := match s_grp (segment im k) with Some g => g_offset (group_of im g) | None => s_start (segment im k) end) in *.
      assert (0 <= fr) as F0 by (unfold fr; destruct (s_grp (segment im k)); [apply A2|apply A1]). unfold linear in *. pose proof (Z.div_mod fr 16 ltac:(lia)). pose proof (Z.mod_pos_bound fr 16 ltac:(lia)). pose proof (Z.div_pos fr 16 F0 ltac:(lia)).
      change (2 ^ 20) with 1048576 in *. change (2 ^ 16) with 65536 in *. rewrite (Z.mod_small (fr / 16)) by lia. rewrite Z.mod_small by lia. split; [lia|reflexivity].
    + rewrite !WD by lia. rewrite H10, H11. split; reflexivity.
  - rewrite <- (find_placed (map prepare ss) im l SA). rewrite !WD by lia. rewrite H8, H9. destruct (find (fun k => s_stack (segment im k)) l) as [k|] eqn:FS.
    + destruct (stack_para l im k AO FS) as [S1 S2]. split; [|rewrite S2; destruct (SA k) as (x & y & z & ->); reflexivity]. intros B0. destruct AO as [A1 _]. destruct (A1 k) as [_ BP]. change (2 ^ 20) with 1048576 in *. change (2 ^ 16) with 65536 in *. rewrite Z.mod_small by lia. exact S1.
    + unfold stack_seg. rewrite FS. split; reflexivity.
  - rewrite !WD by lia. rewrite H6, H7. split; [apply min_alloc_low; lia|reflexivity].
  - intros m NOORG (k0 & b0 & EM & SBF) FITS MB. rewrite !WD by lia. rewrite H6. pose proof (TS k0 b0 EM SBF) as TE.
    assert (forall k, In k l -> real (segs im) k = true -> s_start_loc (segment im k) = 0) as NO' by (intros k K R; apply NOORG; [exact K|rewrite <- RE; exact R]).
    destruct (size_memory im l true 0 SM NO' ltac:(lia)) as (M0 & M1 & M2). fold (GetImageSize true l im) in M0, M1, M2.
    destruct (emits_in _ _ _ EM) as (K0 & R0 & X0).
    assert (zlen file <= GetImageSize true l im) as ME.
    { destruct FL3 as [FL3|(i & bi & EI & BI & FL3)].
      - pose proof (FL2 k0 b0 EM SBF) as X2. destruct (laid_fits _ _ _ _ _ _ _ _ _ L W) as [FH _]. pose proof (FH k0 K0 R0). lia.
      - destruct (emits_in _ _ _ EI) as (Ki & Ri & _). pose proof (M1 i Ki Ri). unfold extent in FL3. rewrite (NO' i Ki Ri) in FL3. lia. }
    assert (GetImageSize true l im - zlen file <= 16 * m) as MM.
    { destruct M2 as [M2|(k & K & R & M2)]; [lia|]. specialize (FITS k K ltac:(rewrite <- RE; exact R)). lia. }
    change (2 ^ 16) with 65536 in *. rewrite TE. rewrite (wrap_small 32) by (change (2 ^ 32) with 4294967296; lia).
    destruct (min_alloc_ok d (GetImageSize true l im - zlen file) m ltac:(lia) ltac:(change (2 ^ 16) with 65536; lia) ltac:(change (2 ^ 16) with 65536; lia)) as [MA MB']. split; [|exact MB'].
    intros k K R. specialize (M1 k K ltac:(rewrite RE; exact R)). lia.
Qed.
