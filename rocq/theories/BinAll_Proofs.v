From Coq Require Import Permutation Sorted.
From Verif Require Import Base Sort_Model Sort_Spec Sort_Proofs Data_Proofs Bin_Model Bin_Spec Bin_Proofs BinFix_Proofs BinFile_Proofs BinMz_Proofs BinTop_Proofs BinHdr_Proofs.

Lemma placement_ok : forall fmt d flat o n ss l ks im, (fmt = MZ -> mz_ok d) -> program_ok n ss -> laid_out fmt d flat o n ss l ks im -> placement fmt flat o (header fmt d n ss) (map prepare ss) l ks im.
Proof.
  intros fmt d flat o n ss l ks im HM PO L. destruct (initial_segs fmt d n ss) as (E1 & E2 & E3 & E4 & E5). pose proof (lo_im _ _ _ _ _ _ _ _ _ L) as IM. pose proof (lo_ready _ _ _ _ _ _ _ _ _ L) as RD.
  destruct (ready_initial fmt d n ss ks HM PO (proj1 (lo_order _ _ _ _ _ _ _ _ _ L))) as (_ & _ & _ & AB).
  assert (sizehdr (cp (snd (initial fmt d n ss))) = header fmt d n ss) as SH by reflexivity. pose proof (lo_hdr _ _ _ _ _ _ _ _ _ L) as LH.
  set (im0 := snd (initial fmt d n ss)) in *. assert (forall k, segment im0 k = nth k (map prepare ss) no_seg) as SG by (intros k; unfold segment; rewrite E1; reflexivity).
  assert (forall k, s_grp (segment im k) = s_grp (nth k (map prepare ss) no_seg)) as GE by (intros k; destruct (lo_same _ _ _ _ _ _ _ _ _ L k) as (x & y & z & ->); reflexivity).
  constructor.
  - rewrite map_length. apply (lo_order _ _ _ _ _ _ _ _ _ L).
  - rewrite map_length. split; [apply (lo_perm _ _ _ _ _ _ _ _ _ L)|apply (lo_list _ _ _ _ _ _ _ _ _ L)].
  - apply (lo_sorted _ _ _ _ _ _ _ _ _ L).
  - intros k. apply placed_unplaced. apply (lo_same _ _ _ _ _ _ _ _ _ L).
  - apply (lo_packed _ _ _ _ _ _ _ _ _ L).
  - intros pre k post EK. subst ks. rewrite IM. rewrite (calc_loc fmt flat pre k post im0 _ RD). rewrite E3, E1, !SG. cbn [andb].
    destruct (real (map prepare ss) k); cbn [negb orb andb]; [|reflexivity]. destruct (keeps_org _ _ _); reflexivity.
  - intros k K RK NG. unfold base. rewrite GE, NG, Z.add_0_r. rewrite <- LH. rewrite IM. apply (calc_start_nogroup fmt flat ks im0 _ RD k K); [rewrite E1; exact RK|rewrite SG; exact NG].
  - intros k K RK. rewrite IM. rewrite (calc_start_abs fmt flat ks im0 _ RD k K) by (rewrite E1; exact RK). rewrite SG. apply Z.mod_small. specialize (AB k RK). change (2 ^ 16) with 65536 in AB. change (2 ^ 32) with 4294967296. lia.
  - intros pre mid k post g EK RK GK MK HP HMD. subst ks. rewrite <- LH. rewrite IM. apply (calc_base_group fmt flat pre mid k post im0 _ g RD); rewrite ?E1, ?SG; try assumption.
    + unfold total, group_of. rewrite E2, no_group_all. reflexivity.
  - intros ->. rewrite IM. destruct (entry_ok flat ks im0 _ RD) as [A B]. rewrite A, B, E3, E5, E1. split; [reflexivity|]. destruct (find _ ks); [rewrite SG|]; reflexivity.
Qed.

Lemma apart_shift : forall fmt s s' fs, ForallOrdPairs (apart fmt s) fs -> ForallOrdPairs (apart fmt s') fs.
Proof.
  intros fmt s s' fs H. induction H as [|f fs F H IH]; constructor; [|exact IH]. rewrite Forall_forall in *. intros f' F'. specialize (F f' F'). unfold apart, at_ in *. lia.
Qed.
Lemma fixup_spec : forall fmt d flat o n ss l ks im k b b', program_ok n ss -> laid_out fmt d flat o n ss l ks im -> (forall s, In s ss -> fixups_ok fmt s) -> (k < length ss)%nat -> real (segs im) k = true ->
  DoFixup fmt l im k = Ok b' -> s_buf (segment im k) = Some b -> exists c, b' = Some c /\ fixed_up fmt l im k b c.
Proof.
  intros fmt d flat o n ss l ks im k b b' PO L FO K RK D SB. unfold DoFixup in D. pose proof RK as RK'. unfold real in RK'. fold (segment im k) in RK'. apply negb_true_iff in RK'. unfold SEGTYPE_ABS in D. rewrite RK', SB in D.
  destruct (do_fixups fmt l im (segment im k) (s_fix (segment im k)) b) as [c| |] eqn:DF; [|discriminate D|discriminate D]. cbn [bindr] in D. injection D as <-. exists c. split; [reflexivity|].
  destruct (FO (nth k ss no_seg) ltac:(apply nth_In; exact K)) as [AI AP].
  assert (s_fix (segment im k) = s_fix (nth k ss no_seg)) as SF by (destruct (lo_same _ _ _ _ _ _ _ _ _ L k) as (x & y & z & ->); cbn [place s_fix]; rewrite nth_prepare by exact K; reflexivity).
  destruct (fix_list fmt l im (segment im k) (lo_addr _ _ _ _ _ _ _ _ _ L) (s_fix (segment im k)) ltac:(rewrite SF; exact AI) ltac:(rewrite SF; exact (apart_shift _ _ _ _ AP)) b c DF) as (A & B & C).
  split; [exact A|]. split; [exact B|]. intros i I0 H. apply C. intros f F. specialize (H f F). lia.
Qed.

(** a segment that is whole *)
Definition all_whole (fmt : format) (ss : list seg) : Prop := forall s, In s ss -> whole fmt (prepare s).
Lemma laid_fits : forall fmt d flat o n ss l ks im, laid_out fmt d flat o n ss l ks im -> (forall s, In s ss -> whole fmt (prepare s)) ->
  (forall k, In k l -> real (segs im) k = true -> header fmt d n ss <= s_fileofs (segment im k)) /\ disjoint im l.
Proof.
  intros fmt d flat o n ss l ks im L W. destruct (laid_out_segs _ _ _ _ _ _ _ _ _ L) as (P & ND & RE & IL).
  assert (forall k, In k ks -> real (segs im) k = true -> 0 <= extent (segment im k)) as EX by (intros k K R; pose proof (lo_size _ _ _ _ _ _ _ _ _ L k K R); unfold extent; lia).
  assert (forall k, In k ks -> real (segs im) k = true -> 0 <= reserved fmt (segment im k)) as RN.
  { intros k K R. specialize (EX k K R). unfold reserved. destruct fmt; [exact EX|]. destruct (_ =? 3); lia. }
  split.
  - intros k K R. apply (packed_from fmt (segs im) ks _ (lo_packed _ _ _ _ _ _ _ _ _ L) RN); [|exact R]. apply (Permutation_in _ P). exact K.
  - assert (disjoint im ks) as D.
    { apply (packed_disjoint fmt im ks _ (lo_packed _ _ _ _ _ _ _ _ _ L)). intros k K R. split; [apply EX; assumption|].
      assert (k < length ss)%nat as KL by (apply IL; apply (Permutation_in _ (Permutation_sym P)); exact K). specialize (W (nth k ss no_seg) ltac:(apply nth_In; exact KL)).
      destruct (lo_same _ _ _ _ _ _ _ _ _ L k) as (x & y & z & ->). rewrite nth_prepare by exact KL. exact W. }
    intros i j p Hi Hj. apply D; apply (Permutation_in _ P); assumption.
Qed.
Lemma laid_small : forall fmt d flat o n ss l ks im, (fmt = MZ -> mz_ok d) -> program_ok n ss -> laid_out fmt d flat o n ss l ks im -> small im l.
Proof.
  intros fmt d flat o n ss l ks im HM PO L k K R. destruct (laid_out_segs _ _ _ _ _ _ _ _ _ L) as (P & ND & RE & IL).
  assert (In k ks) as KS by (apply (Permutation_in _ P); exact K). destruct (lo_size _ _ _ _ _ _ _ _ _ L k KS R) as [SZ1 SZ2].
  assert (forall k, In k ks -> real (segs im) k = true -> 0 <= reserved fmt (segment im k)) as RN.
  { intros j J Rj. pose proof (lo_size _ _ _ _ _ _ _ _ _ L j J Rj). unfold reserved, extent. destruct fmt; [lia|]. destruct (_ =? 3); lia. }
  pose proof (packed_from fmt (segs im) ks _ (lo_packed _ _ _ _ _ _ _ _ _ L) RN k KS R) as LO. fold (segment im k) in LO. pose proof (header_range fmt d n ss HM) as HR.
  split; [lia|]. split; [unfold extent; lia|].
  assert (k < length ss)%nat as KL by (apply IL; exact K). assert (s_info (segment im k) = false) as SI.
  { destruct (proj1 PO (nth k ss no_seg) ltac:(apply nth_In; exact KL)) as (_ & _ & SO). rewrite RE in R. unfold real in R. rewrite nth_prepare in R by exact KL. apply negb_true_iff, Z.eqb_neq in R. destruct (SO R) as (_ & _ & SI & _).
    destruct (lo_same _ _ _ _ _ _ _ _ _ L k) as (x & y & z & ->). cbn [place s_info]. rewrite nth_prepare by exact KL. exact SI. }
  split; [|exact SI].
  assert (forall fmt ks from, packed fmt (segs im) from ks -> (forall k, In k ks -> real (segs im) k = true -> 0 <= s_align (segment im k) <= 31 /\ 0 <= s_start_loc (segment im k) <= s_max_offset (segment im k)) -> forall k, In k ks -> real (segs im) k = true -> s_fileofs (segment im k) + extent (segment im k) <= from + room (segs im) ks) as UP.
  { clear. intros fmt. induction ks as [|j r IH]; intros from PK A k K R; [destruct K|]. cbn [packed room fold_right] in *. fold (room (segs im) r). fold (segment im j) in *.
    assert (0 <= room (segs im) r) as RR.
    { clear -A. induction r as [|a r IH]; [cbn; lia|]. cbn [room fold_right]. fold (room (segs im) r). fold (segment im a). assert (0 <= room (segs im) r) by (apply IH; intros k [<-|K]; apply A; [left; reflexivity|right; right; exact K]).
      destruct (real (segs im) a) eqn:RA; [|lia]. destruct (A a ltac:(right; left; reflexivity) RA) as [A1 A2]. pose proof (pow2_pos (s_align (segment im a)) ltac:(lia)). lia. }
    destruct (real (segs im) j) eqn:RJ.
    - destruct PK as (P1 & P2 & P3). destruct (A j ltac:(left; reflexivity) RJ) as [A1 A2]. destruct K as [<-|K].
      + unfold extent. lia.
      + specialize (IH _ P3 ltac:(intros; apply A; auto; right; assumption) k K R). unfold reserved, extent in *. destruct fmt; [lia|]. destruct (_ =? 3); lia.
    - destruct K as [<-|K]; [congruence|]. specialize (IH _ PK ltac:(intros; apply A; auto; right; assumption) k K R). lia. }
  assert (forall k, In k ks -> real (segs im) k = true -> 0 <= s_align (segment im k) <= 31 /\ 0 <= s_start_loc (segment im k) <= s_max_offset (segment im k)) as AL.
  { intros j J Rj. split; [|apply (lo_size _ _ _ _ _ _ _ _ _ L j J Rj)]. assert (j < length ss)%nat as JL by (apply IL; apply (Permutation_in _ (Permutation_sym P)); exact J).
    destruct (proj1 PO (nth j ss no_seg) ltac:(apply nth_In; exact JL)) as (_ & _ & SO). rewrite RE in Rj. unfold real in Rj. rewrite nth_prepare in Rj by exact JL. apply negb_true_iff, Z.eqb_neq in Rj. destruct (SO Rj) as (A & _).
    destruct (lo_same _ _ _ _ _ _ _ _ _ L j) as (x & y & z & ->). cbn [place s_align]. rewrite nth_prepare by exact JL. exact A. }
  pose proof (UP fmt ks _ (lo_packed _ _ _ _ _ _ _ _ _ L) AL k KS R) as UB'.
  assert (room (segs im) ks = room (map prepare ss) (seq 0 (length ss))) as RO.
  { destruct (ready_initial fmt d n ss ks HM PO (proj1 (lo_order _ _ _ _ _ _ _ _ _ L))) as (_ & _ & RO & _). rewrite <- RO. apply room_placed. intros j _. apply (lo_same _ _ _ _ _ _ _ _ _ L). }
  rewrite RO in UB'. pose proof (proj2 PO) as RM. change (2 ^ 21) with 2097152 in *. change (2 ^ 20) with 1048576 in *. change (2 ^ 30) with 1073741824 in *. change (2 ^ 32) with 4294967296. lia.
Qed.

Lemma byte_at_end : forall f p, zlen f <= p -> byte_at f p = 0.
Proof. intros f p H. pose proof (zlen_nonneg f). unfold byte_at. destruct (Z.ltb_spec p 0); [reflexivity|]. apply nth_overflow. unfold zlen in *. lia. Qed.
Lemma sections_ok : forall fmt d flat o n ss l ks im bufs h file, (fmt = MZ -> mz_ok d) -> program_ok n ss -> laid_out fmt d flat o n ss l ks im ->
  (forall s, In s ss -> whole fmt (prepare s)) -> (forall s, In s ss -> fixups_ok fmt s) -> fix_all fmt l l im = Ok bufs -> zlen h = header fmt d n ss -> write_sections bufs im h = Ok file ->
  file_ok fmt (header fmt d n ss) l im file /\ forall p, p < header fmt d n ss -> byte_at file p = byte_at h p.
Proof.
  intros fmt d flat o n ss l ks im bufs h file HM PO L W FO FA LH WS. destruct (laid_out_segs _ _ _ _ _ _ _ _ _ L) as (P & ND & RE & IL). destruct (fix_all_spec _ _ _ _ _ FA) as [MF DF].
  destruct (laid_fits _ _ _ _ _ _ _ _ _ L W) as [FH DJ]. pose proof (laid_small _ _ _ _ _ _ _ _ _ HM PO L) as SM.
  assert (fits im (map fst bufs)) as FI by (rewrite MF; intros k K R; destruct (SM k K R) as (S1 & S2 & S3 & _); lia).
  destruct (write_ok im bufs h file ltac:(rewrite MF; exact ND) FI ltac:(rewrite MF; exact DJ) WS) as (A & B & C & D1 & D2). rewrite MF in *.
  assert (forall k b, emits im l k -> s_buf (segment im k) = Some b -> exists c, In (k, Some c) bufs /\ fixed_up fmt l im k b c) as FB.
  { intros k b E SB. destruct (emits_in _ _ _ E) as (K & R & _). assert (In k (map fst bufs)) as KB by (rewrite MF; exact K). apply in_map_iff in KB. destruct KB as ([k' b'] & EQ & KB). cbn in EQ. subst k'.
    destruct (fixup_spec fmt d flat o n ss l ks im k b b' PO L FO (proj1 (IL k) K) R (DF k b' KB) SB) as (c & -> & FU). exists c. split; assumption. }
  assert (forall k c, emits im l k -> In (k, Some c) bufs -> exists b, s_buf (segment im k) = Some b /\ fixed_up fmt l im k b c) as FC.
  { intros k c E KB. destruct (emits_in _ _ _ E) as (K & R & _). pose proof (DF k (Some c) KB) as D. destruct (s_buf (segment im k)) as [b|] eqn:SB.
    - exists b. split; [reflexivity|]. destruct (fixup_spec fmt d flat o n ss l ks im k b (Some c) PO L FO (proj1 (IL k) K) R D SB) as (c' & EQ & FU). injection EQ as <-. exact FU.
    - unfold DoFixup in D. rewrite SB in D. destruct (_ =? _); [discriminate D|]. destruct (s_fix _); discriminate D. }
  split; [constructor|].
  - intros k b E SB. destruct (FB k b E SB) as (c & KB & FU). destruct (A k c E KB) as [A1 A2]. exists c. split; [exact FU|]. split; [destruct FU as (<- & _); exact A1|exact A2].
  - intros p PH NO. rewrite B; [apply byte_at_end; lia|]. intros k c E KB. destruct (FC k c E KB) as (b & SB & _). apply (NO k b E SB).
  - split; [lia|]. split.
    + intros k b E SB. destruct (FB k b E SB) as (c & KB & _). apply (C k c E KB).
    + destruct D2 as [D2|(k & c & E & KB & D2)]; [left; lia|]. right. destruct (FC k c E KB) as (b & SB & _). exists k, b. auto.
  - intros p PH. apply B. intros k c E KB O. destruct (emits_in _ _ _ E) as (K & R & _). specialize (FH k K R). unfold occupies in O. lia.
Qed.
Lemma layout_unique : forall fmt d flat o n ss l ks im l' im', laid_out fmt d flat o n ss l ks im -> layout fmt flat o (seq 0 (length ss)) (snd (initial fmt d n ss)) = Some (l', im') -> l' = l /\ im' = im.
Proof. intros fmt d flat o n ss l ks im l' im' L E. rewrite (lo_eq _ _ _ _ _ _ _ _ _ L) in E. injection E as -> ->. split; reflexivity. Qed.
Definition reloc_count (fmt : format) (d : mzdata) (n : nat) (ss : list seg) : Z := fst (initial fmt d n ss).
Lemma module_eq : forall fmt d flat o n ss start l ks im, laid_out fmt d flat o n ss l ks im ->
  bin_write_module fmt d flat o n ss start =
  bindr (fix_all fmt l l im) (fun bufs =>
    match fmt with
    | NONE => match start with
              | Some (k, _) => if match entryseg (cp im) with Some e => Nat.eqb e k | None => false end then write_sections bufs im [] else Err
              | None => write_sections bufs im []
              end
    | MZ => bindr (mz_header d l im (reloc_count fmt d n ss) start) (fun h => write_sections bufs im h)
    end).
Proof.
  intros fmt d flat o n ss start l ks im L. unfold bin_write_module, reloc_count. pose proof (lo_eq _ _ _ _ _ _ _ _ _ L) as E. destruct (initial fmt d n ss) as [c im0]. cbn [snd fst] in *. rewrite E. reflexivity.
Qed.
Lemma sites_count : forall ss l im, (forall k, placed (nth k ss no_seg) (segment im k)) ->
  GetSegRelocs l im = map (fun kf => reloc_entry im (segment im (fst kf)) (snd kf)) (sites ss l).
Proof.
  intros ss l im H. unfold GetSegRelocs, sites. induction l as [|k l IH]; [reflexivity|]. cbn [flat_map]. rewrite map_app, IH. f_equal. cbv zeta.
  assert (forall f, needs_reloc im f = needs ss f) as NR.
  { intros f. unfold needs_reloc, needs, FIX_PTR32, FIX_PTR16, FIX_SEG. cbn [existsb]. rewrite orb_false_r. f_equal; [destruct (f_type f =? 8), (f_type f =? 9), (f_type f =? 10); reflexivity|].
    assert (forall j, is_abs im j = negb (real ss j)) as IA by (intros j; unfold is_abs, real, SEGTYPE_ABS; destruct (H j) as (a & b & c & ->); cbn [place s_type]; rewrite negb_involutive; reflexivity).
    unfold sym_segment. destruct (f_sym f) as [|g|j|j|[j|] oo]; try reflexivity; rewrite IA, negb_involutive; reflexivity. }
  assert (s_type (segment im k) = s_type (nth k ss no_seg) /\ s_fix (segment im k) = s_fix (nth k ss no_seg)) as [ST SF] by (destruct (H k) as (a & b & c & ->); split; reflexivity).
  rewrite ST. unfold real, SEGTYPE_ABS. destruct (s_type (nth k ss no_seg) =? 5); [reflexivity|]. cbn [negb]. rewrite map_map. cbn [fst snd]. rewrite SF, (filter_same _ _ _ _ (fun f _ => NR f)). reflexivity.
Qed.

Lemma adjust_exact : forall fuel loc vs, 0 <= loc -> loc / 16 <= Z.of_nat fuel -> 0 <= vs -> 16 * vs + loc < 2 ^ 20 ->
  let '(loc', vs') := adjust fuel loc vs in 0 <= loc' < 2 ^ 16 /\ 16 * vs' + loc' = 16 * vs + loc.
Proof.
  change (2 ^ 20) with 1048576. change (2 ^ 16) with 65536. induction fuel as [|n IH]; intros loc vs L F V B; cbn [adjust].
  - pose proof (Z.div_mod loc 16 ltac:(lia)). pose proof (Z.mod_pos_bound loc 16 ltac:(lia)). lia.
  - destruct (Z.geb_spec loc 65536) as [G|G]; [|lia].
    assert ((loc - 16) / 16 = loc / 16 - 1) as D by (replace (loc - 16) with (loc + (-1) * 16) by lia; rewrite Z.div_add by lia; lia).
    rewrite (wrap_small 16 (vs + 1)) by (change (2 ^ 16) with 65536; lia). specialize (IH (loc - 16) (vs + 1) ltac:(lia) ltac:(lia) ltac:(lia) ltac:(lia)). destruct (adjust n (loc - 16) (vs + 1)) as [loc' vs']. lia.
Qed.
Lemma reloc_exact : forall im k f, addresses_ok im -> 0 <= f_locofs f -> base im k + f_locofs f + selector_at f < 2 ^ 20 ->
  let '(ofs, sg) := reloc_entry im (segment im k) f in linear sg ofs = base im k + f_locofs f + selector_at f.
Proof.
  intros im k f SA LO HI. destruct SA as [SA SG]. destruct (SA k) as [S0 S1]. unfold reloc_entry, base, linear in *. rewrite !land15.
  assert ((if f_type f =? FIX_PTR16 then 2 else if f_type f =? FIX_PTR32 then 4 else 0) = selector_at f) as TS.
  { unfold selector_at, FIX_PTR16, FIX_PTR32. destruct (Z.eqb_spec (f_type f) 9) as [->|]; [reflexivity|]. destruct (Z.eqb_spec (f_type f) 10) as [->|]; [reflexivity|]. destruct (f_type f) as [|[[[[]|[]|]|[[]|[]|]|]|[[[]|[]|]|[[]|[]|]|]|]|]; congruence. }
  assert (0 <= selector_at f <= 4) as SB by (rewrite <- TS; destruct (_ =? _); [lia|]; destruct (_ =? _); lia).
  assert (forall loc, (if f_type f =? FIX_PTR16 then loc + 2 else if f_type f =? FIX_PTR32 then loc + 4 else loc) = loc + selector_at f) as TL by (intros loc; rewrite <- TS; destruct (_ =? _); [lia|]; destruct (_ =? _); lia).
  set (st := s_start (segment im k)) in *. pose proof (Z.div_mod st 16 ltac:(lia)) as DS. pose proof (Z.mod_pos_bound st 16 ltac:(lia)) as MS. pose proof (Z.div_pos st 16 S0 ltac:(lia)) as PS.
  rewrite (Z.shiftr_div_pow2 st) by lia. change (2 ^ 4) with 16. change (2 ^ 20) with 1048576 in HI.
  assert (forall loc vs x, 0 <= loc -> 0 <= vs -> 16 * vs + loc = x -> x < 1048576 ->
    let '(ofs, sg) := (let '(loc, vs) := adjust (Z.to_nat (loc / 16)) loc vs in (wrap 16 loc, vs)) in 16 * sg + ofs = x) as FIN.
  { intros loc vs x LB VB E XB. pose proof (Z.div_pos loc 16 ltac:(lia) ltac:(lia)). pose proof (adjust_exact (Z.to_nat (loc / 16)) loc vs ltac:(lia) ltac:(rewrite Z2Nat.id; lia) VB ltac:(change (2 ^ 20) with 1048576; lia)) as AD.
    destruct (adjust _ _ _) as [loc' vs']. destruct AD as (A & B). rewrite (wrap_small 16 loc' A). lia. }
  destruct (s_grp (segment im k)) as [g|] eqn:EG; rewrite ?land15.
  - set (o := g_offset (group_of im g)) in *. specialize (SG g). fold o in SG. pose proof (Z.div_mod o 16 ltac:(lia)) as DO. pose proof (Z.mod_pos_bound o 16 ltac:(lia)) as MO. pose proof (Z.div_pos o 16 SG ltac:(lia)). rewrite (Z.shiftr_div_pow2 o) by lia. change (2 ^ 4) with 16.
    rewrite TL. rewrite (wrap_small 32 (f_locofs f + st mod 16)) by (change (2 ^ 32) with 4294967296; lia). rewrite (wrap_small 32 (f_locofs f + st mod 16 + o mod 16)) by (change (2 ^ 32) with 4294967296; lia).
    rewrite (wrap_small 32 (_ + selector_at f)) by (change (2 ^ 32) with 4294967296; lia). rewrite (wrap_small 16 (st / 16)) by (change (2 ^ 16) with 65536; lia). rewrite wrap_small by (change (2 ^ 16) with 65536; lia). apply FIN; lia.
  - rewrite TL. rewrite (wrap_small 32 (f_locofs f + st mod 16)) by (change (2 ^ 32) with 4294967296; lia).
    rewrite (wrap_small 32 (_ + selector_at f)) by (change (2 ^ 32) with 4294967296; lia). rewrite (wrap_small 16 (st / 16)) by (change (2 ^ 16) with 65536; lia). apply FIN; lia.
Qed.
