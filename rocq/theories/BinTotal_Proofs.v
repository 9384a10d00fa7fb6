From Coq Require Import Permutation Sorted.
From Verif Require Import Base Sort_Model Sort_Spec Sort_Proofs Data_Proofs Bin_Model Bin_Spec Bin_Proofs BinFix_Proofs BinFile_Proofs BinMz_Proofs BinTop_Proofs BinHdr_Proofs BinAll_Proofs BinMzFile_Proofs.

Lemma named_dec : forall l im k, (exists d, named l im k d) \/ (forall d, ~ named l im k d).
Proof.
  intros l im k. destruct (secfind l im k) as [d|] eqn:E; [left; exists d; apply named_iff; exact E|right; intros d X; apply named_iff in X; congruence].
Qed.
Lemma supported_effect : forall fmt ss l im s f, (forall k, placed (nth k ss no_seg) (segment im k)) -> supported fmt ss f -> aimed f /\ exists o n, effect fmt l im s f (width fmt f) o n.
Proof.
  intros fmt ss l im s f SA SP. unfold supported in SP. unfold width.
  assert (forall k, real ss k = false -> s_type (segment im k) = 5) as RF by (intros k R; unfold real in R; apply negb_false_iff, Z.eqb_eq in R; destruct (SA k) as (a & b & c & ->); exact R).
  assert (forall k, s_grp (segment im k) = s_grp (nth k ss no_seg)) as GE by (intros k; destruct (SA k) as (a & b & c & ->); reflexivity).
  assert (f_type f = 1 \/ f_type f = 2 \/ f_type f = 3 \/ f_type f = 4 \/ f_type f = 5 \/ f_type f = 6 \/ f_type f = 7 \/ f_type f = 8 \/ f_type f = 9 \/ f_type f = 10 \/ f_type f = 11 \/ f_type f = 12 \/ f_type f = 13) as T.
  { destruct (f_type f) as [|[[[[]|[]|]|[[]|[]|]|]|[[[]|[]|]|[[]|[]|]|]|]|]; try contradiction; lia. }
  assert (target f <> None -> exists k o, target f = Some (k, o)) as TX by (intros X; destruct (target f) as [[k o]|]; [exists k, o; reflexivity|congruence]).
  assert (forall k o, target f = Some (k, o) -> aimed f) as AI by (intros k o X; left; congruence).
  repeat (destruct T as [T|T]; [rewrite T in SP; rewrite T|]); [..|rewrite T in SP; rewrite T].
  1,2: destruct (TX SP) as (k & o & E); split; [exact (AI k o E)|]; exists 0; eexists; eapply eff_rel; [|exact E]; rewrite T; tauto.
  1: destruct (TX SP) as (k & o & E); split; [exact (AI k o E)|]; destruct (s_use64 s) eqn:U; [exists 0; eexists; eapply eff_rip; eassumption|exists 0; eexists; eapply eff_rel; [|exact E]; tauto].
  1,2,3: destruct (TX SP) as (k & o & E); split; [exact (AI k o E)|]; exists 0; eexists; eapply eff_off; [|exact E]; rewrite T; tauto.
  1: destruct (TX SP) as (k & o & E); split; [exact (AI k o E)|]; exists 0; eexists; eapply eff_off64; eassumption.
  1: { destruct (f_sym f) as [|g|k|v|v o] eqn:ES.
    - destruct SP as (k & o & E & _). unfold target in E. rewrite ES in E. discriminate E.
    - subst fmt. split; [right; split; [exact T|exists g; exact ES]|]. exists 0; eexists; eapply eff_seg_grp; [exact T|reflexivity|exact ES].
    - split; [left; unfold target; rewrite ES; discriminate|]. destruct SP as [SP|SP].
      + destruct fmt; (exists 0; eexists; eapply eff_seg_abs; [exact T|exact ES|apply RF; exact SP]).
      + subst fmt. destruct (Z.eq_dec (s_type (segment im k)) 5) as [A|A]; [exists 0; eexists; eapply eff_seg_abs; eassumption|exists 0; eexists; eapply eff_seg_seg; [exact T|reflexivity|exact ES|exact A]].
    - destruct SP as (k & o & E & SP). split; [exact (AI k o E)|]. destruct fmt.
      + exists 0; eexists; eapply eff_seg_none; [exact T|reflexivity|exact E|congruence|apply RF; exact SP].
      + destruct (Z.eq_dec (f_frame f) 1) as [F|F]; [|exists 0; eexists; eapply eff_seg_lab; [exact T|reflexivity|exact E|congruence|exact F]].
        destruct (s_grp (nth k ss no_seg)) as [g|] eqn:EG; [|destruct (SP F eq_refl)]. exists 0; eexists; eapply eff_seg_lab_grp; [exact T|reflexivity|exact E|congruence|exact F|rewrite GE; exact EG].
    - destruct SP as (k & oo & E & SP). split; [exact (AI k oo E)|]. destruct fmt.
      + exists 0; eexists; eapply eff_seg_none; [exact T|reflexivity|exact E|congruence|apply RF; exact SP].
      + destruct (Z.eq_dec (f_frame f) 1) as [F|F]; [|exists 0; eexists; eapply eff_seg_lab; [exact T|reflexivity|exact E|congruence|exact F]].
        destruct (s_grp (nth k ss no_seg)) as [g|] eqn:EG; [|destruct (SP F eq_refl)]. exists 0; eexists; eapply eff_seg_lab_grp; [exact T|reflexivity|exact E|congruence|exact F|rewrite GE; exact EG]. }
  1,2: destruct SP as (k & o & E & SP); split; [exact (AI k o E)|];
       assert (exists sel, selector fmt im f k sel) as (sel & SE) by
         (destruct SP as [SP|[-> SP]]; [eexists; apply sel_abs; apply RF; exact SP|];
          destruct (Z.eq_dec (s_type (segment im k)) 5) as [A|A]; [eexists; apply sel_abs; exact A|];
          destruct (Z.eq_dec (f_frame f) 1) as [F|F]; [|eexists; apply sel_seg; [reflexivity|exact A|exact F]];
          destruct (s_grp (nth k ss no_seg)) as [g|] eqn:EG; [|destruct (SP F eq_refl)]; eexists; eapply sel_grp; [reflexivity|exact A|exact F|rewrite GE; exact EG]).
  1: exists 0; eexists; eapply eff_ptr16; eassumption.
  1: exists 0; eexists; eapply eff_ptr32; eassumption.
  1: destruct (TX SP) as (k & o & E); split; [exact (AI k o E)|]; exists 0; eexists; eapply eff_hibyte; eassumption.
  1: destruct (TX SP) as (k & o & E); split; [exact (AI k o E)|]; exists 0; eexists; eapply eff_imgrel; eassumption.
  destruct (TX SP) as (k & o & E); split; [exact (AI k o E)|]; destruct (named_dec l im k) as [(dd & N)|N]; [exists 0; eexists; eapply eff_secrel_named; eassumption|exists 0; eexists; eapply eff_secrel; eassumption].
Qed.
Lemma module_total : forall fmt d flat o n ss start l ks im, (fmt = MZ -> mz_ok d) -> program_ok n ss -> laid_out fmt d flat o n ss l ks im ->
  (forall s, In s ss -> s_type (prepare s) <> 5 -> (s_start_loc s = 0 \/ s_grp s = None) /\ buffer_fits fmt s /\ Forall (supported fmt (map prepare ss)) (s_fix s)) ->
  (fmt = MZ -> locations_ok ss /\ zlen (sites (map prepare ss) l) < 2 ^ 16) ->
  (fmt = NONE -> match start with Some (k, _) => find (real (map prepare ss)) ks = Some k | None => True end) ->
  exists file, bin_write_module fmt d flat o n ss start = Ok file.
Proof.
  intros fmt d flat o n ss start l ks im HM PO L SS HZ HN. rewrite (module_eq fmt d flat o n ss start l ks im L).
  destruct (laid_out_segs _ _ _ _ _ _ _ _ _ L) as (P & ND & RE & IL). pose proof (lo_same _ _ _ _ _ _ _ _ _ L) as SA. pose proof (lo_addr _ _ _ _ _ _ _ _ _ L) as AO.
  pose proof (placement_ok fmt d flat o n ss l ks im HM PO L) as PL.
  assert (forall k, In k l -> real (segs im) k = true -> exists s, s = nth k ss no_seg /\ In s ss /\ s_type (prepare s) <> 5 /\ s_start_loc (segment im k) = s_start_loc s /\ s_buf (segment im k) = s_buf s /\ s_fix (segment im k) = s_fix s /\ s_max_offset (segment im k) = s_max_offset s) as SG.
  { intros k K R. pose proof (proj1 (IL k) K) as KL. exists (nth k ss no_seg). split; [reflexivity|]. assert (In (nth k ss no_seg) ss) as IN by (apply nth_In; exact KL). split; [exact IN|]. pose proof R as R'. rewrite RE in R'. unfold real in R'. rewrite nth_prepare in R' by exact KL. apply negb_true_iff, Z.eqb_neq in R'. split; [exact R'|].
    split; [|destruct (SA k) as (a & b & c & ->); cbn [place s_buf s_fix s_max_offset]; rewrite nth_prepare by exact KL; repeat split; reflexivity].
    assert (In k ks) as KS by (apply (Permutation_in _ P); exact K). apply in_split in KS. destruct KS as (pre & post & KS). rewrite (pl_org _ _ _ _ _ _ _ _ PL pre k post KS). rewrite nth_prepare by exact KL.
    destruct (SS _ IN R') as ([Z0|G0] & _).
    - replace (s_start_loc (prepare (nth k ss no_seg))) with 0 by (symmetry; exact Z0). rewrite Z0. match goal with |- (if ?x then _ else _) = _ => destruct x; reflexivity end.
    - unfold keeps_org. replace (s_grp (prepare (nth k ss no_seg))) with (@None nat) by (symmetry; exact G0). rewrite orb_true_r. cbn [negb]. rewrite andb_false_r. reflexivity. }
  destruct (fix_all_total fmt l im l) as [bufs FA].
  { intros k K. unfold DoFixup, SEGTYPE_ABS. destruct (s_type (segment im k) =? 5) eqn:T; [eexists; reflexivity|].
    assert (real (segs im) k = true) as R by (unfold real; fold (segment im k); rewrite T; reflexivity). destruct (SG k K R) as (s & ES & IN & NT & S1 & S2 & S3 & S4). destruct (SS s IN NT) as (_ & BF & SU). unfold buffer_fits in BF. rewrite S2, S3.
    destruct (s_buf s) as [b|]; [|rewrite BF; eexists; reflexivity]. destruct BF as [BL BW]. rewrite Forall_forall in SU.
    destruct (fix_total fmt l im (segment im k) AO (s_fix s) b) as [b' EB].
    - apply Forall_forall. intros f F. exact (proj1 (supported_effect fmt (map prepare ss) l im (segment im k) f SA (SU f F))).
    - intros f F. split; [|exact (proj2 (supported_effect fmt (map prepare ss) l im (segment im k) f SA (SU f F)))]. specialize (BW f F). unfold within, at_ in *. rewrite S1. exact BW.
    - rewrite EB. eexists. reflexivity. }
  rewrite FA. cbn [bindr]. destruct (fix_all_spec _ _ _ _ _ FA) as [MF DF]. pose proof (laid_small _ _ _ _ _ _ _ _ _ HM PO L) as SM.
  assert (fits im (map fst bufs)) as FI by (rewrite MF; intros k K R; destruct (SM k K R) as (X1 & X2 & X3 & _); lia).
  assert (forall h, exists file, write_sections bufs im h = Ok file) as WT.
  { intros h. apply write_total; [rewrite MF; exact ND|exact FI|]. intros k b KB R. assert (In k l) as K by (rewrite <- MF; apply in_map_iff; exists (k, Some b); auto). destruct (SG k K R) as (s & ES & IN & NT & S1 & S2 & S3 & S4). destruct (SS s IN NT) as (_ & BF & SU).
    pose proof (DF k (Some b) KB) as D. unfold DoFixup, SEGTYPE_ABS in D. unfold real in R. fold (segment im k) in R. apply negb_true_iff in R. rewrite R, S2, S3 in D. unfold buffer_fits in BF.
    destruct (s_buf s) as [b0|]; [|rewrite BF in D; discriminate D]. destruct BF as [BL BW]. destruct (do_fixups fmt l im (segment im k) (s_fix s) b0) as [c| |] eqn:DD; try discriminate D. cbn [bindr] in D. injection D as <-.
    assert (zlen c = zlen b0) as ZC.
    { rewrite Forall_forall in SU. clear -DD SU SA AO. revert b0 c DD. induction (s_fix s) as [|f fs IHf]; intros b0 c DD; [cbn in DD; injection DD as <-; reflexivity|].
      rewrite fixups_cons in DD. destruct (step_spec fmt l im (segment im k) AO f (proj1 (supported_effect fmt (map prepare ss) l im (segment im k) f SA (SU f ltac:(left; reflexivity))))) as [(g & EF & WF & ST)|[NS _]].
      - rewrite ST in DD. destruct (inside (at_ (segment im k) f) (width fmt f) b0) eqn:IN; [|discriminate DD]. cbn [bindr] in DD. apply IHf in DD; [|intros; apply SU; right; assumption]. rewrite DD. apply splice_length; [exact IN|lia].
      - destruct (NS b0) as [X|X]; rewrite X in DD; discriminate DD. }
    unfold extent. rewrite S1, S4, ZC, BL. lia. }
  destruct fmt.
  - destruct start as [[k oo]|]; [|apply WT]. rewrite (proj1 (pl_entry _ _ _ _ _ _ _ _ PL eq_refl)), (HN eq_refl), Nat.eqb_refl. apply WT.
  - destruct (HZ eq_refl) as [LO CT]. destruct (count_ok d n ss l (lo_perm _ _ _ _ _ _ _ _ _ L) CT) as [CE CH]. rewrite CE. pose proof (sites_count (map prepare ss) l im SA) as SC.
    destruct (header_ok d l im (zlen (sites (map prepare ss) l)) start (HM eq_refl)) as (h & HE & _).
    + rewrite SC. unfold zlen. rewrite map_length. reflexivity.
    + exact CT.
    + rewrite (lo_hdr _ _ _ _ _ _ _ _ _ L). exact CH.
    + intros oo s OS. rewrite SC in OS. apply in_map_iff in OS. destruct OS as ([k f] & EQ & KF). cbn [fst snd] in EQ. destruct (sites_in _ _ _ _ KF) as (K & R & F & _). pose proof (proj1 (IL k) K) as KL.
      assert (In (nth k ss no_seg) ss) as IN by (apply nth_In; exact KL). pose proof R as R'. unfold real in R'. rewrite nth_prepare in R' by exact KL. apply negb_true_iff, Z.eqb_neq in R'. rewrite nth_prepare in F by exact KL.
      pose proof (LO _ IN R' f F) as LF. pose proof (lo_base _ _ _ _ _ _ _ _ _ L k) as BB.
      destruct (lo_size _ _ _ _ _ _ _ _ _ L k ltac:(apply (Permutation_in _ P); exact K) ltac:(rewrite RE; exact R)) as [_ SZ]. destruct (SA k) as (a & b & c & EQ'). rewrite EQ' in SZ. cbn [place s_max_offset] in SZ. rewrite nth_prepare in SZ by exact KL. cbn [prepare s_max_offset] in SZ.
      assert (base im k + f_locofs f + 40 < 2 ^ 32) as B32 by (change (2 ^ 31) with 2147483648 in *; change (2 ^ 30) with 1073741824 in *; change (2 ^ 32) with 4294967296; lia).
      pose proof (reloc_ok im k f AO ltac:(lia) B32) as RO. rewrite EQ in RO. tauto.
    + rewrite HE. cbn [bindr]. apply WT.
Qed.
