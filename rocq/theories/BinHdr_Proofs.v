From Coq Require Import Permutation Sorted.
From Verif Require Import Base Sort_Model Sort_Spec Sort_Proofs Data_Proofs Bin_Model Bin_Spec Bin_Proofs BinFix_Proofs BinFile_Proofs BinMz_Proofs BinTop_Proofs.

(** * the sizes *)
Definition small (im : image) (l : list nat) : Prop :=
  forall k, In k l -> real (segs im) k = true -> 0 <= s_fileofs (segment im k) /\ 0 <= extent (segment im k) /\ s_fileofs (segment im k) + extent (segment im k) < 2 ^ 32 /\ s_info (segment im k) = false.
Lemma existsb_any : forall im l, existsb (fun d => negb (s_written (segment im d) =? 0)) l = true <-> exists d, In d l /\ s_written (segment im d) <> 0.
Proof.
  intros im l. rewrite existsb_exists. split; intros (d & D & W); exists d; (split; [exact D|]).
  - apply negb_true_iff, Z.eqb_neq in W. exact W.
  - apply negb_true_iff, Z.eqb_neq. exact W.
Qed.
(** [image_size false]: the end of the last segment that is written or followed by one *)
Lemma size_file : forall im l f v sz, small im l -> 0 <= sz ->
  let r := image_size false f v sz l im in
  sz <= r /\ (forall k, emits im l k -> s_fileofs (segment im k) + extent (segment im k) <= r) /\
  (r = sz \/ exists pre k post, l = pre ++ k :: post /\ real (segs im) k = true /\ r = s_fileofs (segment im k) + extent (segment im k) /\
     (s_written (segment im k) <> 0 \/ exists d, In d post /\ s_written (segment im d) <> 0)).
Proof.
  intros im. induction l as [|k l IH]; intros f v sz H Z0; [cbn; split; [lia|split; [tauto|left; reflexivity]]|]. cbn [image_size emits].
  assert (small im l) as H' by (intros j J; apply H; right; exact J). specialize (H k ltac:(left; reflexivity)).
  destruct (real (segs im) k) eqn:RK; unfold real in RK; fold (segment im k) in RK; unfold SEGTYPE_ABS.
  - destruct (H eq_refl) as (F0 & E0 & F1 & SI). apply negb_true_iff in RK. rewrite RK, SI. cbn [orb negb]. rewrite andb_true_l.
    assert (wrap 32 (s_fileofs (segment im k) + (s_max_offset (segment im k) - s_start_loc (segment im k))) = s_fileofs (segment im k) + extent (segment im k)) as W by (unfold extent in *; apply wrap_small; lia).
    destruct ((s_written (segment im k) =? 0) && negb (existsb (fun d => negb (s_written (segment im d) =? 0)) l)) eqn:Q.
    + apply andb_prop in Q. destruct Q as [Q1 Q2]. apply Z.eqb_eq in Q1. apply negb_true_iff in Q2. split; [lia|]. split; [|left; reflexivity].
      assert (forall d, In d l -> s_written (segment im d) = 0) as NW.
      { intros d D. destruct (Z.eq_dec (s_written (segment im d)) 0) as [X|X]; [exact X|]. assert (existsb (fun d => negb (s_written (segment im d) =? 0)) l = true) by (apply existsb_any; exists d; auto). congruence. }
      intros j [(-> & _ & _ & [X|(d & D & X)])|J]; [congruence|specialize (NW d D); congruence|].
      exfalso. clear -NW J. induction l as [|a l IHl]; [exact J|]. cbn [emits] in J. destruct J as [(-> & _ & _ & [X|(d & D & X)])|J].
      * apply X. apply NW. left. reflexivity.
      * apply X. apply NW. right. exact D.
      * apply IHl; [|exact J]. intros d D. apply NW. right. exact D.
    + rewrite W. set (sz' := if sz <? s_fileofs (segment im k) + extent (segment im k) then s_fileofs (segment im k) + extent (segment im k) else sz).
      assert (sz <= sz' /\ s_fileofs (segment im k) + extent (segment im k) <= sz' /\ (sz' = sz \/ sz' = s_fileofs (segment im k) + extent (segment im k))) as (S1 & S2 & S3) by (unfold sz'; destruct (Z.ltb_spec sz (s_fileofs (segment im k) + extent (segment im k))); lia).
      specialize (IH false (if f then v else wrap 32 (v + s_start_loc (segment im k))) sz' H' ltac:(lia)). cbv zeta in IH. destruct IH as (I1 & I2 & I3). split; [lia|]. split.
      * intros j [(-> & _)|J]; [lia|apply I2; exact J].
      * assert (s_written (segment im k) <> 0 \/ exists d, In d l /\ s_written (segment im d) <> 0) as WK.
        { apply andb_false_iff in Q. destruct Q as [Q|Q]; [left; apply Z.eqb_neq; exact Q|right; apply existsb_any; apply negb_false_iff; exact Q]. }
        destruct I3 as [I3|(pre & j & post & -> & I4 & I5 & I6)].
        -- destruct S3 as [S3|S3]; [left; congruence|]. right. exists [], k, l. split; [reflexivity|]. split; [unfold real; fold (segment im k); rewrite RK; reflexivity|]. split; [congruence|exact WK].
        -- right. exists (k :: pre), j, post. auto.
  - apply negb_false_iff in RK. rewrite RK. cbn [orb]. specialize (IH f v sz H' Z0). cbv zeta in IH. destruct IH as (I1 & I2 & I3). split; [exact I1|]. split.
    + intros j [(<- & R & _)|J]; [discriminate R|apply I2; exact J].
    + destruct I3 as [I3|(pre & j & post & -> & I4)]; [left; exact I3|]. right. exists (k :: pre), j, post. split; [reflexivity|exact I4].
Qed.
(** written bytes need room *)
Definition has_data (im : image) (l : list nat) : Prop := forall k, In k l -> s_written (segment im k) <> 0 -> real (segs im) k = true /\ 0 < extent (segment im k).
Lemma emits_split : forall im pre k post, real (segs im) k = true -> 0 < extent (segment im k) -> (s_written (segment im k) <> 0 \/ exists d, In d post /\ s_written (segment im d) <> 0) -> emits im (pre ++ k :: post) k.
Proof. intros im pre k post R E W. induction pre as [|j pre IH]; cbn [app emits]; [left; auto|right; exact IH]. Qed.
Lemma size_file_end : forall im l, small im l -> has_data im l ->
  StronglySorted (fun a b => real (segs im) a = true -> real (segs im) b = true -> s_fileofs (segment im a) <= s_fileofs (segment im b)) l ->
  let r := GetImageSize false l im in
  (forall k, emits im l k -> s_fileofs (segment im k) + extent (segment im k) <= r) /\ (r = 0 \/ exists k, emits im l k /\ r = s_fileofs (segment im k) + extent (segment im k)).
Proof.
  intros im l SM HD SS r. destruct (size_file im l true 0 0 SM ltac:(lia)) as (A & B & C). fold (GetImageSize false l im) in A, B, C. fold r in A, B, C. split; [exact B|].
  destruct C as [C|(pre & k & post & -> & RK & ER & W)]; [left; exact C|].
  destruct (Z_lt_le_dec 0 (extent (segment im k))) as [X|X]; [right; exists k; split; [apply emits_split; auto|exact ER]|].
  destruct W as [W|(d & D & W)].
  - destruct (HD k ltac:(apply in_or_app; right; left; reflexivity) W) as [_ Y]. lia.
  - destruct (HD d ltac:(apply in_or_app; right; right; exact D) W) as [RD XD]. apply in_split in D. destruct D as (u & w & ->).
    pose proof (B d) as BD. assert (emits im (pre ++ k :: u ++ d :: w) d) as ED by (replace (pre ++ k :: u ++ d :: w) with ((pre ++ k :: u) ++ d :: w) by (rewrite <- app_assoc; reflexivity); apply emits_split; auto).
    specialize (BD ED). assert (s_fileofs (segment im k) <= s_fileofs (segment im d)) as LE.
    { clear -SS RK RD. induction pre as [|a pre IH]; cbn [app] in SS; inversion SS as [|? ? S0 F]; subst; [|apply IH; exact S0]. rewrite Forall_forall in F. apply F; [apply in_or_app; right; left; reflexivity|exact RK|exact RD]. }
    lia.
Qed.
(** [image_size true] without ORGs: the end of all segments *)
Lemma size_memory : forall im l f sz, small im l -> (forall k, In k l -> real (segs im) k = true -> s_start_loc (segment im k) = 0) -> 0 <= sz ->
  let r := image_size true f 0 sz l im in
  sz <= r /\ (forall k, In k l -> real (segs im) k = true -> s_fileofs (segment im k) + s_max_offset (segment im k) <= r) /\
  (r = sz \/ exists k, In k l /\ real (segs im) k = true /\ r = s_fileofs (segment im k) + s_max_offset (segment im k)).
Proof.
  intros im. induction l as [|k l IH]; intros f sz H SL Z0; [cbn; split; [lia|split; [tauto|left; reflexivity]]|]. cbn [image_size].
  assert (small im l) as H' by (intros j J; apply H; right; exact J). specialize (H k ltac:(left; reflexivity)).
  assert (forall k, In k l -> real (segs im) k = true -> s_start_loc (segment im k) = 0) as SL' by (intros j J; apply SL; right; exact J). specialize (SL k ltac:(left; reflexivity)).
  destruct (real (segs im) k) eqn:RK; pose proof RK as RK0; unfold real in RK; fold (segment im k) in RK; unfold SEGTYPE_ABS.
  - destruct (H eq_refl) as (F0 & E0 & F1 & SI). specialize (SL eq_refl). apply negb_true_iff in RK. rewrite RK, SI, SL. cbn [orb negb andb]. unfold extent in *. rewrite SL in *. rewrite Z.sub_0_r in *.
    rewrite (wrap_small 32 (s_fileofs (segment im k) + s_max_offset (segment im k))) by lia. replace (if f then 0 else wrap 32 (0 + 0)) with 0 by (destruct f; reflexivity). rewrite Z.add_0_r, wrap_small by lia.
    set (sz' := if sz <? s_fileofs (segment im k) + s_max_offset (segment im k) then s_fileofs (segment im k) + s_max_offset (segment im k) else sz).
    assert (sz <= sz' /\ s_fileofs (segment im k) + s_max_offset (segment im k) <= sz' /\ (sz' = sz \/ sz' = s_fileofs (segment im k) + s_max_offset (segment im k))) as (S1 & S2 & S3) by (unfold sz'; destruct (Z.ltb_spec sz (s_fileofs (segment im k) + s_max_offset (segment im k))); lia).
    specialize (IH false sz' H' SL' ltac:(lia)). cbv zeta in IH. destruct IH as (I1 & I2 & I3). split; [lia|]. split.
    + intros j [<-|J] R; [lia|apply I2; assumption].
    + destruct I3 as [I3|(j & J & R & I3)]; [|right; exists j; split; [right; exact J|auto]]. destruct S3 as [S3|S3]; [left; congruence|]. right. exists k. split; [left; reflexivity|]. split; [exact RK0|congruence].
  - apply negb_false_iff in RK. rewrite RK. cbn [orb]. specialize (IH f sz H' SL' Z0). cbv zeta in IH. destruct IH as (I1 & I2 & I3). split; [exact I1|]. split.
    + intros j [<-|J] R; [congruence|apply I2; assumption].
    + destruct I3 as [I3|(j & J & I3)]; [left; exact I3|]. right. exists j. split; [right; exact J|exact I3].
Qed.

(** * the header *)
Definition start_seg (im : image) (start : option (nat * Z)) : Z * Z :=
  match start with
  | Some (k, o) => match s_grp (segment im k) with
                   | Some g => let addr := g_offset (group_of im g) in (Z.land addr 0xf + s_start (segment im k) + o, Z.shiftr addr 4)
                   | None => (Z.land (s_start (segment im k)) 0xf + o, Z.shiftr (s_start (segment im k)) 4)
                   end
  | None => (0, 0)
  end.
Definition stack_seg (l : list nat) (im : image) : Z * Z :=
  match find (fun k => s_stack (segment im k)) l with
  | Some k => let addr := wrap 32 (base im k) in (Z.shiftr addr 4 + (if Z.land addr 0xf =? 0 then 0 else 1), s_max_offset (segment im k))
  | None => (0, 0)
  end.
Definition min_alloc (d : mzdata) (heap : Z) : Z :=
  let m := wrap 16 (heap / 16 + (if heap mod 16 =? 0 then 0 else 1)) in if m <? heapmin d then heapmin d else m.
Lemma header_eq : forall d l im n start,
  let t := GetImageSize false l im in
  let m := min_alloc d (wrap 32 (GetImageSize true l im - t)) in
  let fields := [0x5a4d; t mod 512; t / 512 + (if t mod 512 =? 0 then 0 else 1); n; Z.shiftr (sizehdr (cp im)) 4; m; if heapmax d <? m then m else heapmax d;
                 fst (stack_seg l im); snd (stack_seg l im); 0; fst (start_seg im start); snd (start_seg im start); ofs_fixups d] in
  let head := flat_map (le_bytes 2) fields ++ repeat 0 (Z.to_nat (ofs_fixups d - 26)) in
  let table := flat_map (fun '(o, s) => le_bytes 2 o ++ le_bytes 2 s) (GetSegRelocs l im) in
  mz_header d l im n start = if zlen head + zlen table >? sizehdr (cp im) then UB else Ok (head ++ table ++ repeat 0 (Z.to_nat (sizehdr (cp im) - zlen head - zlen table))).
Proof.
  intros d l im n start t m fields head table. subst head table fields. unfold mz_header, stack_seg, start_seg, base. fold t. fold (min_alloc d (wrap 32 (GetImageSize true l im - t))). fold m.
  destruct (find _ l) as [k|]; destruct start as [[j o]|]; try destruct (s_grp (segment im j)); reflexivity.
Qed.
Lemma header_ok : forall d l im n start, mz_ok d -> n = zlen (GetSegRelocs l im) -> n < 2 ^ 16 -> sizehdr (cp im) = mz_sizehdr d n ->
  (forall o s, In (o, s) (GetSegRelocs l im) -> 0 <= o < 2 ^ 16 /\ 0 <= s < 2 ^ 16) ->
  exists h, mz_header d l im n start = Ok h /\ zlen h = sizehdr (cp im) /\
  let t := GetImageSize false l im in
  let m := min_alloc d (wrap 32 (GetImageSize true l im - t)) in
  word_at h 0 = 0x5a4d /\ (0 <= t <= 2 ^ 25 - 512 -> header_size h = t) /\ word_at h 6 = n /\ 16 * word_at h 8 = sizehdr (cp im) /\ word_at h 24 = ofs_fixups d /\
  entries (Z.to_nat n) h (ofs_fixups d) = GetSegRelocs l im /\
  word_at h 10 = m /\ word_at h 12 = Z.max (heapmax d) m /\
  word_at h 14 = fst (stack_seg l im) mod 2 ^ 16 /\ word_at h 16 = snd (stack_seg l im) mod 2 ^ 16 /\
  word_at h 20 = fst (start_seg im start) mod 2 ^ 16 /\ word_at h 22 = snd (start_seg im start) mod 2 ^ 16.
Proof.
  intros d l im n start MZ N NL SH RB. rewrite header_eq.
  match goal with |- context [flat_map (le_bytes 2) ?f ++ repeat 0 _] => set (fields := f) end.
  set (pad := repeat 0 (Z.to_nat (ofs_fixups d - 26))). set (table := flat_map _ (GetSegRelocs l im)).
  pose proof (zlen_nonneg (GetSegRelocs l im)) as N0. destruct (sizehdr_ok d n MZ ltac:(lia)) as [SB SD]. rewrite <- SH in SB, SD.
  destruct MZ as (OF & AL & (j & J & PJ) & HMN & HMX). 
  assert (zlen (flat_map (le_bytes 2) fields ++ pad) = ofs_fixups d) as LH.
  { rewrite zlen_app, zlen_words. replace (zlen fields) with 13 by reflexivity. unfold pad, zlen. rewrite repeat_length. lia. }
  assert (zlen table = 4 * n) as LT by (unfold table; rewrite zlen_table; lia). rewrite LH, LT.
  destruct (Z.gtb_spec (ofs_fixups d + 4 * n) (sizehdr (cp im))) as [X|X]; [lia|].
  eexists. split; [reflexivity|]. set (h := (flat_map (le_bytes 2) fields ++ pad) ++ table ++ repeat 0 (Z.to_nat (sizehdr (cp im) - ofs_fixups d - 4 * n))).
  assert (forall i, (i < 13)%nat -> word_at h (2 * Z.of_nat i) = nth i fields 0 mod 2 ^ 16) as WA by (intros i I'; unfold h; rewrite <- app_assoc; apply words_at; exact I').
  split; [unfold h; rewrite !zlen_app in *; fold table; unfold pad in *; unfold zlen in *; rewrite !repeat_length in *; lia|]. cbv zeta. set (t := GetImageSize false l im) in *.
  assert (0 <= min_alloc d (wrap 32 (GetImageSize true l im - t)) < 2 ^ 16) as MA.
  { unfold min_alloc. match goal with |- context [wrap 16 ?x] => pose proof (wrap_range 16 x ltac:(lia)) as W; set (w := wrap 16 x) in * end. destruct (w <? heapmin d); lia. }
  set (m := min_alloc d (wrap 32 (GetImageSize true l im - t))) in *. change (2 ^ 16) with 65536 in *. change (2 ^ 25) with 33554432 in *.
  assert (16 * Z.shiftr (sizehdr (cp im)) 4 = sizehdr (cp im)) as S16.
  { rewrite Z.shiftr_div_pow2 by lia. change (2 ^ 4) with 16. destruct SD as (q & SD). rewrite SD at 2. rewrite SD.
    assert (4 <= j) as J4 by (destruct (Z_lt_le_dec j 4) as [L|L]; [|exact L]; pose proof (Z.pow_lt_mono_r 2 j 4 ltac:(lia) ltac:(lia) L); change (2 ^ 4) with 16 in *; lia).
    rewrite PJ. replace j with (4 + (j - 4)) by lia. rewrite Z.pow_add_r by lia. change (2 ^ 4) with 16. replace (q * (16 * 2 ^ (j - 4))) with (q * 2 ^ (j - 4) * 16) by ring. rewrite Z.div_mul by lia. ring. }
  split; [exact (WA 0%nat ltac:(lia))|]. split.
  { intros T. unfold header_size. rewrite (WA 1%nat ltac:(lia) : word_at h 2 = _), (WA 2%nat ltac:(lia) : word_at h 4 = _). unfold fields. cbn [nth].
    pose proof (Z.mod_pos_bound t 512 ltac:(lia)). pose proof (Z.div_mod t 512 ltac:(lia)).
    rewrite (Z.mod_small (t mod 512)) by lia. destruct (Z.eqb_spec (t mod 512) 0) as [E|E]; rewrite Z.mod_small by lia; lia. }
  split. { rewrite (WA 3%nat ltac:(lia) : word_at h 6 = _). unfold fields. cbn [nth]. rewrite Z.mod_small by lia. reflexivity. }
  split. { rewrite (WA 4%nat ltac:(lia) : word_at h 8 = _). unfold fields. cbn [nth]. rewrite Z.mod_small by lia. exact S16. }
  split. { rewrite (WA 12%nat ltac:(lia) : word_at h 24 = _). unfold fields. cbn [nth]. rewrite Z.mod_small by lia. reflexivity. }
  split. { replace (Z.to_nat n) with (length (GetSegRelocs l im)) by (unfold zlen in N; lia). rewrite <- LH. apply entries_read. exact RB. }
  split. { rewrite (WA 5%nat ltac:(lia) : word_at h 10 = _). unfold fields. cbn [nth]. apply Z.mod_small. lia. }
  split. { rewrite (WA 6%nat ltac:(lia) : word_at h 12 = _). unfold fields. cbn [nth]. destruct (Z.ltb_spec (heapmax d) m); rewrite Z.mod_small by lia; lia. }
  split; [exact (WA 7%nat ltac:(lia))|]. split; [exact (WA 8%nat ltac:(lia))|]. split; [exact (WA 10%nat ltac:(lia))|exact (WA 11%nat ltac:(lia))].
Qed.
(** CS:IP *)
Lemma start_linear : forall im k o, addresses_ok im ->
  linear (snd (start_seg im (Some (k, o)))) (fst (start_seg im (Some (k, o)))) = base im k + o.
Proof.
  intros im k o [A1 A2]. unfold start_seg, base, linear. destruct (A1 k) as [S0 _]. destruct (s_grp (segment im k)) as [g|]; cbn [fst snd].
  - specialize (A2 g). change 15 with (Z.ones 4). rewrite Z.land_ones, Z.shiftr_div_pow2 by lia. change (2 ^ 4) with 16. pose proof (Z.div_mod (g_offset (group_of im g)) 16 ltac:(lia)). lia.
  - change 15 with (Z.ones 4). rewrite Z.land_ones, Z.shiftr_div_pow2 by lia. change (2 ^ 4) with 16. pose proof (Z.div_mod (s_start (segment im k)) 16 ltac:(lia)). lia.
Qed.
Lemma stack_para : forall l im k, addresses_ok im -> find (fun k => s_stack (segment im k)) l = Some k ->
  base im k <= 16 * fst (stack_seg l im) < base im k + 16 /\ snd (stack_seg l im) = s_max_offset (segment im k).
Proof.
  intros l im k [A1 A2] F. unfold stack_seg. rewrite F. cbn [fst snd]. split; [|reflexivity]. destruct (A1 k) as [_ B]. rewrite wrap_small by lia.
  change 15 with (Z.ones 4). rewrite Z.land_ones, Z.shiftr_div_pow2 by lia. change (2 ^ 4) with 16. pose proof (Z.div_mod (base im k) 16 ltac:(lia)). pose proof (Z.mod_pos_bound (base im k) 16 ltac:(lia)).
  destruct (Z.eqb_spec (base im k mod 16) 0); lia.
Qed.
