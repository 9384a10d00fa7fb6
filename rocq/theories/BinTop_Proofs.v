From Coq Require Import Permutation Sorted.
From Verif Require Import Base Sort_Model Sort_Spec Sort_Proofs Data_Proofs Bin_Model Bin_Spec Bin_Proofs BinFix_Proofs BinFile_Proofs BinMz_Proofs.

(** * bounds of addresses *)
Definition bounded (im : image) (lim : Z) : Prop := (forall g, 0 <= g_offset (group_of im g) <= lim) /\ (forall k, 0 <= s_start (segment im k) <= lim).
Lemma bounded_calc : forall fmt flat ks im lim, ready im lim ks -> 2 ^ 20 <= lim -> (forall k, In k ks -> real (segs im) k = false -> 0 <= s_abs_frame (segment im k) < 2 ^ 16) ->
  bounded im lim -> bounded (calc_all fmt flat ks im) (lim + room (segs im) ks).
Proof.
  intros fmt flat. induction ks as [|k r IH]; intros im lim R L20 AB B; [cbn; rewrite Z.add_0_r; exact B|]. rewrite calc_cons.
  destruct (calc_step fmt flat k r im lim R) as (R1 & _ & _ & HS & EJ & PJ & C). set (im1 := CalcOffset fmt flat k im) in *.
  assert (forall j, placed (segment im j) (segment im1 j)) as P1 by (intros j; destruct (Nat.eq_dec j k) as [->|N]; [exact PJ|rewrite (EJ j N); apply placed_refl]).
  cbn [room fold_right]. fold (room (segs im) r). fold (segment im k). fold (add_of (segment im k)). rewrite <- (room_placed (segs im) (segs im1) r) by (intros j _; apply P1). rewrite Z.add_assoc.
  pose proof R as (G & LL & ND & BB). inversion ND as [|? ? NI ND']; subst.
  assert (0 <= if real (segs im) k then add_of (segment im k) else 0) as NN.
  { destruct (real (segs im) k) eqn:RK; [|lia]. unfold real in RK. apply negb_true_iff, Z.eqb_neq in RK. destruct (gd_ok _ _ G k (BB k ltac:(left; reflexivity)) RK) as (A & SL & _).
    unfold add_of. pose proof (pow2_pos (s_align (segment im k)) ltac:(lia)). lia. }
  apply IH; [exact R1|lia| |].
  - intros j J RJ. rewrite (real_placed (segs im) (segs im1) j (P1 j)) in RJ. specialize (AB j ltac:(right; exact J) RJ). destruct (P1 j) as (a & b & c & ->). exact AB.
  - destruct B as [BG BS]. destruct (real (segs im) k) eqn:RK.
    + pose proof RK as RK'. unfold real in RK'. apply negb_true_iff, Z.eqb_neq in RK'. destruct (gd_ok _ _ G k (BB k ltac:(left; reflexivity)) RK') as (A & SL & _).
      pose proof (up_spec (s_align (segment im k)) (fileoffset (cp im)) ltac:(lia)) as [U _]. pose proof (gd_hdr _ _ G). pose proof (gd_lim _ _ G).
      destruct C as (C1 & _ & _ & _ & C5 & C6 & _). unfold add_of in *. split.
      * intros g. rewrite C6. specialize (BG g). destruct (s_grp (segment im k)) as [h|]; [|lia]. destruct (Nat.eqb g h); cbn [g_offset]; [|lia]. destruct (total im g =? 0); lia.
      * intros j. destruct (Nat.eq_dec j k) as [->|N]; [|rewrite (EJ j N); specialize (BS j); lia]. rewrite C5. destruct (s_grp (segment im k)) as [h|]; [|lia]. pose proof (gd_tot _ _ G h). destruct (total im h =? 0); lia.
    + destruct C as (_ & C2 & C3 & _). rewrite Z.add_0_r. split.
      * intros g. unfold group_of. rewrite C2. apply BG.
      * intros j. destruct (Nat.eq_dec j k) as [->|N]; [|rewrite (EJ j N); apply BS]. rewrite C3. specialize (AB k ltac:(left; reflexivity) RK). change (2 ^ 16) with 65536 in *. change (2 ^ 21) with 2097152 in *; change (2 ^ 20) with 1048576 in *. change (2 ^ 32) with 4294967296.
        rewrite Z.mod_small; lia.
Qed.
Lemma bounded_ok : forall im lim, bounded im lim -> lim < 2 ^ 31 -> addresses_ok im.
Proof.
  intros im lim [BG BS] L. split; [|intros g; apply BG]. intros k. split; [apply BS|]. unfold base. pose proof (BS k). assert (2 ^ 32 = 2 * 2 ^ 31) by reflexivity.
  destruct (s_grp (segment im k)) as [g|]; [pose proof (BG g)|]; lia.
Qed.

(** * the start *)
Lemma prepare_placed : forall s, s_align (prepare s) = s_align s /\ s_max_offset (prepare s) = s_max_offset s /\ s_start_loc (prepare s) = s_start_loc s /\ s_info (prepare s) = s_info s /\
  s_abs_frame (prepare s) = s_abs_frame s /\ s_grp (prepare s) = s_grp s.
Proof. intros s. repeat split. Qed.
Lemma initial_segs : forall fmt d n ss, segs (snd (initial fmt d n ss)) = map prepare ss /\ groups (snd (initial fmt d n ss)) = repeat no_group n /\
  first (cp (snd (initial fmt d n ss))) = true /\ fileoffset (cp (snd (initial fmt d n ss))) = header fmt d n ss /\ entryseg (cp (snd (initial fmt d n ss))) = None.
Proof. intros. repeat split. Qed.
Lemma nth_prepare : forall ss k, (k < length ss)%nat -> nth k (map prepare ss) no_seg = prepare (nth k ss no_seg).
Proof. intros ss k K. rewrite (nth_indep _ no_seg (prepare no_seg)) by (rewrite map_length; exact K). apply map_nth. Qed.
Lemma no_group_all : forall n g, nth g (repeat no_group n) no_group = no_group.
Proof. intros n g. revert n. induction g as [|g IH]; intros [|n]; cbn; auto. Qed.
Lemma header_range : forall fmt d n ss, (fmt = MZ -> mz_ok d) -> 0 <= header fmt d n ss < 2 ^ 20.
Proof.
  intros fmt d n ss H. unfold header, initial. destruct fmt; cbn [snd cp sizehdr]; [split; [lia|reflexivity]|].
  match goal with |- context [mz_sizehdr d ?x] => set (c := x) end. assert (0 <= c < 2 ^ 16) as CB by (apply wrap_range; lia).
  pose proof (sizehdr_ok d c (H eq_refl) CB) as [A _]. destruct (H eq_refl) as (O & AL & _). change (2 ^ 16) with 65536 in *. change (2 ^ 21) with 2097152 in *; change (2 ^ 20) with 1048576. lia.
Qed.
Lemma ready_initial : forall fmt d n ss ks, (fmt = MZ -> mz_ok d) -> program_ok n ss -> Permutation (seq 0 (length ss)) ks ->
  ready (snd (initial fmt d n ss)) (header fmt d n ss) ks /\ bounded (snd (initial fmt d n ss)) 0 /\
  room (map prepare ss) ks = room (map prepare ss) (seq 0 (length ss)) /\
  (forall k, real (map prepare ss) k = false -> 0 <= s_abs_frame (nth k (map prepare ss) no_seg) < 2 ^ 16).
Proof.
  intros fmt d n ss ks HM [PO RM] P. destruct (initial_segs fmt d n ss) as (E1 & E2 & E3 & E4 & _). pose proof (header_range fmt d n ss HM) as HR.
  set (im0 := snd (initial fmt d n ss)) in *. assert (sizehdr (cp im0) = header fmt d n ss) as E5 by reflexivity.
  assert (room (map prepare ss) ks = room (map prepare ss) (seq 0 (length ss))) as RE.
  { unfold room. revert P. generalize (seq 0 (length ss)) as a. intros a P. induction P; cbn [fold_right]; try lia. }
  assert (forall k, (k < length ss)%nat -> In (nth k ss no_seg) ss) as INS by (intros; apply nth_In; assumption).
  split; [|split; [|split; [exact RE|]]].
  - split; [|split; [|split]].
    + constructor.
      * lia.
      * lia.
      * intros g. unfold total, group_of. rewrite E2, no_group_all. cbn [g_total no_group]. lia.
      * intros k K T. rewrite E1, map_length in K. unfold segment in *. rewrite E1 in *. rewrite nth_prepare in * by exact K. rewrite E2, repeat_length.
        destruct (PO _ (INS k K)) as (_ & _ & PS). exact (PS T).
    + rewrite E1, RE. change (2 ^ 31) with 2147483648 in *; change (2 ^ 30) with 1073741824 in *. change (2 ^ 32) with 4294967296. lia.
    + eapply Permutation_NoDup; [exact P|]. apply seq_NoDup.
    + intros k K. rewrite E1, map_length. apply (Permutation_in _ (Permutation_sym P)) in K. apply in_seq in K. lia.
  - split.
    + intros g. unfold group_of. rewrite E2, no_group_all. cbn. lia.
    + intros k. unfold segment. rewrite E1. destruct (Nat.lt_ge_cases k (length ss)) as [K|K]; [rewrite nth_prepare by exact K; cbn; lia|]. rewrite (nth_overflow (map prepare ss) no_seg) by (rewrite map_length; exact K). cbn. lia.
  - intros k R. destruct (Nat.lt_ge_cases k (length ss)) as [K|K]; [rewrite nth_prepare by exact K; exact (proj1 (proj2 (PO _ (INS k K))))|]. rewrite (nth_overflow (map prepare ss) no_seg) by (rewrite map_length; exact K). cbn [no_seg s_abs_frame]. change (2 ^ 16) with 65536. lia.
Qed.
Lemma ready_weaken : forall im lim lim' ks, ready im lim ks -> lim <= lim' -> lim' + room (segs im) ks < 2 ^ 32 -> ready im lim' ks.
Proof.
  intros im lim lim' ks (G & L & ND & B) H L'. split; [|auto]. constructor; [apply (gd_hdr _ _ G)|pose proof (gd_lim _ _ G); lia| |apply (gd_ok _ _ G)].
  intros g. pose proof (gd_tot _ _ G g). lia.
Qed.
Lemma placed_unplaced : forall s s', placed s s' -> unplaced s s'.
Proof. intros s s' (a & b & c & ->). repeat split. Qed.

(** * the layout *)
Record laid_out (fmt : format) (d : mzdata) (flat : option nat) (o : order) (n : nat) (ss : list seg) (l ks : list nat) (im : image) : Prop := {
  lo_eq : layout fmt flat o (seq 0 (length ss)) (snd (initial fmt d n ss)) = Some (l, im);
  lo_im : im = calc_all fmt flat ks (snd (initial fmt d n ss));
  lo_order : stably_sorted (before o (map prepare ss)) (seq 0 (length ss)) ks;
  lo_perm : Permutation (seq 0 (length ss)) l;
  lo_same : forall k, placed (nth k (map prepare ss) no_seg) (segment im k);
  lo_packed : packed fmt (segs im) (header fmt d n ss) ks;
  lo_hdr : sizehdr (cp im) = header fmt d n ss;
  lo_addr : addresses_ok im;
  lo_size : forall k, In k ks -> real (segs im) k = true -> 0 <= s_start_loc (segment im k) <= s_max_offset (segment im k) /\ s_max_offset (segment im k) < 2 ^ 30;
  lo_base : forall k, base im k < 2 ^ 31;
  lo_list : o <> DOSSEG -> l = ks;
  lo_ready : ready (snd (initial fmt d n ss)) (header fmt d n ss) ks;
  lo_sorted : StronglySorted (fun a b => real (segs im) a = true -> real (segs im) b = true -> s_fileofs (segment im a) <= s_fileofs (segment im b)) l
}.
Lemma seg_room : forall im lim, good im lim -> forall ks, (forall k, In k ks -> (k < length (segs im))%nat) -> forall k, In k ks -> real (segs im) k = true -> s_max_offset (segment im k) <= room (segs im) ks.
Proof.
  intros im lim G. induction ks as [|j r IH]; intros B k K R; [destruct K|]. cbn [room fold_right]. fold (room (segs im) r). fold (segment im j).
  assert (0 <= room (segs im) r) as RN by (apply (room_nonneg im lim G); intros; apply B; right; assumption).
  destruct K as [<-|K].
  - rewrite R. unfold real in R. apply negb_true_iff, Z.eqb_neq in R. destruct (gd_ok _ _ G j (B j ltac:(left; reflexivity)) R) as (A & _). pose proof (pow2_pos (s_align (segment im j)) ltac:(lia)). lia.
  - specialize (IH ltac:(intros; apply B; right; assumption) k K R). destruct (real (segs im) j) eqn:RJ; [|lia].
    unfold real in RJ. apply negb_true_iff, Z.eqb_neq in RJ. destruct (gd_ok _ _ G j (B j ltac:(left; reflexivity)) RJ) as (A & SL & _). pose proof (pow2_pos (s_align (segment im j)) ltac:(lia)). lia.
Qed.
Lemma sorted_from_packed : forall fmt im ks from, packed fmt (segs im) from ks -> (forall k, In k ks -> real (segs im) k = true -> 0 <= reserved fmt (segment im k)) ->
  StronglySorted (fun a b => real (segs im) a = true -> real (segs im) b = true -> s_fileofs (segment im a) <= s_fileofs (segment im b)) ks.
Proof.
  intros fmt im. induction ks as [|k r IH]; intros from P H; [constructor|]. cbn [packed] in P. constructor.
  - destruct (real (segs im) k); [destruct P as (_ & _ & P)|]; apply (IH _ P); intros; apply H; auto; right; assumption.
  - apply Forall_forall. intros j J RK RJ. rewrite RK in P. destruct P as (_ & _ & P). pose proof (packed_from fmt (segs im) r _ P ltac:(intros; apply H; auto; right; assumption) j J RJ) as X.
    fold (segment im k) (segment im j) in X. specialize (H k ltac:(left; reflexivity) RK). lia.
Qed.
Lemma layout_all : forall fmt d flat o n ss, (fmt = MZ -> mz_ok d) -> program_ok n ss -> exists l ks im, laid_out fmt d flat o n ss l ks im.
Proof.
  intros fmt d flat o n ss HM PO. set (im0 := snd (initial fmt d n ss)). destruct (initial_segs fmt d n ss) as (E1 & E2 & E3 & E4 & _). fold im0 in E1, E2, E3, E4.
  destruct (layout_spec fmt flat o (seq 0 (length ss)) im0) as (l & ks & EL & ST & PL & NE & DS).
  { intros k K. unfold segment. rewrite E1. apply in_seq in K. rewrite nth_prepare by lia. destruct (proj1 PO (nth k ss no_seg) ltac:(apply nth_In; lia)) as (T & _). unfold prepare. cbn [s_type]. destruct (s_stack _); [unfold SEGTYPE_STACK; lia|exact T]. }
  pose proof ST as (PK & _). destruct (ready_initial fmt d n ss ks HM PO PK) as (RD & BD & RE & AB). fold im0 in RD, BD.
  exists l, ks, (calc_all fmt flat ks im0). destruct (calc_frame fmt flat ks im0 _ RD) as (LS & LG & HS & _ & PJ & GD & PP). set (im := calc_all fmt flat ks im0) in *.
  pose proof (header_range fmt d n ss HM) as HR. destruct PO as [PO RM].
  assert (forall k, In k ks -> (k < length (segs im))%nat) as BK by (intros k K; rewrite LS; apply RD; exact K).
  assert (room (segs im) ks = room (map prepare ss) ks) as RI by (rewrite <- E1; apply room_placed; intros k _; apply PJ).
  assert (bounded im (2 ^ 20 + room (segs im0) ks)) as BI.
  { unfold im. apply bounded_calc; [|lia| |].
    - apply (ready_weaken im0 _ (2 ^ 20) ks RD); [lia|]. rewrite E1, RE. change (2 ^ 31) with 2147483648 in *; change (2 ^ 30) with 1073741824 in *. change (2 ^ 32) with 4294967296. lia.
    - intros k _ R. rewrite E1 in R. unfold segment. rewrite E1. apply AB. exact R.
    - destruct BD as [B1 B2]. split; [intros g; specialize (B1 g); lia|intros k; specialize (B2 k); lia]. }
  rewrite E1, RE in BI.
  assert (forall k, In k ks -> real (segs im) k = true -> 0 <= s_start_loc (segment im k) <= s_max_offset (segment im k) /\ s_max_offset (segment im k) < 2 ^ 30) as SZ.
  { intros k K R. pose proof (seg_room im _ GD ks BK k K R) as SR. rewrite RI, RE in SR. pose proof R as R'. unfold real in R'. apply negb_true_iff, Z.eqb_neq in R'. destruct (gd_ok _ _ GD k (BK k K) R') as (_ & SL & _). split; [exact SL|]. lia. }
  constructor.
  - exact EL.
  - reflexivity.
  - rewrite <- E1. exact ST.
  - exact PL.
  - intros k. rewrite <- E1. apply PJ.
  - rewrite <- E4. exact PP.
  - rewrite HS. reflexivity.
  - apply (bounded_ok im _ BI). change (2 ^ 21) with 2097152 in RM; change (2 ^ 20) with 1048576; change (2 ^ 31) with 2147483648; change (2 ^ 30) with 1073741824 in RM; lia.
  - exact SZ.
  - intros k. destruct BI as [B1 B2]. unfold base. pose proof (B2 k) as X. change (2 ^ 31) with 2147483648 in *; change (2 ^ 30) with 1073741824 in *. change (2 ^ 21) with 2097152 in *; change (2 ^ 20) with 1048576 in *. change (2 ^ 32) with 4294967296.
    destruct (s_grp (segment im k)) as [g|]; [pose proof (B1 g)|]; lia.
  - exact NE.
  - exact RD.
  - assert (forall k, In k ks -> real (segs im) k = true -> 0 <= reserved fmt (segment im k)) as RN.
    { intros k K R. specialize (SZ k K R). unfold reserved, extent. destruct fmt; [lia|]. destruct (s_type _ =? 3); lia. }
    assert (o = DOSSEG \/ o <> DOSSEG) as [OD|OD] by (destruct o; (left; reflexivity) || (right; discriminate)).
    + destruct (DS OD) as (_ & SS & _). clear -SS. induction SS as [|a m S0 IH F]; constructor; [exact IH|]. rewrite Forall_forall in *. intros j J _ _. specialize (F j J). cbv beta in F. rewrite Z.gtb_ltb in F. apply Z.ltb_ge in F. exact F.
    + rewrite (NE OD). apply (sorted_from_packed fmt im ks _ PP RN).
Qed.

(** * the entry point of a flat binary *)
Lemma entry_ok : forall flat ks im lim, ready im lim ks ->
  let im' := calc_all NONE flat ks im in
  entryseg (cp im') = match entryseg (cp im) with Some e => Some e | None => find (real (segs im)) ks end /\
  imagestart (cp im') = if first (cp im) then match find (real (segs im)) ks with Some k => s_start_loc (segment im k) | None => imagestart (cp im) end else imagestart (cp im).
Proof.
  intros flat. induction ks as [|k r IH]; intros im lim R im'.
  - unfold im'. rewrite calc_nil. cbn [find]. split; [destruct (entryseg (cp im)); reflexivity|destruct (first (cp im)); reflexivity].
  - unfold im'. rewrite calc_cons. destruct (calc_step NONE flat k r im lim R) as (R1 & _ & _ & _ & EJ & PJ & _). set (im1 := CalcOffset NONE flat k im) in *.
    destruct (IH im1 _ R1) as [I1 I2]. rewrite I1, I2. clear I1 I2.
    assert (find (real (segs im1)) r = find (real (segs im)) r) as FR.
    { assert (forall j, placed (segment im j) (segment im1 j)) as P1 by (intros j; destruct (Nat.eq_dec j k) as [->|N]; [exact PJ|rewrite (EJ j N); apply placed_refl]).
      clear -P1. induction r as [|j r IH]; [reflexivity|]. cbn [find]. rewrite (real_placed (segs im) (segs im1) j (P1 j)), IH. reflexivity. }
    rewrite FR. pose proof R as (G & LL & ND & BB). inversion ND as [|? ? NI ND']; subst. destruct (real (segs im) k) eqn:RK; cbn [find]; rewrite RK.
    + pose proof RK as RK'. unfold real in RK'. apply negb_true_iff, Z.eqb_neq in RK'.
      assert (lim + add_of (segment im k) < 2 ^ 32) as LA.
      { cbn [room fold_right] in LL. rewrite RK in LL. fold (room (segs im) r) in LL. fold (segment im k) in LL. fold (add_of (segment im k)) in LL. assert (0 <= room (segs im) r) by (apply (room_nonneg im lim G); intros; apply BB; right; assumption). lia. }
      destruct (calc_real NONE flat k im lim G (BB k ltac:(left; reflexivity)) RK' LA) as (_ & _ & C3 & _ & _ & _ & _ & C8). destruct (C8 eq_refl) as [C9 C10]. fold im1 in C3, C9, C10. rewrite C9, C10, C3.
      split; [destruct (entryseg (cp im)); reflexivity|]. destruct (first (cp im)) eqn:F; [|reflexivity]. unfold keep. rewrite F. reflexivity.
    + unfold real in RK. apply negb_false_iff, Z.eqb_eq in RK. destruct (calc_abs NONE flat k im RK) as (v & C & _). fold im1 in C. rewrite C. cbn [cp].
      split; [reflexivity|]. destruct (first (cp im)); [|reflexivity].
      destruct (find (real (segs im)) r) as [j|] eqn:F; [|reflexivity]. apply find_some in F. destruct F as [F _]. rewrite <- C, EJ; [reflexivity|]. intros ->. contradiction.
Qed.
Lemma laid_out_segs : forall fmt d flat o n ss l ks im, laid_out fmt d flat o n ss l ks im -> Permutation l ks /\ NoDup l /\ (forall k, real (segs im) k = real (map prepare ss) k) /\ (forall k, In k l <-> (k < length ss)%nat).
Proof.
  intros fmt d flat o n ss l ks im L. destruct (lo_order _ _ _ _ _ _ _ _ _ L) as (PK & _). pose proof (lo_perm _ _ _ _ _ _ _ _ _ L) as PL.
  split; [etransitivity; [symmetry; exact PL|exact PK]|]. split; [eapply Permutation_NoDup; [exact PL|apply seq_NoDup]|]. split.
  - intros k. apply (real_placed (map prepare ss) (segs im) k). apply (lo_same _ _ _ _ _ _ _ _ _ L).
  - intros k. rewrite <- (in_seq (length ss) 0 k) || idtac. split; intros K.
    + apply (Permutation_in _ (Permutation_sym PL)) in K. apply in_seq in K. lia.
    + apply (Permutation_in _ PL). apply in_seq. lia.
Qed.
