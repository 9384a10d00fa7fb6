(** The data of the sections. *)
From Verif Require Import Base Record_Proofs Bin_Proofs Crc_Model Crc_Spec Coff_Model Coff_Spec CoffStr_Proofs CoffSym_Proofs CoffEnt_Proofs CoffPub_Proofs CoffIdx_Proofs CoffRel_Proofs CoffLine_Proofs CoffHead_Proofs.

(** * sizes *)
Definition raw (s : section) : Z := if uninit s || (s_max s =? 0) then 0 else s_max s.
Definition padn (P : Z) (s : section) : Z := match s_fix s with [] => 0 | _ => (P + raw s) mod 2 end.
Definition nrels (s : section) : Z := num_relocs s + (if num_relocs s >? 0xffff then 1 else 0).
Definition sz (m : module) (P : Z) (s : section) : Z := raw s + padn P s + 10 * nrels s + 6 * zlen (asked_lines m s).

Lemma num_relocs_nonneg s : 0 <= num_relocs s. Proof. unfold num_relocs. apply zlen_nonneg. Qed.
Lemma nrels_nonneg s : 0 <= nrels s. Proof. unfold nrels. pose proof (num_relocs_nonneg s). destruct (_ >? _); lia. Qed.
Lemma num_relocs_nil s : s_fix s = [] -> num_relocs s = 0. Proof. intros E. unfold num_relocs. now rewrite E. Qed.
Lemma nrels_nil s : s_fix s = [] -> nrels s = 0. Proof. intros E. unfold nrels. now rewrite num_relocs_nil. Qed.
Lemma filter_vmap fs : zlen (filter (fun f => negb (is_none f)) (vmap fs)) = zlen (filter (fun f => negb (is_none f)) fs).
Proof.
  unfold vmap. induction fs as [|f fs IH]; [reflexivity|]. cbn [map filter]. destruct (is_none f) eqn:E.
  - unfold is_none at 1. cbn [void f_ref]. unfold is_none in E. rewrite E. cbn [negb]. exact IH.
  - rewrite E. cbn [negb]. rewrite !zlen_cons. lia.
Qed.
Lemma num_relocs_with s t b : num_relocs (with_data s t b) = num_relocs s. Proof. unfold num_relocs. cbn [with_data s_fix]. apply filter_vmap. Qed.
Lemma num_relocs_set b s : num_relocs (set_buf b s) = num_relocs s. Proof. reflexivity. Qed.
Lemma asked_lines_uninit m s : section_wf m s -> uninit s = true -> asked_lines m s = [].
Proof. intros W U. destruct (w_uninit _ _ W U) as [_ E]. unfold asked_lines. rewrite E. now destruct (lines_on (m_opt m)). Qed.
Lemma asked_lines_head m s : section_wf m s -> match asked_lines m s with LLine _ _ :: _ => False | _ => True end.
Proof. intros W. pose proof (w_lines _ _ W) as H. unfold asked_lines. destruct (lines_on (m_opt m)); [|exact Logic.I]. destruct (s_lines s); [|exact Logic.I]. tauto. Qed.
Lemma asked_lines_ok m s : section_wf m s -> Forall (line_ok m) (asked_lines m s) /\ zlen (asked_lines m s) < 2 ^ 16.
Proof.
  intros W. pose proof (w_lines _ _ W) as H. unfold asked_lines. destruct (lines_on (m_opt m)); [|split; [constructor|reflexivity]].
  destruct (s_lines s); [tauto|split; [constructor|reflexivity]].
Qed.
Lemma groups_names m q : Forall (line_ok m) q -> Forall (fun g => In (gname g) (queue m)) (groups q).
Proof. induction 1 as [|[n l|n o] q H F IH]; cbn [groups]; [constructor| |exact IH]. constructor; [exact H|exact IH]. Qed.

Lemma in_queue_settled m index s added n : module_ok m -> inv m index s added -> In n (queue m) -> settled m s n.
Proof.
  intros M V Q. unfold settled. rewrite (v_inc _ _ _ _ V). unfold queue in Q. apply in_app_or in Q as [Q|Q].
  - destruct (w_pub _ M) as [F _]. rewrite Forall_forall in F. destruct (F n Q) as [_ B]. destruct (y_public (sym m n)), (y_included (sym m n)); cbn [orb negb andb] in *; rewrite ?andb_false_r; try reflexivity; discriminate.
  - assert (E : existsb (Nat.eqb n) (statics m ++ added) = true) by (apply existsb_In, in_or_app; now left). rewrite E, orb_true_r. now rewrite andb_false_r.
Qed.
Lemma dspec_cong nf c c' G p : (forall g, In g G -> c (gname (fst g)) = c' (gname (fst g))) -> dspec nf c G p = dspec nf c' G p.
Proof.
  intros H. unfold dspec. destruct (find _ G) as [[[[n l] g] pos]|]; [|reflexivity]. destruct (follower p (pnames G)) as [q|] eqn:F; [|reflexivity].
  assert (Q : In q (pnames G)).
  { clear H. revert F. generalize (pnames G). intros L. induction L as [|x r IH]; cbn [follower]; [discriminate|]. destruct (Nat.eqb x p).
    - destruct r; cbn [hd_error]; [discriminate|]. intros E. injection E as ->. right. now left.
    - intros E. right. auto. }
  unfold pnames in Q. apply in_map_iff in Q as (g' & <- & I'). now rewrite (H g' I').
Qed.
Lemma dinv_keeps m nf G s D s' e : dinv m nf G s D -> keeps m s s' -> Forall (fun g => settled m s (gname (fst g))) G -> c_dbg s' = c_dbg s -> c_lastproc s' = c_lastproc s ->
  dinv m nf G s' (D ++ e).
Proof.
  intros V K F E1 E2. assert (C : forall g, In g G -> c_idx s (gname (fst g)) = c_idx s' (gname (fst g))).
  { intros g I'. rewrite Forall_forall in F. symmetry. apply K. now apply F. }
  split.
  - intros p. rewrite E1, (d_dbg _ _ _ _ _ V). now apply dspec_cong.
  - rewrite E2. apply (d_last _ _ _ _ _ V).
  - apply (d_nodup _ _ _ _ _ V).
  - pose proof (d_pos _ _ _ _ _ V) as H. rewrite Forall_forall in *. intros g I'. destruct (H g I') as (off & A & B). exists off. split; [assumption|]. rewrite <- (C g I'). now apply slice_mono.
Qed.
Lemma start_data_even m : Z.even (start_data m) = true.
Proof.
  unfold start_data, wrap. replace (20 + zlen (m_secs m) * 40) with (2 * (10 + 20 * zlen (m_secs m))) by lia. rewrite Z.even_spec. change (2 ^ 32) with (2 * 2 ^ 31).
  rewrite Z.mul_mod_distr_l by lia. eexists. reflexivity.
Qed.
Lemma padn_odd m off s : raw s = s_max s -> padn (start_data m + off) s = if Z.odd (off + s_max s) && match s_fix s with [] => false | _ => true end then 1 else 0.
Proof.
  intros E. unfold padn. rewrite E. destruct (s_fix s); [now rewrite andb_false_r|]. rewrite andb_true_r.
  rewrite <- Z.add_assoc, Zmod_odd, Z.odd_add. pose proof (start_data_even m) as H. rewrite <- Z.negb_odd in H. destruct (Z.odd (start_data m)); [discriminate|]. now destruct (Z.odd (off + s_max s)).
Qed.

(** * the bytes of a section *)
Lemma section_bytes_spec x m off s d b :
  raw s = s_max s -> 0 <= s_start_loc s <= s_max s -> s_max x = s_max s -> s_start_loc x = s_start_loc s -> (s_fix x = [] <-> s_fix s = []) ->
  match s_buf x with Some c => zlen c = s_max s - s_start_loc s /\ d = repeat 0 (Z.to_nat (s_start_loc s)) ++ c | None => d = repeat 0 (Z.to_nat (s_max s)) end ->
  section_bytes x off = Ok b -> exists pad, b = d ++ pad /\ zlen pad = padn (start_data m + off) s.
Proof.
  intros R St E1 E2 E3 B. unfold section_bytes. cbn zeta. rewrite E1, E2.
  assert (E4 : match s_fix x with [] => false | _ => true end = match s_fix s with [] => false | _ => true end).
  { destruct (s_fix x) as [|? ?], (s_fix s) as [|? ?]; try reflexivity; [destruct E3 as [Q _]|destruct E3 as [_ Q]]; specialize (Q eq_refl); discriminate. }
  rewrite E4. rewrite (padn_odd m off s R). set (o := Z.odd (off + s_max s) && match s_fix s with [] => false | _ => true end).
  destruct (s_buf x) as [c|].
  - destruct B as [L ->]. destruct (_ || _) eqn:Q; [discriminate|]. intros E. apply Ok_inj in E. subst b. destruct o.
    + exists [s_pad x]. split; [|reflexivity]. rewrite <- app_assoc. f_equal. apply firstn_all2. rewrite app_length. cbn [length]. unfold zlen in L. lia.
    + exists []. split; [|reflexivity]. rewrite app_nil_r. f_equal. rewrite firstn_app. replace (Z.to_nat (s_max s + 0 - s_start_loc s)) with (length c) by (unfold zlen in L; lia).
      rewrite firstn_all, Nat.sub_diag. apply app_nil_r.
  - subst d. intros E. apply Ok_inj in E. subst b. exists (repeat 0 (if o then 1%nat else 0%nat)). rewrite <- repeat_app. split; [f_equal; destruct o; lia|destruct o; reflexivity].
Qed.
Lemma fixup_length a i t : length (coff_write_fixup a i t) = 10%nat.
Proof. unfold coff_write_fixup. now rewrite !app_length, !le_bytes_length. Qed.
Lemma recs_length m s u fs recs : Forall2 (reloc_rec m s u) fs recs -> Forall (fun r => length r = 10%nat) recs /\ zlen recs = zlen fs.
Proof.
  induction 1 as [|f r fs recs H F [IH1 IH2]]; [split; [constructor|reflexivity]|]. destruct H as (t & _ & _ & -> & _). split.
  - constructor; [apply fixup_length|assumption].
  - rewrite !zlen_cons. lia.
Qed.
Lemma concat_len k r : Forall (fun a : list Z => zlen a = k) r -> zlen (concat r) = k * zlen r.
Proof. induction 1 as [|a r H F IH]; [unfold zlen; cbn; lia|]. cbn [concat]. rewrite zlen_app, zlen_cons, IH, H. lia. Qed.

Definition over (s : section) : list Z := if num_relocs s >? 0xffff then coff_write_fixup (num_relocs s + 1) 0 0 else [].
Lemma over_zlen s : zlen (over s) = if num_relocs s >? 0xffff then 10 else 0.
Proof. unfold over. destruct (_ >? _); [unfold zlen; now rewrite fixup_length|reflexivity]. Qed.
(** what [write_data] gets for a section *)
Definition sx (m : module) (H : list Z) (k : nat) (x : section) : section := if is_sx m k then set_buf H x else x.
Definition dat (m : module) (H : list Z) (k : nat) (s : section) : list Z := if is_sx m k then H else resolved s.
Definition sx_ok (m : module) (H : list Z) (k : nat) (s : section) : Prop := is_sx m k = true -> zlen H = s_max s /\ s_start_loc s = 0 /\ s_fix s = [] /\ s_comdat s = 0 /\ uninit s = false.
Definition skips (s : section) (t : Z) : bool := s_stack s && (s_written s =? 0) || (t =? SEGTYPE_BSS).

Lemma same_syms_inv m index s added s' : same_syms s s' -> inv m index s added -> inv m index s' added.
Proof.
  intros (E1 & E2 & E3 & E4) V. split.
  - rewrite E3. apply (v_pub _ _ _ _ V).
  - apply (v_added _ _ _ _ V).
  - rewrite E3. apply (v_nodup _ _ _ _ V).
  - rewrite E1, E3. apply (v_placed _ _ _ _ V).
  - rewrite E3. apply (v_index _ _ _ _ V).
  - rewrite E2. apply (v_inc _ _ _ _ V).
  - rewrite E1. apply (v_ext _ _ _ _ V).
Qed.
Lemma same_syms_keeps m s s' : same_syms s s' -> keeps m s s'.
Proof. intros (E1 & E2 & _) n H. unfold settled in *. rewrite E1, E2. auto. Qed.
Lemma lrecs_length c start q bs : lrecs c start q bs -> zlen bs = 6 * zlen q.
Proof.
  intros (recs & -> & F & E). rewrite (concat_len 6) by assumption. f_equal.
  assert (L : zlen (map rd_line recs) = zlen (elines c start q)) by now rewrite E. clear E F. unfold zlen in *. rewrite map_length in L. rewrite L. clear L. f_equal.
  revert start. induction q as [|[n l|n o] q IH]; intros start; [reflexivity| |]; cbn [elines length]; now rewrite IH.
Qed.

Lemma Forall2_impl' {A B} (P Q : A -> B -> Prop) l l' : (forall a b, P a b -> Q a b) -> Forall2 P l l' -> Forall2 Q l l'.
Proof. intros H. induction 1; constructor; auto. Qed.
Lemma data_step m nf H k s t buf xs off index s0 added G D bs s' : module_ok m -> section_wf m s ->
  absolute_fixups (s_start_loc s) (s_fix s) (s_buf s) = Ok buf -> skips s t = uninit s -> sx_ok m H k s ->
  inv m index s0 added -> dinv m nf G s0 D -> zlen D = off -> Forall (fun g => In (gname (fst g)) (queue m)) G -> NoDup (pnames G ++ map gname (groups (asked_lines m s))) ->
  write_data m (sx m H k (with_data s t buf) :: xs) off index s0 = Ok (bs, s') ->
  exists d pad recs lin bs1 index1 s1 G',
    let rel := over s ++ concat recs in let all := d ++ pad ++ rel ++ lin in
    bs = all ++ bs1 /\ zlen d = raw s /\ (raw s <> 0 -> d = dat m H k s) /\ zlen pad = padn (start_data m + off) s /\ zlen rel = 10 * nrels s /\
    Forall2 (reloc_rec m s1 (s_use64 s)) (needs s) recs /\ lrecs (c_idx s1) 0 (asked_lines m s) lin /\
    inv m index1 s1 (added ++ new_refs m (map f_ref (needs s)) (statics m ++ added)) /\ keeps m s0 s1 /\ c_start_files s1 = c_start_files s0 /\
    map fst G' = groups (asked_lines m s) /\ dinv m nf (G ++ G') s1 (D ++ all) /\
    write_data m xs (off + zlen all) index1 s1 = Ok (bs1, s').
Proof.
  intros M W A Sk SX V DV L GQ ND. set (x := sx m H k (with_data s t buf)).
  assert (Xf : s_fix x = vmap (s_fix s)) by (unfold x, sx; destruct (is_sx m k); reflexivity).
  assert (Xm : s_max x = s_max s) by (unfold x, sx; destruct (is_sx m k); reflexivity).
  assert (Xl : s_lines x = s_lines s) by (unfold x, sx; destruct (is_sx m k); reflexivity).
  assert (Xs : s_start_loc x = s_start_loc s) by (unfold x, sx; destruct (is_sx m k); reflexivity).
  assert (Xu : s_use64 x = s_use64 s) by (unfold x, sx; destruct (is_sx m k); reflexivity).
  assert (Xn : num_relocs x = num_relocs s) by (unfold x, sx; destruct (is_sx m k); rewrite ?num_relocs_set; apply num_relocs_with).
  assert (Xk : s_stack x && (s_written x =? 0) || (s_type x =? SEGTYPE_BSS) = uninit s) by (rewrite <- Sk; unfold x, sx; destruct (is_sx m k); reflexivity).
  cbn [write_data].
  assert (E0 : forall A (a b : A), (if s_stack x && (s_written x =? 0) then a else if s_type x =? SEGTYPE_BSS then a else b) = if uninit s then a else b).
  { intros. rewrite <- Xk. destruct (s_stack x && (s_written x =? 0)); [reflexivity|]. now destruct (s_type x =? SEGTYPE_BSS). }
  rewrite E0. clear E0 Xk. destruct (uninit s) eqn:U.
  { intros E. destruct (w_uninit _ _ W U) as [F N]. exists [], [], [], [], bs, index, s0, []. cbv zeta. unfold over. rewrite (num_relocs_nil s F). change (0 >? 65535) with false.
    unfold raw, padn, needs. rewrite U, F, (nrels_nil s F), (asked_lines_uninit m s W U). cbn [orb map filter new_refs groups fst app concat]. rewrite !app_nil_r. change (zlen (@nil Z)) with 0. rewrite Z.add_0_r.
    repeat split; try reflexivity; try assumption; try constructor; try tauto; try (apply V) ; try apply DV. exists []. repeat split; try reflexivity; constructor. }
  (* data and relocations *)
  intros E. destruct (if s_max x =? 0 then _ else _) as [[[b index1] s1]| |] eqn:E1; cbn [bindr] in E; try discriminate.
  assert (B : exists d pad recs, b = d ++ pad ++ over s ++ concat recs /\ zlen d = raw s /\ (raw s <> 0 -> d = dat m H k s) /\ zlen pad = padn (start_data m + off) s /\
    zlen (over s ++ concat recs) = 10 * nrels s /\ Forall2 (reloc_rec m s1 (s_use64 s)) (needs s) recs /\
    inv m index1 s1 (added ++ new_refs m (map f_ref (needs s)) (statics m ++ added)) /\ keeps m s0 s1 /\ c_start_files s1 = c_start_files s0 /\ c_dbg s1 = c_dbg s0 /\ c_lastproc s1 = c_lastproc s0).
  { rewrite Xm in E1. destruct (Z.eqb_spec (s_max s) 0) as [Z0|NZ].
    - apply Ok_inj in E1. injection E1 as <- <- <-. pose proof (w_empty _ _ W Z0) as F. exists [], [], []. unfold over. rewrite (num_relocs_nil s F). change (0 >? 65535) with false.
      unfold raw, padn, needs. rewrite Z0, F, (nrels_nil s F). rewrite Z.eqb_refl, orb_true_r. cbn [map filter new_refs concat app]. rewrite !app_nil_r.
      repeat split; try reflexivity; try assumption; try constructor; try tauto; try apply V.
    - assert (R : raw s = s_max s). { unfold raw. rewrite U. destruct (Z.eqb_spec (s_max s) 0); [contradiction|reflexivity]. }
      destruct (section_bytes x off) as [d0| |] eqn:Es; cbn [bindr] in E1; try discriminate.
      destruct (section_bytes_spec x m off s (dat m H k s) d0 R) as (pad & -> & Lp); try assumption.
      + apply (w_size _ _ W).
      + rewrite Xf. unfold vmap. destruct (s_fix s); split; intros Q; try reflexivity; discriminate.
      + pose proof (resolved_buf _ _ _ W A) as RB. unfold x, sx, dat. destruct (is_sx m k) eqn:K.
        * destruct (SX K) as (H1 & H2 & _). cbn [set_buf s_buf]. rewrite H2. cbn [Z.to_nat repeat app]. split; [lia|reflexivity].
        * cbn [with_data s_buf]. destruct buf as [c|]; [|apply RB]. destruct RB as (? & _ & ? & _). now split.
      + unfold coff_write_fixups in E1. rewrite Xu, Xn in E1. destruct (write_fixups m (s_use64 s) (s_fix x) index s0) as [[[r i2] s2]| |] eqn:Ew; cbn [bindr] in E1; try discriminate.
        apply Ok_inj in E1. rewrite Xf in Ew.
        destruct (write_fixups_spec m (s_use64 s) M _ _ _ _ _ _ _ (proj1 (w_fix _ _ W)) V Ew) as (V2 & K2 & D2 & P2 & F2 & recs & Hr & Hf).
        apply pair_equal_spec in E1 as [E1 <-]. apply pair_equal_spec in E1 as [<- <-]. subst r.
        exists (dat m H k s), pad, recs. fold (over s). fold (needs s) in V2, Hf |- *.
        split; [now rewrite <- !app_assoc|]. split.
        { rewrite R. unfold dat. destruct (is_sx m k) eqn:K; [now destruct (SX K)|]. eapply resolved_zlen; eassumption. }
        split; [reflexivity|]. split; [assumption|]. split.
        { destruct (recs_length _ _ _ _ _ Hf) as [Q1 Q2]. rewrite zlen_app, over_zlen, (concat_len 10), Q2.
          - unfold nrels. change (zlen (needs s)) with (num_relocs s). destruct (_ >? _); lia.
          - eapply Forall_impl; [|exact Q1]. intros a Ha. cbv beta in Ha. unfold zlen. now rewrite Ha. }
        exact (conj Hf (conj V2 (conj K2 (conj F2 (conj D2 P2))))). }
  clear E1. destruct B as (d & pad & recs & -> & Ld & Hd & Lp & Lr & Hr & V1 & K1 & F1 & D1 & P1).
  set (b := d ++ pad ++ over s ++ concat recs) in *.
  assert (S1 : Forall (fun g => settled m s0 (gname (fst g))) G).
  { eapply Forall_impl; [|exact GQ]. intros g Hg. eapply in_queue_settled; eassumption. }
  pose proof (dinv_keeps _ _ _ _ _ _ b DV K1 S1 D1 P1) as DV1.
  destruct (match s_lines x with Some q => _ | None => _ end) as [[ln s2]| |] eqn:E2; cbn [bindr] in E; try discriminate.
  assert (B : same_syms s1 s2 /\ lrecs (c_idx s1) 0 (asked_lines m s) ln /\ exists G', map fst G' = groups (asked_lines m s) /\ dinv m nf (G ++ G') s2 ((D ++ b) ++ ln)).
  { rewrite Xl in E2.
    assert (E3 : write_lines (asked_lines m s) (start_data m) (off + zlen b) None s1 = Ok (ln, s2)).
    { unfold asked_lines. destruct (s_lines s) as [q|]; destruct (lines_on (m_opt m)); exact E2. }
    rewrite (lines_groups (asked_lines m s) (asked_lines_head m s W)) in E3 |- * at 1.
    destruct (write_groups m nf (groups (asked_lines m s)) (off + zlen b) None s1 G (D ++ b) ln s2 0 DV1) as (Q1 & Q2 & Q3); [rewrite zlen_app; clear -L; lia|assumption|assumption|].
    split; [assumption|]. split; [assumption|]. exact Q3. }
  destruct B as (Y & LR & G' & EG & DV2). destruct (write_data m xs (off + zlen b + zlen ln) index1 s2) as [[r s3]| |] eqn:E3; cbn [bindr] in E; try discriminate.
  apply Ok_inj in E. apply pair_equal_spec in E as [<- <-].
  exists d, pad, recs, ln, r, index1, s2, G'. cbv zeta.
  assert (Eb : d ++ pad ++ (over s ++ concat recs) ++ ln = b ++ ln) by (unfold b; now rewrite <- !app_assoc). rewrite Eb.
  split; [now rewrite <- app_assoc|]. split; [assumption|]. split; [assumption|]. split; [assumption|]. split; [assumption|]. split.
  { eapply Forall2_impl'; [|exact Hr]. intros f r' Q. eapply reloc_rec_keeps; [apply same_syms_keeps; eassumption|exact Q]. }
  split. { replace (c_idx s2) with (c_idx s1) by (symmetry; apply Y). assumption. }
  split; [eapply same_syms_inv; eassumption|]. split; [eapply keeps_trans; [exact K1|apply same_syms_keeps; exact Y]|]. split; [rewrite <- F1; apply Y|].
  split; [assumption|]. split; [now rewrite app_assoc|]. rewrite zlen_app, Z.add_assoc. exact E3.
Qed.
