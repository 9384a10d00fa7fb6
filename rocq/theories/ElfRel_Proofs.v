(** ELF: relocations. *)
From Verif Require Import Base Elf_Model Elf_Spec Elf_Proofs ElfLay_Proofs ElfSym_Proofs ElfEnt_Proofs.
From Coq Require Import Lia Arith.

Lemma reloc_type_iff w t ty : reloc_type w t = Some ty <-> In (t, ty) (if w then types64 else types32).
Proof.
  unfold reloc_type, types64, types32. split.
  - destruct w; repeat (match goal with |- context [t =? ?c] => destruct (Z.eqb_spec t c) as [->|?] end; [intros E; injection E as <-; cbn [In]; auto 20|]); discriminate.
  - destruct w; cbn [In]; intros H; repeat (destruct H as [H|H]; [apply pair_equal_spec in H as [<- <-]; reflexivity|]); contradiction.
Qed.
Lemma reloc_type_range w t ty : reloc_type w t = Some ty -> 0 <= ty < 24.
Proof. intros H. apply reloc_type_iff in H. destruct w; cbn [In types32 types64] in H; repeat (destruct H as [H|H]; [apply pair_equal_spec in H as [_ <-]; lia|]); contradiction. Qed.
Lemma write_reloc_zlen w t f b : write_reloc w t f = Ok b -> zlen b = sizeof_rel w.
Proof. unfold write_reloc. destruct (index_of t (f_ref f)); cbn [bindr]; [|discriminate..]. destruct (reloc_type w (f_type f)); [|discriminate]. destruct w; intros E; match type of E with Ok ?v = _ => assert (b = v) as -> by congruence end; reflexivity. Qed.
Lemma write_relocs_split w t fs : forall d, write_relocs w t fs = Ok d -> exists bs, d = flat_map (fun b : list Z => b) bs /\ Forall2 (fun f b => write_reloc w t f = Ok b) fs bs.
Proof.
  induction fs as [|f fs IH]; intros d E; cbn [write_relocs] in E.
  - exists []. split; [cbn [flat_map]; congruence|constructor].
  - destruct (write_reloc w t f) as [b| |] eqn:Eb; cbn [bindr] in E; [|discriminate..]. destruct (write_relocs w t fs) as [r| |]; cbn [bindr] in E; [|discriminate..].
    destruct (IH r eq_refl) as (bs & -> & F). exists (b :: bs). split; [cbn [flat_map]; congruence|]. now constructor.
Qed.
Lemma bs_zlen w t fs bs : Forall2 (fun f b => write_reloc w t f = Ok b) fs bs -> Forall (fun b => zlen b = sizeof_rel w) bs.
Proof. induction 1; constructor; [eapply write_reloc_zlen; eauto|assumption]. Qed.
Lemma write_relocs_zlen w t fs d : write_relocs w t fs = Ok d -> zlen d = zlen fs * sizeof_rel w.
Proof.
  intros E. apply write_relocs_split in E as (bs & -> & F). rewrite (flat_map_zlen (fun b => b) (sizeof_rel w) bs (bs_zlen _ _ _ _ F)). now rewrite (Forall2_zlen _ _ _ F).
Qed.
(** the symbol table: positions *)
Lemma syms_zlen m src : zlen (local_part m src ++ global_part m) = 2 + zlen (m_secs m) + zlen (order m).
Proof. unfold local_part, global_part, order. rewrite zlen_app, !zlen_cons, !zlen_app. unfold zlen. rewrite !map_length, seq_length, app_length. lia. Qed.
Lemma syms_sec m src k : (k < length (m_secs m))%nat -> nth_error (local_part m src ++ global_part m) (2 + k) = Some (sec_entry k).
Proof.
  intros H. unfold local_part. cbn [app Nat.add nth_error]. rewrite <- app_assoc, nth_error_app1 by (now rewrite map_length, seq_length). rewrite nth_error_map.
  rewrite (nth_error_nth' _ 0%nat) by (now rewrite seq_length). rewrite seq_nth by exact H. reflexivity.
Qed.
Lemma syms_sym m src i n : nth_error (order m) i = Some n -> nth_error (local_part m src ++ global_part m) (2 + length (m_secs m) + i) = Some (sym_entry m n).
Proof.
  intros H. unfold local_part, global_part. cbn [app Nat.add nth_error]. rewrite <- app_assoc, nth_error_app2 by (rewrite map_length, seq_length; lia).
  rewrite map_length, seq_length. replace (length (m_secs m) + i - length (m_secs m))%nat with i by lia. rewrite <- map_app. fold (order m). rewrite nth_error_map. now rewrite H.
Qed.
Lemma used_In m s f n : In s (m_secs m) -> In f (s_fix s) -> f_ref f = RSym n -> In n (used m).
Proof. intros A B C. unfold used. apply in_flat_map. exists s. split; [exact A|]. apply in_flat_map. exists f. split; [exact B|]. rewrite C. now left. Qed.
(** the index designates the target *)
Lemma index_ok m t src s f i : module_ok m -> nsyms m + 1 < 2 ^ 32 -> inv (2 + zlen (m_secs m)) t (order m) -> In s (m_secs m) -> In f (s_fix s) -> index_of t (f_ref f) = Ok i ->
  0 < i < zlen (local_part m src ++ global_part m) /\ i < nsyms m /\ exists e, nth_error (local_part m src ++ global_part m) (Z.to_nat i) = Some e /\ target m (f_ref f) e.
Proof.
  intros K R V Hs Hf E. pose proof (nsyms_order m) as O. rewrite syms_zlen. pose proof (zlen_nonneg (order m)) as On. pose proof (zlen_nonneg (m_secs m)) as Sn.
  pose proof (w_fix _ _ (proj1 (Forall_forall _ _) (k_secs _ K) s Hs)) as W. pose proof (proj1 (Forall_forall _ _) W f Hf) as (_ & _ & T). cbv beta in T.
  assert (forall k, (k < length (m_secs m))%nat -> i = sec_idx k -> 0 < i < 2 + zlen (m_secs m) + zlen (order m) /\ i < nsyms m /\
    nth_error (local_part m src ++ global_part m) (Z.to_nat i) = Some (sec_entry k)) as G.
  { intros k Hk ->. unfold sec_idx. unfold zlen in Sn, O |- *. rewrite wrap_small by (unfold zlen in *; lia). split; [unfold zlen in *; lia|]. split; [unfold zlen in *; lia|].
    replace (Z.to_nat (2 + Z.of_nat k)) with (2 + k)%nat by lia. now apply syms_sec. }
  destruct (f_ref f) as [|n|k|[k|]] eqn:Er; cbn [index_of] in E; try discriminate; assert (i = _) as Ei by (injection E as <-; reflexivity); clear E.
  - assert (In n (order m)) as I1. { unfold order. rewrite !in_app_iff. destruct T as [T|[T|T]]; [left; apply private_In; split; [eapply used_In; eauto|exact T]|auto|auto]. }
    apply In_nth_error in I1 as [j Hj]. rewrite (i_idx _ _ _ V j n Hj) in Ei. assert (j < length (order m))%nat as Lj by (apply nth_error_Some; congruence).
    unfold zlen in *. split; [lia|]. split; [lia|]. exists (sym_entry m n). split; [|reflexivity]. replace (Z.to_nat i) with (2 + length (m_secs m) + j)%nat by lia. now apply syms_sym.
  - destruct (G k T Ei) as (G1 & G2 & G3). split; [exact G1|]. split; [exact G2|]. exists (sec_entry k). now split.
  - destruct (G k T Ei) as (G1 & G2 & G3). split; [exact G1|]. split; [exact G2|]. exists (sec_entry k). now split.
Qed.
Lemma split64 i ty : 0 <= i < 2 ^ 32 -> 0 <= ty < 24 -> let v := le_val (le_bytes 8 (Z.shiftl i 32 + ty)) in v / 2 ^ 32 = i /\ v mod 2 ^ 32 = ty.
Proof.
  intros H1 H2 v. subst v. rewrite Z.shiftl_mul_pow2 by lia. rewrite f_8 by lia. split.
  - rewrite Z.div_add_l by lia. rewrite Z.div_small by lia. lia.
  - rewrite Z.add_comm, Z.mod_add by lia. apply Z.mod_small. lia.
Qed.
Lemma split32 i ty : 0 <= i < 2 ^ 24 -> 0 <= ty < 24 -> let v := le_val (le_bytes 4 (wrap 32 (Z.shiftl i 8) + ty)) in v / 2 ^ 8 = i /\ v mod 2 ^ 8 = ty.
Proof.
  intros H1 H2 v. subst v. rewrite Z.shiftl_mul_pow2 by lia. rewrite wrap_small by lia. rewrite f_4 by lia. split.
  - rewrite Z.div_add_l by lia. rewrite Z.div_small by lia. lia.
  - rewrite Z.add_comm, Z.mod_add by lia. apply Z.mod_small. lia.
Qed.
Lemma addend_ok a : 0 <= a < 256 -> swrap 64 (le_val (le_bytes 8 (- a))) = - a.
Proof. intros H. rewrite f_le. change (8 * Z.of_nat 8) with 64. transitivity (swrap 64 (- a)); [unfold swrap, wrap; f_equal; apply Zplus_mod_idemp_l|apply swrap_small; lia]. Qed.
Lemma write_reloc_ok m t src s f b : module_ok m -> nsyms m + 1 < 2 ^ 32 -> inv (2 + zlen (m_secs m)) t (order m) -> In s (m_secs m) -> In f (s_fix s) ->
  write_reloc (m_64 m) t f = Ok b -> reloc_ok m (local_part m src ++ global_part m) f (rd_rel (m_64 m) b).
Proof.
  intros K R V Hs Hf E. pose proof (w_fix _ _ (proj1 (Forall_forall _ _) (k_secs _ K) s Hs)) as W. pose proof (proj1 (Forall_forall _ _) W f Hf) as (W1 & W2 & _). cbv beta in W1, W2.
  unfold write_reloc in E. destruct (index_of t (f_ref f)) as [i| |] eqn:Ei; cbn [bindr] in E; [|discriminate..]. destruct (reloc_type (m_64 m) (f_type f)) as [ty|] eqn:Et; [|discriminate].
  destruct (index_ok m t src s f i K R V Hs Hf Ei) as (I1 & I2 & I3). pose proof (reloc_type_range _ _ _ Et) as Rt. apply reloc_type_iff in Et. unfold reloc_ok, rd_rel. destruct (m_64 m) eqn:M.
  - assert (b = uw true (f_locofs f) ++ uw true (Z.shiftl i 32 + ty) ++ uw true (- f_addbytes f)) as -> by congruence. cbn [r_offset r_type r_addend r_sym].
    set (b := uw true (f_locofs f) ++ uw true (Z.shiftl i 32 + ty) ++ uw true (- f_addbytes f)).
    assert (field 0 8 b = f_locofs f) as -> by (transitivity (le_val (le_bytes 8 (f_locofs f))); [reflexivity|apply f_8; lia]).
    destruct (split64 i ty ltac:(lia) Rt) as [S1 S2]. change (field 8 8 b) with (le_val (le_bytes 8 (Z.shiftl i 32 + ty))). rewrite S1, S2.
    change (field 16 8 b) with (le_val (le_bytes 8 (- f_addbytes f))). rewrite addend_ok by exact W2. auto.
  - assert (b = u32 (f_locofs f) ++ u32 (wrap 32 (Z.shiftl i 8) + ty)) as -> by congruence. cbn [r_offset r_type r_addend r_sym].
    set (b := u32 (f_locofs f) ++ u32 (wrap 32 (Z.shiftl i 8) + ty)). pose proof (k_index _ K M) as K24.
    assert (field 0 4 b = f_locofs f) as -> by (transitivity (le_val (le_bytes 4 (f_locofs f))); [reflexivity|apply f_4; lia]).
    destruct (split32 i ty ltac:(lia) Rt) as [S1 S2]. change (field 4 4 b) with (le_val (le_bytes 4 (wrap 32 (Z.shiftl i 8) + ty))). rewrite S1, S2. auto.
Qed.
Lemma write_relocs_read m t src s d : module_ok m -> nsyms m + 1 < 2 ^ 32 -> inv (2 + zlen (m_secs m)) t (order m) -> In s (m_secs m) -> write_relocs (m_64 m) t (s_fix s) = Ok d ->
  exists rs, table (sizeof_rel (m_64 m)) d = Some rs /\ Forall2 (reloc_ok m (local_part m src ++ global_part m)) (s_fix s) (map (rd_rel (m_64 m)) rs).
Proof.
  intros K R V Hs E. apply write_relocs_split in E as (bs & -> & F). exists bs. split.
  - rewrite table_map; [now rewrite map_id|destruct (m_64 m); reflexivity|]. exact (bs_zlen _ _ _ _ F).
  - assert (forall fs bs, Forall2 (fun f b => write_reloc (m_64 m) t f = Ok b) fs bs -> (forall f, In f fs -> In f (s_fix s)) -> Forall2 (reloc_ok m (local_part m src ++ global_part m)) fs (map (rd_rel (m_64 m)) bs)) as G.
    { induction 1 as [|f b fs' bs' H1 _ IH]; intros Hi; cbn [map]; constructor; [eapply write_reloc_ok; eauto; apply Hi; now left|]. apply IH. intros x Hx. apply Hi. now right. }
    apply G; auto.
Qed.
(** relocations are written if their types are supported *)
Lemma write_relocs_total (w : bool) t fs : Forall (fun f => (exists ty, In (f_type f, ty) (if (w : bool) then types64 else types32)) /\ match f_ref f with RNone | RVar None => False | _ => True end) fs -> exists d, write_relocs w t fs = Ok d.
Proof.
  induction 1 as [|f fs [[ty Ht] Hr] _ [d Ed]]; cbn [write_relocs]; [eauto|]. apply reloc_type_iff in Ht. unfold write_reloc. rewrite Ht.
  assert (exists i, index_of t (f_ref f) = Ok i) as [i ->] by (destruct (f_ref f) as [|n|k|[k|]]; cbn [index_of]; eauto; contradiction). cbn [bindr]. rewrite Ed. cbn [bindr]. eauto.
Qed.
