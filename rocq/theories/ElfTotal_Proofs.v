(** ELF: when a file is written. *)
From Verif Require Import Base Elf_Model Elf_Spec Elf_Proofs ElfLay_Proofs ElfFile_Proofs ElfSym_Proofs ElfEnt_Proofs ElfRel_Proofs ElfTop_Proofs ElfObj_Proofs ElfRead_Proofs.
From Coq Require Import Lia Arith.

Lemma section_names_total ss : Forall (fun s => s_alias s <> None \/ zlen (s_name s) <= 245) ss -> exists ns, section_names ss = Ok ns.
Proof.
  induction 1 as [|s ss H _ [ns E]]; cbn [section_names]; [eauto|]. assert (exists n, section_name s = Ok n) as [n ->].
  { unfold section_name. destruct (s_alias s) as [a|]; [eauto|]. apply convert_fits. destruct H as [H|H]; [congruence|exact H]. }
  cbn [bindr]. rewrite E. cbn [bindr]. eauto.
Qed.
Lemma elf_total m : module_ok m -> complete m -> exists f, elf_write_module m = Ok f.
Proof.
  intros K [C1 C2 C3]. unfold elf_write_module. destruct (section_names_total _ C2) as [ns Ens]. rewrite Ens. cbn [bindr].
  apply (section_names_ok m) in Ens; [|apply (k_secs _ K)]. destruct (bounds_ok m ns K Ens) as [B1 B2 B3 B4 B5]. rewrite shstrtab_ok by exact B1. cbn [bindr].
  destruct (prog_headers _ _ _ _) as [[hs1 p1] fo1]. unfold set_symtab_values.
  assert (Forall (fun f => f_ref f <> RNone) (fixups m)) as NN by (eapply Forall_impl; [|exact C3]; cbv beta; intros x [_ Hx] E; rewrite E in Hx; exact Hx).
  destruct (set_indices_ok m K B3 NN) as (t & Et & V & Lt). destruct (set_symtab_ok m K B2) as (es & Ees & Les & Aes). rewrite Et. cbn [bindr]. rewrite Lt, Ees.
  pose proof (nsyms_order m) as No. pose proof (zlen_nonneg (order m)). pose proof (zlen_nonneg (m_secs m)).
  assert (zlen (flat_map (sym_bytes (m_64 m)) es) = zlen es * sizeof_sym (m_64 m)) as Lsy by (apply flat_map_zlen; apply Forall_forall; intros x _; apply sym_bytes_zlen).
  rewrite (fill_exact (wrap 32 (symindex t * sizeof_sym (m_64 m)))) by (rewrite (i_count _ _ _ V), Lsy, Les; apply wrap_small; destruct (m_64 m); cbn [sizeof_sym]; lia). cbn [bindr].
  rewrite fill_exact by reflexivity. cbn [bindr]. destruct (int_headers _ _ _ _ _ _ _) as [[hs2 p2] fo2]. destruct (rel_headers _ _ _ _ _ _ _) as [[hs3 p3] fo3].
  destruct (write_data_total (m_secs m) C1) with (h := hs1) (f := ehdr_bytes (m_64 m) (m_osabi m) (wrap 16 (1 + zlen (m_secs m) + 3 + get_num_reloc_sections (m_secs m))) (wrap 16 (1 + zlen (m_secs m))) ++ flat_map (shdr_bytes (m_64 m)) (null_shdr :: hs1 ++ hs2 ++ hs3)) as [f1 ->].
  { eapply Forall_impl; [|apply (k_secs _ K)]. cbv beta. intros s Hs. split; [apply (w_max _ _ Hs)|apply (w_size _ _ Hs)]. }
  cbn [bindr]. apply write_all_relocs_total. apply Forall_forall. intros [s h] Hin. cbn [fst]. apply in_combine_l in Hin. apply filter_In in Hin as [Hin _].
  apply write_relocs_total. apply Forall_forall. intros x Hx. apply (proj1 (Forall_forall _ _) C3). unfold fixups. apply in_flat_map. eauto.
Qed.
(** the locals come first *)
Lemma local_binds m file : Forall (fun e => e_bind e = 0) (local_part m file).
Proof.
  constructor; [reflexivity|]. constructor; [reflexivity|]. apply Forall_app. split; apply Forall_map, Forall_forall; [reflexivity|]. intros n Hn. apply private_In in Hn as [_ Hn].
  unfold sym_entry. unfold private in Hn. destruct (y_state (sym m n)); try discriminate. apply Bool.negb_true_iff in Hn. now rewrite Hn.
Qed.
Lemma global_binds m : module_ok m -> Forall (fun e => e_bind e = 1 \/ e_bind e = 2) (global_part m).
Proof.
  intros K. unfold global_part. apply Forall_map, Forall_app. split; apply Forall_forall; intros n Hn.
  - apply external_In in Hn. pose proof (proj1 (Forall_forall _ _) (proj2 (k_ext _ K)) n Hn) as X. cbv beta in X. unfold sym_entry. rewrite X. destruct (y_comm (sym m n)); cbn [e_bind]; [auto|]. destruct (y_altname (sym m n)); auto.
  - pose proof (proj1 (Forall_forall _ _) (proj2 (k_pub _ K)) n Hn) as [X1 X2]. unfold sym_entry. rewrite X1, X2. auto.
Qed.
