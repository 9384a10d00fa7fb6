(** ELF: the object read back. *)
From Verif Require Import Base Elf_Model Elf_Spec Elf_Proofs ElfLay_Proofs ElfFile_Proofs ElfSym_Proofs ElfEnt_Proofs ElfRel_Proofs ElfTop_Proofs ElfObj_Proofs.
From Coq Require Import Lia Arith.

Section Read.
Variables (m : module) (f names : list Z).
Let w := m_64 m.
Definition reads (h : shdr) (v : sec) : Prop := rd_sec w f (Some names) (shdr_bytes w h) = Some v.
Definition ofs_ok (h : shdr) : Prop := 0 <= sh_offset h < 2 ^ 32.
Lemma kind_values s : sec_kind s = 1 \/ sec_kind s = 7 \/ sec_kind s = 8.
Proof. unfold sec_kind. destruct (s_info s), (s_type s =? 3); auto. Qed.
Lemma kind_data s : negb ((sec_kind s =? 0) || (sec_kind s =? 8)) = negb (nobits s).
Proof. unfold sec_kind, nobits. destruct (s_info s), (s_type s =? 3); reflexivity. Qed.
Lemma flags_values s : 0 <= sec_flags s < 8.
Proof. unfold sec_flags. destruct (s_info s), (s_type s =? 1), (s_readonly s || s_const s); lia. Qed.
Lemma prog_secs ss ns h1 : Forall2 name_of ss ns -> Forall (sec_ok m) ss -> Forall2 (prog_ok names) (combine ss ns) h1 ->
  Forall2 (fun h d => slice (sh_offset h) (zlen d) f = Some d) h1 (map block ss) -> Forall (fun s => zlen (block s) = fsize s) ss -> Forall ofs_ok h1 ->
  exists vs, Forall2 reads h1 vs /\ Forall2 prog_sec ss vs /\ map v_offset vs = map sh_offset h1 /\ Forall2 (fun v z => v_data v <> None -> v_size v = z) vs (map fsize ss).
Proof.
  intros N. revert h1. induction N as [|s n ss ns (N1 & N2 & N3) _ IH]; intros hs F P S0 Z0 O; cbn [combine map] in *.
  - inversion P; subst. exists []. repeat split; constructor.
  - inversion P as [|? h ? hs' P1 P2]; subst. inversion S0 as [|? ? ? ? S1 S2]; subst. apply Forall_inv in F as F1. apply Forall_inv_tail in F. apply Forall_inv in Z0 as Z1. apply Forall_inv_tail in Z0. apply Forall_inv in O as O1. apply Forall_inv_tail in O.
    destruct (IH hs' F P2 S2 Z0 O) as (vs & A1 & A2 & A3 & A4). cbn [prog_ok] in P1. destruct P1 as (Q1 & Q2 & Q3 & Q4 & Q5 & Q6 & Q7 & Q8 & Q9).
    pose proof (fsize_nonneg m s F1) as [Fs Fm]. pose proof (kind_values s) as Kv. pose proof (flags_values s) as Fv.
    assert (has_data h = negb (nobits s)) as Hd by (unfold has_data; rewrite Q3; apply kind_data).
    exists (sec_of n (Some (block s)) h :: vs). split; [|split; [|split]].
    + constructor; [|exact A1]. unfold reads. apply rd_sec_ok; [|exact Q1|].
      * split; try lia; [exact O1|]. rewrite Q8. destruct (Z.eqb_spec (s_align s) 255); [lia|]. destruct (w_align _ _ F1); [contradiction|]. split; [apply Z.pow_nonneg; lia|apply Z.pow_lt_mono_r; lia].
      * rewrite Hd. intros Hb. assert (sh_size h = zlen (block s)) as ->; [|exact S1]. rewrite Q5, Z1. unfold fsize. destruct (nobits s); [discriminate|reflexivity].
    + constructor; [|exact A2]. unfold prog_sec. cbn [sec_of v_name v_type v_flags v_addr v_size v_link v_info v_align v_entsize v_data]. rewrite Hd. unfold block.
      repeat (split; [assumption || reflexivity|]). destruct (nobits s); reflexivity.
    + cbn [map sec_of v_offset]. now rewrite A3.
    + constructor; [|exact A4]. cbn [sec_of v_data v_size]. rewrite Hd, Q5. unfold fsize. destruct (nobits s); cbn [negb]; [congruence|reflexivity].
Qed.
Lemma tab_sec n ty link info align ent d h : tab_ok names n ty link info align ent (zlen d) h -> (ty = 2 \/ ty = 3) -> 0 <= link < 2 ^ 32 -> 0 <= info < 2 ^ 32 -> 0 <= align < 2 ^ 32 -> 0 <= ent < 2 ^ 32 ->
  zlen d < 2 ^ 32 -> ofs_ok h -> slice (sh_offset h) (zlen d) f = Some d ->
  hdr_ok h /\ exists v, reads h v /\ table_sec n ty link info align ent v /\ v_data v = Some d /\ v_offset v = sh_offset h /\ v_size v = zlen d.
Proof.
  intros (Q1 & Q2 & Q3 & Q4 & Q5 & Q6 & Q7 & Q8 & Q9) T L I1 A1 E1 D O S0. pose proof (zlen_nonneg d).
  assert (has_data h = true) as Hd by (unfold has_data; rewrite Q3; destruct T as [-> | ->]; reflexivity).
  assert (hdr_ok h) as Ho by (split; try lia; exact O). split; [exact Ho|]. exists (sec_of n (Some d) h). unfold reads, table_sec. cbn [sec_of v_name v_type v_flags v_addr v_size v_offset v_link v_info v_align v_entsize v_data]. rewrite Hd.
  split; [apply rd_sec_ok; [exact Ho|exact Q1|intros _; now rewrite Q5]|]. repeat split; assumption || reflexivity.
Qed.
Definition kf (p : nat * section * list Z) : nat * section := fst p.
Lemma rel_secs nsecs l h3 ds : Forall2 (rel_ok w nsecs names) l h3 -> Forall (fun p => name_of (snd (fst p)) (snd p)) l -> Forall2 (fun h d => slice (sh_offset h) (zlen d) f = Some d) h3 ds ->
  Forall2 (fun p d => zlen d = zlen (s_fix (snd (fst p))) * sizeof_rel w) l ds -> 0 <= nsecs < 65536 -> Forall (fun p => Z.of_nat (fst (fst p)) < 65536) l -> Forall (fun d => zlen d < 2 ^ 32) ds -> Forall ofs_ok h3 ->
  exists vs, Forall2 reads h3 vs /\ Forall2 (fun ks v => rel_sec w nsecs (fst ks) (snd ks) v) (map fst l) vs /\ map v_offset vs = map sh_offset h3 /\ Forall2 (fun v d => v_data v = Some d /\ v_size v = zlen d) vs ds.
Proof.
  intros P. revert ds. induction P as [|[[k s] n] h l hs P1 _ IH]; intros ds N S0 Z0 Hn Hk D O; cbn [map] in *.
  - inversion S0; subst. exists []. repeat split; constructor.
  - inversion S0 as [|? d ? ds' S1 S2]; subst. inversion Z0 as [|? ? ? ? Z1 Z2]; subst. apply Forall_inv in N as N1. apply Forall_inv_tail in N. apply Forall_inv in Hk as K1. apply Forall_inv_tail in Hk.
    apply Forall_inv in D as D1. apply Forall_inv_tail in D. apply Forall_inv in O as O1. apply Forall_inv_tail in O. cbn [fst snd] in *.
    destruct (IH ds' N S2 Z2 Hn Hk D O) as (vs & A1 & A2 & A3 & A4). cbn [rel_ok] in P1. destruct P1 as (Q1 & Q2 & Q3 & Q4 & Q5 & Q6 & Q7 & Q8 & Q9). pose proof (zlen_nonneg d).
    assert (has_data h = true) as Hd by (unfold has_data; rewrite Q3; destruct w; reflexivity).
    assert (hdr_ok h) as Ho by (split; try lia; [rewrite Q3; destruct w; lia|exact O1|rewrite Q9; destruct w; cbn [sizeof_rel]; lia]).
    exists (sec_of (rel_prefix w ++ n) (Some d) h :: vs). split; [|split; [|split]].
    + constructor; [|exact A1]. apply rd_sec_ok; [exact Ho|exact Q1|intros _; rewrite Q5, <- Z1; exact S1].
    + constructor; [|exact A2]. cbn [fst snd]. exists n. split; [apply N1|]. unfold table_sec. cbn [sec_of v_name v_type v_flags v_addr v_size v_offset v_link v_info v_align v_entsize v_data].
      split; [|exact Q5]. repeat (split; [assumption || reflexivity|]). exact Q9.
    + cbn [map sec_of v_offset]. now rewrite A3.
    + constructor; [|exact A4]. cbn [sec_of v_data v_size]. rewrite Hd. split; [reflexivity|]. now rewrite Q5, Z1.
Qed.
End Read.
Lemma find_index_app {A} (p : A -> bool) a b c : forall i, Forall (fun x => p x = false) a -> p b = true -> find_index p (a ++ b :: c) i = Some (i + zlen a, b).
Proof.
  induction a as [|x a IH]; intros i F H; cbn [app find_index].
  - rewrite H. change (zlen (@nil A)) with 0. now rewrite Z.add_0_r.
  - apply Forall_inv in F as Fx. apply Forall_inv_tail in F. rewrite Fx, IH by assumption. rewrite zlen_cons. f_equal. f_equal. lia.
Qed.
Lemma filter_none {A} (p : A -> bool) l : Forall (fun x => p x = false) l -> filter p l = [].
Proof. induction 1 as [|x l H _ IH]; [reflexivity|]. cbn [filter]. now rewrite H. Qed.
Lemma filter_all {A} (p : A -> bool) l : Forall (fun x => p x = true) l -> filter p l = l.
Proof. induction 1 as [|x l H _ IH]; [reflexivity|]. cbn [filter]. now rewrite H, IH. Qed.
Lemma F2_impl {A B} (R S0 : A -> B -> Prop) a b : (forall x y, R x y -> S0 x y) -> Forall2 R a b -> Forall2 S0 a b. Proof. intros H. induction 1; constructor; auto. Qed.
Lemma F2_r {A B} (R : A -> B -> Prop) (P : B -> Prop) a b : (forall x y, R x y -> P y) -> Forall2 R a b -> Forall P b. Proof. intros H. induction 1; constructor; eauto. Qed.
Lemma F2_l {A B} (R : A -> B -> Prop) (P : A -> Prop) a b : (forall x y, R x y -> P x) -> Forall2 R a b -> Forall P a. Proof. intros H. induction 1; constructor; eauto. Qed.

(** what the reader finds *)
Record found (m : module) (o : object) : Prop := {
  g_class : o_64 o = m_64 m /\ o_osabi o = m_osabi m /\ o_machine o = (if m_64 m then 62 else 3);
  g_secs : exists null progs shstr symt strt rels,
    o_secs o = null :: progs ++ [shstr; symt; strt] ++ rels /\ null_sec null /\ Forall2 prog_sec (m_secs m) progs /\
    table_sec n_shstr 3 0 0 1 0 shstr /\
    table_sec n_sym 2 (zlen (m_secs m) + 3) (zlen (local_part m (srcname (m_path m) (m_path m)))) 4 (if m_64 m then 24 else 16) symt /\
    table_sec n_str 3 0 0 1 0 strt /\
    Forall2 (fun ks v => rel_sec (m_64 m) (zlen (m_secs m)) (fst ks) (snd ks) v) (relocated m) rels /\
    o_symtab o = (zlen (m_secs m) + 2, symt);
  g_shstrndx : o_shstrndx o = zlen (m_secs m) + 1;
  g_table : o_table o = (if m_64 m then 64 else 52, zlen (o_secs o) * (if m_64 m then 64 else 40));
  g_aligned : Forall (fun v => v_offset v mod 16 = 0) (o_secs o);
  g_apart : ForallOrdPairs apart (regions o);
  g_syms : o_syms o = local_part m (srcname (m_path m) (m_path m)) ++ global_part m;
  g_rels : Forall2 (fun ks ir => fst ir = Z.of_nat (fst ks) + 1 /\ Forall2 (reloc_ok m (o_syms o)) (s_fix (snd ks)) (snd ir)) (relocated m) (o_rels o) }.
Lemma rels_read m p f vs : module_ok m -> parts_ok m f p -> nsyms m + 1 < 2 ^ 32 -> forall l ds,
  Forall (fun ks => In (snd ks) (m_secs m)) l -> Forall2 (fun ks v => rel_sec (m_64 m) (zlen (m_secs m)) (fst ks) (snd ks) v) l vs -> Forall2 (fun v d => v_data v = Some d /\ v_size v = zlen d) vs ds ->
  Forall2 (fun ks d => write_relocs (m_64 m) (p_t p) (s_fix (snd ks)) = Ok d) l ds ->
  exists rs, all (rd_rels (m_64 m) (zlen (m_secs m) + 2)) vs = Some rs /\
    Forall2 (fun ks ir => fst ir = Z.of_nat (fst ks) + 1 /\ Forall2 (reloc_ok m (local_part m (srcname (m_path m) (m_path m)) ++ global_part m)) (s_fix (snd ks)) (snd ir)) l rs.
Proof.
  intros K Q B. induction vs as [|v vs IH]; intros l ds I0 R D W.
  - inversion R; subst. exists []. split; [reflexivity|constructor].
  - inversion R as [|ks ? l' ? R1 R2]; subst. inversion D as [|? d ? ds' [D1 _] D2]; subst. inversion W as [|? ? ? ? W1 W2]; subst. apply Forall_inv in I0 as I1. apply Forall_inv_tail in I0.
    destruct (IH l' ds' I0 R2 D2 W2) as (rs & A & F). destruct (write_relocs_read m (p_t p) (srcname (m_path m) (m_path m)) (snd ks) d K B (q_inv _ _ _ Q) I1 W1) as (recs & T & Fr).
    destruct R1 as (n & _ & (_ & _ & _ & _ & L1 & I2 & _ & E1) & _).
    exists ((v_info v, map (rd_rel (m_64 m)) recs) :: rs). split.
    + cbn [all]. unfold rd_rels at 1. rewrite L1, E1, Z.eqb_refl. change (if m_64 m then 24 else 8) with (sizeof_rel (m_64 m)). rewrite Z.eqb_refl. cbn [andb]. rewrite D1, T, A. reflexivity.
    + constructor; [|exact F]. cbn [fst snd]. now split.
Qed.
Lemma elf_read m f : module_ok m -> elf_write_module m = Ok f -> exists o, rd_object f = Some o /\ found m o.
Proof.
  intros K E. destruct (elf_parts m f K E) as [p Q]. pose proof (k_count _ K) as Kc. pose proof (zlen_nonneg (m_secs m)) as Sn. pose proof (zlen_nonneg (relocated m)) as Rn.
  destruct (Q) as [Q1 Q2 Q3 Q4 Q5 Q6 Q7 Q8 Q9 Q10 Q11 Q12 Q13 Q14 Q15 Q16].
  set (w := m_64 m) in *. set (ss := m_secs m) in *.
  destruct (bounds_ok m (p_ns p) K Q1) as [B1 B2 B3 B4 B5].
  (* offsets *)
  assert (Forall (fun z => 0 <= z) (map zlen (p_blocks p))) as Zn by (apply Forall_map, Forall_forall; intros x _; apply zlen_nonneg).
  pose proof (up_spec (sizeof_ehdr w + shnum m * sizeof_shdr w)) as [U1 U2]. change (up (sizeof_ehdr w + shnum m * sizeof_shdr w)) with (fo0 m) in U1, U2.
  assert (0 <= sizeof_ehdr w + shnum m * sizeof_shdr w) as H0 by (unfold shnum; fold ss; destruct w; cbn [sizeof_ehdr sizeof_shdr]; lia).
  assert (forall fo l, 0 <= fo -> Forall (fun z => 0 <= z) l -> fo + pad16 l < 2 ^ 32 -> Forall (fun o => 0 <= o < 2 ^ 32) (lay fo l)) as LR.
  { clear. intros fo l. revert fo. induction l as [|z l IH]; intros fo F N H; cbn [lay]; [constructor|]. apply Forall_inv in N as Nz. apply Forall_inv_tail in N. rewrite pad16_cons in H. pose proof (pad16_nonneg l N). pose proof (up_spec (fo + z)) as [U _]. constructor; [lia|]. apply IH; [lia|exact N|lia]. }
  assert (Forall ofs_ok (p_h1 p ++ [p_a p; p_b p; p_c p] ++ p_h3 p)) as Oall.
  { apply Forall_map with (f := sh_offset) (P := fun o => 0 <= o < 2 ^ 32). rewrite Q11. apply LR; [lia|exact Zn|exact Q16]. }
  assert (Forall (fun d => zlen d < 2 ^ 32) (p_blocks p)) as Dall.
  { assert (forall l, Forall (fun z => 0 <= z) l -> pad16 l < 2 ^ 32 -> Forall (fun z => z < 2 ^ 32) l) as G.
    { clear. induction l as [|z l IH]; intros N H; constructor; apply Forall_inv in N as Nz; apply Forall_inv_tail in N; rewrite pad16_cons in H; pose proof (pad16_nonneg l N); [lia|]. apply IH; [exact N|lia]. }
    apply Forall_map with (f := zlen) (P := fun z => z < 2 ^ 32). apply G; [exact Zn|lia]. }
  rewrite !Forall_app in Oall. destruct Oall as (Oa & Ob & Oc). unfold p_blocks in Dall. rewrite !Forall_app in Dall. destruct Dall as (Da & Db & Dc).
  assert (length (p_h1 p) = length (map block ss)) as Lh1. { rewrite map_length, <- (F2_length _ _ _ Q3), combine_length, <- (F2_length _ _ _ Q1). apply Nat.min_id. }
  unfold p_blocks in Q13. apply Forall2_app_inv_l in Q13 as Q13'. destruct Q13' as (bl1 & bl23 & S1 & S23 & Eb).
  assert (bl1 = map block ss /\ bl23 = [p_names p; p_symd p; p_strs m] ++ p_rd p) as [-> ->].
  { assert (length bl1 = length (map block ss)) as Le by (rewrite <- (F2_length _ _ _ S1); exact Lh1).
    fold ss in Eb. clear - Eb Le. revert bl1 Eb Le. generalize (map block ss) as x. induction x as [|a x IH]; intros [|b y] Eb Le; try discriminate; cbn [app] in *; [auto|]. injection Eb as -> Eb. injection Le as Le. destruct (IH y Eb Le). subst. auto. }
  cbn [app] in S23. inversion S23 as [|? ? ? ? Sa S23']; subst. inversion S23' as [|? ? ? ? Sb S23'']; subst. inversion S23'' as [|? ? ? ? Sc S3]; subst. clear S23 S23' S23''.
  inversion Ob as [|? ? Ob1 Ob']; subst. inversion Ob' as [|? ? Ob2 Ob'']; subst. inversion Ob'' as [|? ? Ob3 _]; subst.
  inversion Db as [|? ? Db1 Db']; subst. inversion Db' as [|? ? Db2 Db'']; subst. inversion Db'' as [|? ? Db3 _]; subst.
  (* program sections *)
  destruct (prog_secs m f (p_names p) ss (p_ns p) (p_h1 p) Q1 (k_secs _ K) Q3 S1) as (progs & R1 & P1 & V1 & Y1); [|exact Oa|].
  { apply Forall_forall. intros s Hs. clear - Q12 Hs. fold ss in Q12. rewrite map_map in Q12. revert Q12 Hs. generalize ss. induction ss0 as [|x l IH]; cbn [map In]; intros Hq; [intros []|]. intros [->|Hs]; [congruence|]. apply IH; [congruence|exact Hs]. }
  (* tables *)
  assert (0 <= zlen (private_symbols m)) as Pv by apply zlen_nonneg. pose proof (nsyms_order m) as No. fold ss in No.
  assert (zlen (private_symbols m) <= zlen (order m)) as Po by (unfold order; rewrite zlen_app; pose proof (zlen_nonneg (external_symbols m ++ m_pub m)); lia).
  destruct (tab_sec m f (p_names p) _ _ _ _ _ _ (p_names p) (p_a p) Q4) as (Ha & shstr & Ra & Ta & Xa & Va & Wa); [auto|lia..|exact Db1|exact Ob1|exact Sa|].
  destruct (tab_sec m f (p_names p) _ _ _ _ _ _ (p_symd p) (p_b p) Q5) as (Hb & symt & Rb & Tb & Xb & Vb & Wb); [auto|lia|lia|lia|fold w; destruct w; cbn [sizeof_sym]; lia|exact Db2|exact Ob2|exact Sb|].
  destruct (tab_sec m f (p_names p) _ _ _ _ _ _ (p_strs m) (p_c p) Q6) as (Hc & strt & Rc & Tc & Xc & Vc & Wc); [auto|lia..|exact Db3|exact Ob3|exact Sc|].
  (* relocations *)
  pose proof (F2_length _ _ _ Q1) as Lns.
  assert (map fst (rels_of ss (p_ns p)) = relocated m) as Erel by (apply rels_fst; exact Lns).
  assert (Forall2 (fun ks d => write_relocs w (p_t p) (s_fix (snd ks)) = Ok d) (relocated m) (p_rd p)) as Wr.
  { rewrite <- Erel. apply F2_map_l. rewrite <- (rels_secs ss (p_ns p) Lns) in Q10. now apply F2_map_l in Q10. }
  assert (Forall (fun ks => In (snd ks) ss /\ (fst ks < length ss)%nat) (relocated m)) as Ir.
  { apply Forall_forall. intros [k s] H. unfold relocated in H. apply filter_In in H as [H _]. fold ss in H. cbn [fst snd].
    assert (forall l i, In (k, s) (numbered i l) -> In s l /\ (k < i + length l)%nat) as G.
    { clear. induction l as [|x l IH]; intros i; cbn [numbered In length]; [intros []|]. intros [X|X]; [apply pair_equal_spec in X as [<- <-]; split; [auto|lia]|]. destruct (IH _ X). split; [auto|lia]. }
    exact (G ss 0%nat H). }
  destruct (rel_secs m f (p_names p) (zlen ss) (rels_of ss (p_ns p)) (p_h3 p) (p_rd p) Q7) as (rels & R3 & P3 & V3 & Y3); [| exact S3 | | lia | | exact Dc | exact Oc |].
  { apply Forall_forall. intros [[k s] n] H. cbn [fst snd]. unfold rels_of in H. apply filter_In in H as [H _].
    assert (forall l i ns, Forall2 name_of l ns -> In (k, s, n) (combine (numbered i l) ns) -> name_of s n) as G.
    { clear. induction l as [|x l IH]; intros i ns F; inversion F; subst; cbn [numbered combine In]; [intros []|]. intros [X|X]; [apply pair_equal_spec in X as [X <-]; apply pair_equal_spec in X as [_ <-]; assumption|]. eapply IH; eauto. }
    exact (G _ _ _ Q1 H). }
  { fold w. rewrite <- Erel in Wr. apply F2_map_l in Wr. eapply F2_impl; [|exact Wr]. cbv beta. intros x d Hx. eapply write_relocs_zlen. exact Hx. }
  { rewrite <- Erel in Ir. apply Forall_map in Ir. eapply Forall_impl; [|exact Ir]. cbv beta. intros x [_ Hx]. unfold zlen in Kc. lia. }
  rewrite Erel in P3.
  destruct (rels_read m p f rels K Q B3 (relocated m) (p_rd p)) as (rs & Ars & Frs); [eapply Forall_impl; [|exact Ir]; cbv beta; tauto|exact P3|exact Y3|exact Wr|].
  (* all sections *)
  set (null := sec_of [] (Some []) null_shdr).
  assert (reads m f (p_names p) null_shdr null) as R0.
  { apply rd_sec_ok; [split; cbn [null_shdr sh_name sh_type sh_flags sh_offset sh_size sh_link sh_info sh_addralign sh_entsize]; lia| |discriminate]. unfold p_names. rewrite shstr_data_eq. reflexivity. }
  set (secs := null :: progs ++ [shstr; symt; strt] ++ rels).
  assert (Forall2 (reads m f (p_names p)) (p_hs p) secs) as Rall.
  { constructor; [exact R0|]. apply Forall2_app; [exact R1|]. constructor; [exact Ra|]. constructor; [exact Rb|]. constructor; [exact Rc|exact R3]. }
  assert (all (rd_sec w f (Some (p_names p))) (map (shdr_bytes w) (p_hs p)) = Some secs) as Aall.
  { apply all_Forall2. apply (proj1 (F2_map_l (shdr_bytes w) (fun b v => rd_sec w f (Some (p_names p)) b = Some v) _ _)). exact Rall. }
  assert (zlen progs = zlen ss) as Lp by (symmetry; exact (Forall2_zlen _ _ _ P1)).
  assert (Forall (fun v => v_type v = 1 \/ v_type v = 7 \/ v_type v = 8) progs) as Tp.
  { eapply F2_r; [|exact P1]. intros s v (_ & T & _). rewrite T. apply kind_values. }
  destruct (Ta) as (Ta1 & Ta2 & Ta3 & Ta4 & Ta5 & Ta6 & Ta7 & Ta8). destruct (Tb) as (Tb1 & Tb2 & Tb3 & Tb4 & Tb5 & Tb6 & Tb7 & Tb8). destruct (Tc) as (Tc1 & Tc2 & Tc3 & Tc4 & Tc5 & Tc6 & Tc7 & Tc8).
  assert (zlen (p_hs p) = zlen secs) as Lsecs by exact (Forall2_zlen _ _ _ Rall).
  assert (rd_object f = Some {| o_64 := w; o_osabi := m_osabi m; o_machine := if w then 62 else 3; o_table := (sizeof_ehdr w, shnum m * sizeof_shdr w); o_secs := secs; o_shstrndx := 1 + zlen ss;
     o_symtab := (1 + zlen ss + 1, symt); o_syms := local_part m (srcname (m_path m) (m_path m)) ++ global_part m; o_rels := rs |}) as RO.
  { apply (rd_object_ok w (m_osabi m) (shnum m) f (p_hs p) (p_names p) secs (1 + zlen ss) symt strt (p_strs m) (p_es p)).
    - now symmetry.
    - unfold shnum. fold ss. lia.
    - apply (k_osabi _ K).
    - lia.
    - exact Q14.
    - exact Q15.
    - exists (p_a p). split; [|split; [exact Ha|split; [apply Q4|]]].
      + unfold p_hs. replace (Z.to_nat (1 + zlen ss)) with (S (length (p_h1 p))) by (rewrite Lh1, map_length; unfold zlen; lia). cbn [nth_error]. rewrite nth_error_app2 by lia. rewrite Nat.sub_diag. reflexivity.
      + destruct Q4 as (_ & _ & _ & _ & -> & _). exact Sa.
    - exact Aall.
    - unfold secs. change (null :: progs ++ [shstr; symt; strt] ++ rels) with ((null :: progs ++ [shstr]) ++ symt :: (strt :: rels)) || replace (null :: progs ++ [shstr; symt; strt] ++ rels) with ((null :: progs ++ [shstr]) ++ symt :: (strt :: rels)) by (cbn [app]; f_equal; rewrite <- app_assoc; reflexivity).
      rewrite find_index_app.
      + f_equal. f_equal. rewrite zlen_cons, zlen_app. change (zlen [shstr]) with 1. lia.
      + constructor; [reflexivity|]. apply Forall_app. split; [eapply Forall_impl; [|exact Tp]; cbv beta; intros v [-> |[-> | ->]]; reflexivity|]. constructor; [rewrite Ta2; reflexivity|constructor].
      + rewrite Tb2. reflexivity.
    - rewrite Tb5. unfold secs. replace (Z.to_nat (zlen ss + 3)) with (S (length progs + 2)) by (unfold zlen in *; lia). cbn [nth_error]. rewrite nth_error_app2 by lia. replace (length progs + 2 - length progs)%nat with 2%nat by lia. reflexivity.
    - exact Tc2.
    - exact Tb8.
    - exact Xc.
    - exact Xb.
    - exact Q9.
    - unfold secs. cbn [filter]. change (v_type null) with 0. assert ((0 =? (if w then 4 else 9)) = false) as -> by (destruct w; reflexivity).
      rewrite !filter_app. rewrite (filter_none _ progs) by (eapply Forall_impl; [|exact Tp]; cbv beta; intros v [-> |[-> | ->]]; destruct w; reflexivity). cbn [filter app]. rewrite Ta2, Tb2, Tc2.
      assert ((3 =? (if w then 4 else 9)) = false) as -> by (destruct w; reflexivity). assert ((2 =? (if w then 4 else 9)) = false) as -> by (destruct w; reflexivity). cbn [app].
      rewrite filter_all; [|eapply F2_r; [|exact P3]; intros ks v (n & _ & (_ & T & _) & _); rewrite T; apply Z.eqb_refl]. replace (1 + zlen ss + 1) with (zlen ss + 2) by lia. exact Ars. }
  eexists. split; [exact RO|]. split; cbn [o_64 o_osabi o_machine o_table o_secs o_shstrndx o_symtab o_syms o_rels].
  - auto.
  - exists null, progs, shstr, symt, strt, rels. split; [reflexivity|]. split; [repeat split; reflexivity|]. split; [exact P1|]. split; [exact Ta|]. split; [|split; [exact Tc|split; [exact P3|]]].
    + assert (zlen (local_part m (srcname (m_path m) (m_path m))) = 2 + zlen ss + zlen (private_symbols m)) as ->; [|exact Tb].
      unfold local_part. rewrite !zlen_cons, zlen_app, !zlen_map. unfold zlen. rewrite seq_length. fold ss. lia.
    + f_equal. fold ss; lia.
  - fold ss; lia.
  - rewrite <- Lsecs, Q2. change (if m_64 m then 64 else 52) with (sizeof_ehdr w). change (if m_64 m then 64 else 40) with (sizeof_shdr w). reflexivity.
  - constructor; [reflexivity|]. assert (map v_offset (progs ++ [shstr; symt; strt] ++ rels) = lay (fo0 m) (map zlen (p_blocks p))) as Ov.
    { rewrite <- Q11, !map_app, V1, V3. cbn [map]. now rewrite Va, Vb, Vc. }
    pose proof (lay_mod (fo0 m) (map zlen (p_blocks p)) U2) as LM. rewrite <- Ov in LM. now apply Forall_map in LM.
  - unfold regions. cbn [o_64 o_table o_secs]. unfold secs. cbn [flat_map]. change (v_data null) with (@None (list Z)). cbn [app].
    assert (map v_offset (progs ++ [shstr; symt; strt] ++ rels) = lay (fo0 m) (map zlen (p_blocks p))) as Ov.
    { rewrite <- Q11, !map_app, V1, V3. cbn [map]. now rewrite Va, Vb, Vc. }
    assert (Forall2 (fun v z => v_data v <> None -> v_size v = z) (progs ++ [shstr; symt; strt] ++ rels) (map zlen (p_blocks p))) as Fv.
    { unfold p_blocks. fold ss. rewrite !map_app, Q12. apply Forall2_app; [exact Y1|]. cbn [map app]. constructor; [intros _; exact Wa|]. constructor; [intros _; exact Wb|]. constructor; [intros _; exact Wc|].
      clear - Y3. induction Y3 as [|v d vs ds [_ H] _ IH]; cbn [map]; constructor; auto. }
    destruct (regions_apart _ (fo0 m) _ Fv Ov Zn) as [A1 A2]. unfold reg in A1, A2.
    assert (Forall (apart (sizeof_ehdr w, shnum m * sizeof_shdr w)) (flat_map (fun v => match v_data v with Some _ => [(v_offset v, v_size v)] | None => [] end) (progs ++ [shstr; symt; strt] ++ rels))) as A3.
    { eapply Forall_impl; [|exact A2]. cbv beta. intros r Hr. unfold apart. cbn [fst snd]. lia. }
    assert (0 <= shnum m * sizeof_shdr w) as Hp by (unfold shnum; fold ss; destruct w; cbn [sizeof_shdr]; lia).
    constructor; [|constructor; [exact A3|exact A1]]. constructor; [unfold apart; cbn [fst snd]; destruct w; cbn [sizeof_ehdr]; lia|]. eapply Forall_impl; [|exact A3]. unfold apart. cbn [fst snd]. intros r Hr. destruct w; cbn [sizeof_ehdr] in *; lia.
  - reflexivity.
  - exact Frs.
Qed.
