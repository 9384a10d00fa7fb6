(** ELF: symbol entries and relocations read back. *)
From Verif Require Import Base Elf_Model Elf_Spec Elf_Proofs ElfLay_Proofs ElfSym_Proofs.
From Coq Require Import Lia Arith.

(** * entries *)
Lemma sym_bytes_zlen w e : zlen (sym_bytes w e) = sizeof_sym w. Proof. destruct w; reflexivity. Qed.
Lemma rd_sym_bytes w tab e : 0 <= st_name e < 2 ^ 32 -> 0 <= st_info e < 256 -> 0 <= st_shndx e < 65536 ->
  rd_sym w tab (sym_bytes w e) = match string_at tab (st_name e) with
    | Some name => Some {| e_name := name; e_bind := st_info e / 16; e_type := st_info e mod 16; e_other := 0; e_shndx := st_shndx e;
                           e_value := wrap (if w then 64 else 32) (st_value e); e_size := 0 |}
    | None => None end.
Proof.
  intros H1 H2 H3. unfold rd_sym. destruct w.
  - assert (field 0 4 (sym_bytes true e) = st_name e) as -> by (transitivity (le_val (le_bytes 4 (st_name e))); [reflexivity|now apply f_4]).
    destruct (string_at tab (st_name e)) as [n|]; [|reflexivity].
    assert (field 4 1 (sym_bytes true e) = st_info e) as -> by (transitivity (le_val (le_bytes 1 (st_info e))); [reflexivity|now apply f_1]).
    assert (field 6 2 (sym_bytes true e) = st_shndx e) as -> by (transitivity (le_val (le_bytes 2 (st_shndx e))); [reflexivity|now apply f_2]).
    assert (field 8 8 (sym_bytes true e) = wrap 64 (st_value e)) as -> by (transitivity (le_val (le_bytes 8 (st_value e))); [reflexivity|now rewrite f_le]). reflexivity.
  - assert (field 0 4 (sym_bytes false e) = st_name e) as -> by (transitivity (le_val (le_bytes 4 (st_name e))); [reflexivity|now apply f_4]).
    destruct (string_at tab (st_name e)) as [n|]; [|reflexivity].
    assert (field 12 1 (sym_bytes false e) = st_info e) as -> by (transitivity (le_val (le_bytes 1 (st_info e))); [reflexivity|now apply f_1]).
    assert (field 14 2 (sym_bytes false e) = st_shndx e) as -> by (transitivity (le_val (le_bytes 2 (st_shndx e))); [reflexivity|now apply f_2]).
    assert (field 4 4 (sym_bytes false e) = wrap 32 (st_value e)) as -> by (transitivity (le_val (le_bytes 4 (st_value e))); [reflexivity|now rewrite f_le]). reflexivity.
Qed.
Fixpoint entries (mk : Z -> nat -> elfsym) (m : module) (z : Z) (l : list nat) : list elfsym * Z :=
  match l with [] => ([], z) | n :: l => let '(es, z') := entries mk m (wrap 32 (z + (zlen (y_name (sym m n)) + 1))) l in (mk z n :: es, z') end.
Definition local_mk (m : module) (z : Z) (n : nat) : elfsym :=
  let y := sym m n in
  {| st_name := z; st_info := ST_INFO STB_LOCAL (stt m y); st_shndx := match y_seg y with Some k => GetSegIdx k | None => SHN_ABS end; st_value := y_offset y |}.
Definition ext_mk (m : module) (z : Z) (n : nat) : elfsym :=
  let y := sym m n in
  if y_comm y then {| st_name := z; st_info := ST_INFO STB_GLOBAL STT_COMMON; st_shndx := SHN_COMMON; st_value := y_total y |}
  else {| st_name := z; st_info := ST_INFO (if IsWeak y then STB_WEAK else STB_GLOBAL) STT_NOTYPE; st_shndx := SHN_UNDEF; st_value := y_offset y |}.
Definition pub_mk (m : module) (z : Z) (n : nat) : elfsym :=
  let y := sym m n in
  {| st_name := z; st_info := ST_INFO STB_GLOBAL (stt m y);
     st_shndx := match y_state y with Internal => match y_seg y with Some k => GetSegIdx k | None => SHN_ABS end | _ => SHN_UNDEF end; st_value := y_offset y |}.
Lemma local_entries_eq m l : forall z, local_entries m z l = entries (local_mk m) m z l.
Proof. induction l as [|n l IH]; intros z; [reflexivity|]. cbn [local_entries entries]. now rewrite IH. Qed.
Lemma pub_entries_eq m l : forall z, pub_entries m z l = entries (pub_mk m) m z l.
Proof. induction l as [|n l IH]; intros z; [reflexivity|]. cbn [pub_entries entries]. now rewrite IH. Qed.
Lemma ext_entries_eq m l : forall z, ext_entries m z l = entries (ext_mk m) m z (filter (fun n => negb (skipped (sym m n))) l).
Proof. induction l as [|n l IH]; intros z; [reflexivity|]. cbn [ext_entries filter]. destruct (skipped (sym m n)); cbn [negb]; [apply IH|]. cbn [entries]. now rewrite IH. Qed.
Definition ynm (m : module) (n : nat) : list Z := asciiz (y_name (sym m n)).
Lemma ext_names_eq m l : flat_map (fun n => if skipped (sym m n) then [] else asciiz (y_name (sym m n))) l = flat_map (ynm m) (filter (fun n => negb (skipped (sym m n))) l).
Proof. induction l as [|n l IH]; [reflexivity|]. cbn [flat_map filter]. destruct (skipped (sym m n)); cbn [negb app flat_map]; now rewrite IH. Qed.
Lemma entries_ok mk m w tab B l : forall A, tab = A ++ flat_map (ynm m) l ++ B -> zlen tab < 2 ^ 32 -> Forall (fun n => name_ok (y_name (sym m n))) l ->
  (forall z n, In n l -> 0 <= z < 2 ^ 32 -> string_at tab z = Some (y_name (sym m n)) -> rd_sym w tab (sym_bytes w (mk z n)) = Some (sym_entry m n)) ->
  exists es, entries mk m (zlen A) l = (es, zlen (A ++ flat_map (ynm m) l)) /\ Forall2 (fun e n => rd_sym w tab (sym_bytes w e) = Some (sym_entry m n)) es l.
Proof.
  induction l as [|n l IH]; intros A E L N R; cbn [entries flat_map] in *.
  - exists []. rewrite app_nil_r. split; [reflexivity|constructor].
  - apply Forall_inv in N as Nn. apply Forall_inv_tail in N. rewrite <- app_assoc in E.
    assert (zlen tab = zlen (A ++ ynm m n) + zlen (flat_map (ynm m) l ++ B)) as Lt by (rewrite E, !zlen_app; lia).
    pose proof (zlen_nonneg (flat_map (ynm m) l ++ B)). pose proof (zlen_nonneg A). pose proof (zlen_nonneg (y_name (sym m n))).
    assert (zlen A + (zlen (y_name (sym m n)) + 1) = zlen (A ++ ynm m n)) as E1 by (unfold ynm; rewrite zlen_app, asciiz_zlen; lia). rewrite wrap_small by lia. rewrite E1.
    destruct (IH (A ++ ynm m n)) as (es & E2 & F); [rewrite E, <- !app_assoc; reflexivity|exact L|exact N|intros z k Hk; apply R; now right|].
    rewrite E2, <- app_assoc. eexists. split; [reflexivity|]. constructor; [|exact F]. apply R; [now left|lia|]. rewrite E. apply string_at_app; [exact Nn|reflexivity].
Qed.
Lemma stt_ok m y : (match y_seg y with Some k => (k < length (m_secs m))%nat | None => True end) -> stt m y = (if in_code m y then 2 else 1).
Proof.
  unfold stt, in_code, sec_type, STT_FUNC, STT_OBJECT, SEGTYPE_CODE. destruct (y_seg y) as [k|]; [|reflexivity]. intros H. destruct (nth_error (m_secs m) k) eqn:E; [reflexivity|]. apply nth_error_None in E. lia.
Qed.
Lemma shndx_ok m y : (match y_seg y with Some k => (k < length (m_secs m))%nat | None => True end) -> zlen (m_secs m) < 0xff00 ->
  (match y_seg y with Some k => GetSegIdx k | None => SHN_ABS end) = shndx y /\ 0 <= shndx y < 65536.
Proof. unfold shndx, GetSegIdx, SHN_ABS, zlen. destruct (y_seg y) as [k|]; intros H L; split; try reflexivity; lia. Qed.
Lemma info_ok b (c : bool) : 0 <= b < 3 -> let t := if c then 2 else 1 in 0 <= ST_INFO b t < 256 /\ ST_INFO b t / 16 = b /\ ST_INFO b t mod 16 = t.
Proof. intros H. assert (b = 0 \/ b = 1 \/ b = 2) as [->|[->| ->]] by lia; destruct c; repeat split; reflexivity || (vm_compute; discriminate). Qed.
Lemma wrap_w m v : wrap (if m_64 m then 64 else 32) v = wrap (width m) v. Proof. reflexivity. Qed.
Section Mk.
Variable m : module.
Hypothesis K : module_ok m.
Let w := m_64 m.
Variable tab : list Z.
Lemma k_small : zlen (m_secs m) < 0xff00. Proof. pose proof (k_count _ K). pose proof (zlen_nonneg (relocated m)). lia. Qed.
Lemma seg_of n : In n (used m ++ m_ext m ++ m_pub m) -> match y_seg (sym m n) with Some k => (k < length (m_secs m))%nat | None => True end.
Proof. exact (proj1 (Forall_forall _ _) (k_seg _ K) n). Qed.
Lemma values_of n : In n (used m ++ m_ext m ++ m_pub m) -> - 2 ^ 31 <= y_offset (sym m n) < 2 ^ 31 /\ 0 <= y_total (sym m n) < 2 ^ 32.
Proof. exact (proj1 (Forall_forall _ _) (k_values _ K) n). Qed.
Lemma local_mk_ok z n : In n (private_symbols m) -> 0 <= z < 2 ^ 32 -> string_at tab z = Some (y_name (sym m n)) -> rd_sym w tab (sym_bytes w (local_mk m z n)) = Some (sym_entry m n).
Proof.
  intros H Hz S0. apply private_In in H as [U P]. assert (In n (used m ++ m_ext m ++ m_pub m)) as I1 by (apply in_or_app; now left).
  pose proof (seg_of n I1) as G. destruct (shndx_ok m _ G k_small) as [X1 X2]. unfold local_mk. rewrite X1, (stt_ok m _ G).
  destruct (info_ok 0 (in_code m (sym m n)) ltac:(lia)) as (I2 & I3 & I4).
  rewrite rd_sym_bytes; cbn [st_name st_info st_shndx st_value]; [|exact Hz|exact I2|exact X2]. rewrite S0. change STB_LOCAL with 0. cbv zeta in I3, I4. rewrite I3, I4.
  unfold sym_entry. unfold private in P. destruct (y_state (sym m n)); [|discriminate..]. apply Bool.negb_true_iff in P. rewrite P. reflexivity.
Qed.
Lemma pub_mk_ok z n : In n (m_pub m) -> 0 <= z < 2 ^ 32 -> string_at tab z = Some (y_name (sym m n)) -> rd_sym w tab (sym_bytes w (pub_mk m z n)) = Some (sym_entry m n).
Proof.
  intros H Hz S0. pose proof (proj1 (Forall_forall _ _) (proj2 (k_pub _ K)) n H) as [P1 P2]. assert (In n (used m ++ m_ext m ++ m_pub m)) as I1 by (rewrite !in_app_iff; auto).
  pose proof (seg_of n I1) as G. destruct (shndx_ok m _ G k_small) as [X1 X2]. unfold pub_mk. rewrite P1, X1, (stt_ok m _ G).
  destruct (info_ok 1 (in_code m (sym m n)) ltac:(lia)) as (I2 & I3 & I4).
  rewrite rd_sym_bytes; cbn [st_name st_info st_shndx st_value]; [|exact Hz|exact I2|exact X2]. rewrite S0. change STB_GLOBAL with 1. cbv zeta in I3, I4. rewrite I3, I4.
  unfold sym_entry. rewrite P1, P2. reflexivity.
Qed.
Lemma ext_mk_ok z n : In n (external_symbols m) -> 0 <= z < 2 ^ 32 -> string_at tab z = Some (y_name (sym m n)) -> rd_sym w tab (sym_bytes w (ext_mk m z n)) = Some (sym_entry m n).
Proof.
  intros H Hz S0. apply external_In in H. pose proof (proj1 (Forall_forall _ _) (proj2 (k_ext _ K)) n H) as P. cbv beta in P. assert (In n (used m ++ m_ext m ++ m_pub m)) as I1 by (rewrite !in_app_iff; auto).
  pose proof (values_of n I1) as [V1 V2]. unfold ext_mk, sym_entry, IsWeak. rewrite P. destruct (y_comm (sym m n)) eqn:C; cbn [negb andb].
  - rewrite rd_sym_bytes; cbn [st_name st_info st_shndx st_value]; [|exact Hz|vm_compute; intuition discriminate|vm_compute; intuition discriminate]. rewrite S0.
    rewrite wrap_small; [reflexivity|]. destruct w; lia.
  - destruct (y_altname (sym m n)); (rewrite rd_sym_bytes; cbn [st_name st_info st_shndx st_value]; [|exact Hz|vm_compute; intuition discriminate|vm_compute; intuition discriminate]); rewrite S0; reflexivity.
Qed.
End Mk.
(** the name of the source file *)
Lemma srcname_spec path : forall u acc d, acc = u ++ path -> ~ In 47 u -> ~ In 92 u -> (d = [] \/ exists e c, d = e ++ [c] /\ (c = 47 \/ c = 92)) -> base_name (d ++ acc) (srcname acc path).
Proof.
  induction path as [|c r IH]; intros u acc d E N1 N2 D; cbn [srcname].
  - rewrite app_nil_r in E. subst acc. exists d. auto.
  - destruct ((c =? 47) || (c =? 92)) eqn:T.
    + subst acc. replace (d ++ u ++ c :: r) with ((d ++ u ++ [c]) ++ r) by (rewrite <- !app_assoc; reflexivity). apply (IH []); [reflexivity|intros []|intros []|].
      right. exists (d ++ u), c. rewrite <- app_assoc. split; [reflexivity|]. apply orb_true_iff in T as [T|T]; apply Z.eqb_eq in T; auto.
    + apply orb_false_iff in T as [T1 T2]. apply Z.eqb_neq in T1, T2. apply (IH (u ++ [c])); [rewrite <- app_assoc; exact E| | |exact D]; rewrite in_app_iff; intros [X|[X|[]]]; auto.
Qed.
Lemma srcname_base path : base_name path (srcname path path).
Proof. apply (srcname_spec path [] path []); auto. Qed.
Lemma srcname_facts path : name_ok path -> name_ok (srcname path path) /\ zlen (srcname path path) <= zlen path.
Proof.
  intros H. destruct (srcname_base path) as (d & E & _). assert (name_ok (d ++ srcname path path)) as H' by now rewrite <- E. apply name_ok_app in H' as [_ H']. split; [exact H'|].
  assert (zlen path = zlen (d ++ srcname path path)) as L by now rewrite <- E. rewrite zlen_app in L. pose proof (zlen_nonneg d). lia.
Qed.
Lemma base_name_unique path a b : base_name path a -> base_name path b -> a = b.
Proof.
  intros (d & -> & A1 & A2 & A3) (e & E & B1 & B2 & B3).
  assert (forall d e a b, d ++ a = e ++ b -> ~ In 47 a -> ~ In 92 a -> (e = [] \/ exists f c, e = f ++ [c] /\ (c = 47 \/ c = 92)) -> zlen b <= zlen a -> ~ (zlen b < zlen a)) as G.
  { clear. intros d e a b E A1 A2 D L L2. assert (exists p, e = d ++ p /\ a = p ++ b) as (p & -> & ->).
    { assert (length d <= length e)%nat by (apply (f_equal (@length Z)) in E; rewrite !app_length in E; unfold zlen in *; lia).
      exists (skipn (length d) e). assert (d = firstn (length d) e) as Ed.
      { apply (f_equal (firstn (length d))) in E. rewrite !firstn_app, Nat.sub_diag, firstn_all, app_nil_r in E. replace (length d - length e)%nat with 0%nat in E by lia. cbn [firstn] in E. now rewrite app_nil_r in E. }
      assert (e = d ++ skipn (length d) e) as Ee by (rewrite Ed at 1; now rewrite firstn_skipn). split; [exact Ee|]. rewrite Ee in E. rewrite <- app_assoc in E. now apply app_inv_head in E. }
    destruct p as [|x p]; [cbn [app] in L2; lia|]. destruct D as [D|(f & c & D & C)]; [destruct d; discriminate|].
    assert (In c (x :: p)) as Ic. { destruct (@exists_last _ (x :: p)) as (q & y & Eq); [discriminate|]. rewrite Eq in *. rewrite app_assoc in D. apply app_inj_tail in D as [_ ->]. apply in_or_app. right. now left. }
    destruct C as [-> | ->]; [apply A1|apply A2]; apply in_or_app; now left. }
  assert (zlen a = zlen b) as L.
  { destruct (Z.lt_trichotomy (zlen a) (zlen b)) as [L|[L|L]]; [|exact L|]; exfalso.
    - apply (G e d b a); auto; lia.
    - apply (G d e a b); auto; lia. }
  unfold zlen in L. apply (f_equal (skipn (length d))) in E as E'. rewrite skipn_app, skipn_all, Nat.sub_diag in E'. cbn [skipn app] in E'. rewrite E'.
  assert (length d = length e) as -> by (apply (f_equal (@length Z)) in E; rewrite !app_length in E; lia). now rewrite skipn_app, skipn_all, Nat.sub_diag.
Qed.

(** * the whole symbol table *)
Lemma nm_eq m l : flat_map (fun n => asciiz (y_name (sym m n))) l = flat_map (ynm m) l. Proof. reflexivity. Qed.
Lemma strtab_eq m l : strtab_data m l = [0] ++ asciiz (srcname (m_path m) (m_path m)) ++ flat_map (ynm m) l ++ flat_map (ynm m) (external_symbols m) ++ flat_map (ynm m) (m_pub m).
Proof. unfold strtab_data. rewrite ext_names_eq, external_eq. reflexivity. Qed.
Lemma all_app {A B} (r : A -> option B) a b x y : all r a = Some x -> all r b = Some y -> all r (a ++ b) = Some (x ++ y).
Proof. revert x. induction a as [|e a IH]; intros x E1 E2; cbn [all app] in *; [assert (x = []) as -> by congruence; exact E2|]. destruct (r e); [|discriminate]. destruct (all r a) as [v|]; [|discriminate]. rewrite (IH v eq_refl E2). assert (x = b0 :: v) as -> by congruence. reflexivity. Qed.
Lemma entries_all m w tab es l : Forall2 (fun e n => rd_sym w tab (sym_bytes w e) = Some (sym_entry m n)) es l -> all (rd_sym w tab) (map (sym_bytes w) es) = Some (map (sym_entry m) l).
Proof. induction 1 as [|e n es l H _ IH]; [reflexivity|]. cbn [map all]. now rewrite H, IH. Qed.
Lemma Forall2_zlen {A B} (R : A -> B -> Prop) a b : Forall2 R a b -> zlen a = zlen b.
Proof. induction 1; [reflexivity|]. rewrite !zlen_cons. lia. Qed.
Lemma set_symtab_ok m : module_ok m -> let tab := strtab_data m (private_symbols m) in let w := m_64 m in zlen tab < 2 ^ 32 ->
  exists es, set_symtab m (private_symbols m) = (es, zlen tab) /\ zlen es = 2 + zlen (m_secs m) + zlen (order m) /\
    all (rd_sym w tab) (map (sym_bytes w) es) = Some (local_part m (srcname (m_path m) (m_path m)) ++ global_part m).
Proof.
  intros K tab w L. set (src := srcname (m_path m) (m_path m)). destruct (srcname_facts (m_path m) (k_path _ K)) as [So Sl]. fold src in So, Sl.
  assert (tab = [0] ++ asciiz src ++ flat_map (ynm m) (private_symbols m) ++ flat_map (ynm m) (external_symbols m) ++ flat_map (ynm m) (m_pub m)) as Et by apply strtab_eq.
  unfold set_symtab. fold src. pose proof (k_names _ K) as KN. rewrite !Forall_app in KN. destruct KN as (N1 & N2 & N3).
  assert (zlen tab = zlen ([0] ++ asciiz src) + zlen (flat_map (ynm m) (private_symbols m) ++ flat_map (ynm m) (external_symbols m) ++ flat_map (ynm m) (m_pub m))) as Lt by (rewrite Et, !zlen_app; lia).
  pose proof (zlen_nonneg (flat_map (ynm m) (private_symbols m) ++ flat_map (ynm m) (external_symbols m) ++ flat_map (ynm m) (m_pub m))) as Rn. pose proof (zlen_nonneg src) as Sn.
  assert (1 + (zlen src + 1) = zlen ([0] ++ asciiz src)) as E0 by (rewrite zlen_app, asciiz_zlen; reflexivity).
  rewrite wrap_small by lia. rewrite E0, local_entries_eq.
  destruct (entries_ok (local_mk m) m w tab (flat_map (ynm m) (external_symbols m) ++ flat_map (ynm m) (m_pub m)) (private_symbols m) ([0] ++ asciiz src)) as (e1 & Q1 & F1);
    [rewrite Et, <- !app_assoc; reflexivity|exact L| |intros z n; now apply local_mk_ok|].
  { apply Forall_forall. intros n Hn. apply private_In in Hn as [Hn _]. exact (proj1 (Forall_forall _ _) N1 n Hn). }
  rewrite Q1, ext_entries_eq, external_eq.
  destruct (entries_ok (ext_mk m) m w tab (flat_map (ynm m) (m_pub m)) (external_symbols m) (([0] ++ asciiz src) ++ flat_map (ynm m) (private_symbols m))) as (e2 & Q2 & F2);
    [rewrite Et, <- !app_assoc; reflexivity|exact L| |intros z n; now apply ext_mk_ok|].
  { apply Forall_forall. intros n Hn. apply external_In in Hn. exact (proj1 (Forall_forall _ _) N2 n Hn). }
  rewrite Q2, pub_entries_eq.
  destruct (entries_ok (pub_mk m) m w tab [] (m_pub m) ((([0] ++ asciiz src) ++ flat_map (ynm m) (private_symbols m)) ++ flat_map (ynm m) (external_symbols m))) as (e3 & Q3 & F3);
    [rewrite Et, <- !app_assoc, app_nil_r; reflexivity|exact L|exact N3|intros z n; now apply pub_mk_ok|].
  rewrite Q3. eexists. split; [f_equal; rewrite Et, <- !app_assoc; reflexivity|]. split.
  - rewrite !zlen_cons, !zlen_app. rewrite (Forall2_zlen _ _ _ F1), (Forall2_zlen _ _ _ F2), (Forall2_zlen _ _ _ F3). unfold order. rewrite !zlen_app. unfold zlen. rewrite map_length, seq_length. lia.
  - unfold local_part, global_part. cbn [map]. cbn [app all].
    assert (rd_sym w tab (sym_bytes w {| st_name := 0; st_info := 0; st_shndx := 0; st_value := 0 |}) = Some null_entry) as ->.
    { rewrite rd_sym_bytes; cbn [st_name st_info st_shndx st_value]; [|lia..]. rewrite Et. cbn [app]. destruct w; reflexivity. }
    assert (rd_sym w tab (sym_bytes w {| st_name := 1; st_info := ST_INFO STB_LOCAL STT_FILE; st_shndx := SHN_ABS; st_value := 0 |}) = Some (file_entry src)) as ->.
    { rewrite rd_sym_bytes; cbn [st_name st_info st_shndx st_value]; [|lia|vm_compute; intuition discriminate|vm_compute; intuition discriminate]. rewrite Et, string_at_app by (exact So || reflexivity). destruct w; reflexivity. }
    rewrite !map_app. rewrite <- app_assoc.
    erewrite all_app; [reflexivity| |].
    + rewrite map_map. apply (all_map (rd_sym w tab) (fun k => sym_bytes w {| st_name := 0; st_info := ST_INFO STB_LOCAL STT_SECTION; st_shndx := GetSegIdx k; st_value := 0 |}) sec_entry).
      apply Forall_forall. intros k Hk. apply in_seq in Hk. pose proof (k_small m K) as Ks. unfold zlen in Ks. unfold GetSegIdx.
      rewrite rd_sym_bytes; cbn [st_name st_info st_shndx st_value]; [|lia|vm_compute; intuition discriminate|lia]. rewrite Et. cbn [app]. destruct w; reflexivity.
    + apply all_app; [now apply entries_all|]. apply all_app; now apply entries_all.
Qed.
