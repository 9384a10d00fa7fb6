(** ELF: the object. *)
From Verif Require Import Base Elf_Model Elf_Spec Elf_Proofs ElfLay_Proofs ElfFile_Proofs ElfSym_Proofs ElfEnt_Proofs ElfRel_Proofs ElfTop_Proofs.
From Coq Require Import Lia Arith.

Definition n_shstr := [46; 115; 104; 115; 116; 114; 116; 97; 98].
Definition n_sym := [46; 115; 121; 109; 116; 97; 98].
Definition n_str := [46; 115; 116; 114; 116; 97; 98].
Definition tab_ok (names : list Z) (n : list Z) (ty link info align ent size : Z) (h : shdr) : Prop :=
  string_at names (sh_name h) = Some n /\ 0 <= sh_name h < 2 ^ 32 /\ sh_type h = ty /\ sh_flags h = 0 /\ sh_size h = size /\ sh_link h = link /\ sh_info h = info /\ sh_addralign h = align /\ sh_entsize h = ent.
Lemma int_headers_ok w nsegs sg names A B fo z0 z1 z2 : names = A ++ flat_map asciiz internal_names ++ B -> zlen names < 2 ^ 32 -> 0 <= fo -> 0 <= z0 -> 0 <= z1 -> 0 <= z2 ->
  fo + pad16 [z0; z1; z2] < 2 ^ 32 ->
  exists a b c, int_headers w nsegs sg names (zlen A) fo [(0, z0); (1, z1); (2, z2)] = ([a; b; c], zlen (A ++ flat_map asciiz internal_names), lay_end fo [z0; z1; z2]) /\
    tab_ok names n_shstr 3 0 0 1 0 z0 a /\ tab_ok names n_sym 2 (nsegs + 3) sg 4 (sizeof_sym w) z1 b /\ tab_ok names n_str 3 0 0 1 0 z2 c /\ map sh_offset [a; b; c] = lay fo [z0; z1; z2].
Proof.
  intros E L F0 Z0 Z1 Z2 Hb. rewrite !pad16_cons in Hb. change (pad16 []) with 0 in Hb.
  assert (name_ok n_shstr /\ name_ok n_sym /\ name_ok n_str) as (O1 & O2 & O3) by (split; [|split]; now apply name_ok_lit).
  change (flat_map asciiz internal_names) with (asciiz n_shstr ++ asciiz n_sym ++ asciiz n_str) in *.
  assert (names = A ++ asciiz n_shstr ++ (asciiz n_sym ++ asciiz n_str ++ B)) as Ea by (rewrite E, <- !app_assoc; reflexivity).
  assert (names = (A ++ asciiz n_shstr) ++ asciiz n_sym ++ (asciiz n_str ++ B)) as Eb by (rewrite E, <- !app_assoc; reflexivity).
  assert (names = ((A ++ asciiz n_shstr) ++ asciiz n_sym) ++ asciiz n_str ++ B) as Ec by (rewrite E, <- !app_assoc; reflexivity).
  assert (next_name names (zlen A) = zlen (A ++ asciiz n_shstr)) as Na by (rewrite Ea; now apply next_name_app).
  assert (next_name names (zlen (A ++ asciiz n_shstr)) = zlen ((A ++ asciiz n_shstr) ++ asciiz n_sym)) as Nb by (rewrite Eb; now apply next_name_app).
  assert (next_name names (zlen ((A ++ asciiz n_shstr) ++ asciiz n_sym)) = zlen (((A ++ asciiz n_shstr) ++ asciiz n_sym) ++ asciiz n_str)) as Nc by (rewrite Ec; now apply next_name_app).
  assert (forall l r, names = l ++ r -> 0 <= zlen l < 2 ^ 32) as Rg by (intros l r El; pose proof (zlen_nonneg l); pose proof (zlen_nonneg r); rewrite El, zlen_app in L; lia).
  pose proof (up_spec (fo + z0)) as [U0 _]. pose proof (up_spec (up (fo + z0) + z1)) as [U1 _].
  cbn [int_headers Z.eqb]. rewrite Na, Nb, Nc.
  rewrite (wrap_small 32 (fo + z0)), (align16_up (fo + z0)) by lia. rewrite (wrap_small 32 (up (fo + z0) + z1)), (align16_up (up (fo + z0) + z1)) by lia.
  rewrite (wrap_small 32 (up (up (fo + z0) + z1) + z2)), (align16_up (up (up (fo + z0) + z1) + z2)) by lia.
  do 3 eexists. split; [cbn [lay_end]; rewrite <- !app_assoc; reflexivity|]. unfold tab_ok. cbn [sh_name sh_type sh_flags sh_offset sh_size sh_link sh_info sh_addralign sh_entsize map lay]. change (Pos.eqb 1 1) with true.
  pose proof (Rg _ _ Ea) as H. pose proof (Rg _ _ Eb) as H0. pose proof (Rg _ _ Ec) as H1.
  split; [|split; [|split; [|reflexivity]]].
  - split; [rewrite Ea; now apply string_at_app|]. repeat split; lia.
  - split; [rewrite Eb; now apply string_at_app|]. repeat split; lia.
  - rewrite <- app_assoc in H1. rewrite <- (app_assoc A) in Ec. split; [rewrite Ec; now apply string_at_app|]. change (Pos.eqb 2 1) with false. repeat split; lia.
Qed.

(** * reading the headers *)
Lemma rd_object_ok w osabi shnum f hs names secs ix st str strs d syms rels :
  let hdr := ehdr_bytes w osabi shnum (wrap 16 ix) in
  shnum = zlen hs -> shnum < 65536 -> 0 <= osabi < 256 -> 0 <= ix < 65536 ->
  slice 0 (sizeof_ehdr w) f = Some hdr ->
  slice (sizeof_ehdr w) (shnum * sizeof_shdr w) f = Some (flat_map (shdr_bytes w) hs) ->
  (exists h, nth_error hs (Z.to_nat ix) = Some h /\ hdr_ok h /\ sh_type h = 3 /\ slice (sh_offset h) (sh_size h) f = Some names) ->
  all (rd_sec w f (Some names)) (map (shdr_bytes w) hs) = Some secs ->
  find_index (fun v => v_type v =? 2) secs 0 = Some (ix + 1, st) ->
  nth_error secs (Z.to_nat (v_link st)) = Some str -> v_type str = 3 -> v_entsize st = sizeof_sym w -> v_data str = Some strs -> v_data st = Some (flat_map (sym_bytes w) d) ->
  all (rd_sym w strs) (map (sym_bytes w) d) = Some syms ->
  all (rd_rels w (ix + 1)) (filter (fun v => v_type v =? if w then 4 else 9) secs) = Some rels ->
  rd_object f = Some {| o_64 := w; o_osabi := osabi; o_machine := if w then 62 else 3; o_table := (sizeof_ehdr w, shnum * sizeof_shdr w); o_secs := secs; o_shstrndx := ix;
                        o_symtab := (ix + 1, st); o_syms := syms; o_rels := rels |}.
Proof.
  intros hdr En Hn Ho Hix Hh Ht (h & Hs1 & Hs2 & Hs3 & Hs4) Hsecs Hst Hstr T1 T2 D1 D2 Hsyms Hrels. unfold rd_object.
  assert (exists r, hdr = firstn 16 hdr ++ r /\ zlen (firstn 16 hdr) = 16) as (r & Er & Lr) by (exists (skipn 16 hdr); split; [now rewrite firstn_skipn|destruct w; reflexivity]).
  assert (slice 0 16 f = Some (firstn 16 hdr)) as ->.
  { assert (exists g, f = hdr ++ g) as [g ->].
    { unfold slice in Hh. destruct (_ && _); [|discriminate]. assert (firstn (Z.to_nat (sizeof_ehdr w)) f = hdr) as <- by (change (Z.to_nat 0) with 0%nat in Hh; cbn [skipn] in Hh; congruence). eexists. symmetry. apply firstn_skipn. }
    rewrite Er, <- app_assoc. apply (slice_app [] (firstn 16 hdr) (r ++ g)); [reflexivity|now rewrite Lr]. }
  assert (0 <= shnum) as Hn0 by (rewrite En; apply zlen_nonneg).
  assert (field 0 4 (firstn 16 hdr) = 0x464c457f) as -> by (destruct w; reflexivity).
  assert (field 4 1 (firstn 16 hdr) = if w then 2 else 1) as -> by (destruct w; reflexivity).
  assert (field 5 1 (firstn 16 hdr) = 1) as -> by (destruct w; reflexivity).
  assert (field 6 1 (firstn 16 hdr) = 1) as -> by (destruct w; reflexivity).
  assert (field 7 1 (firstn 16 hdr) = osabi) as -> by (transitivity (le_val (le_bytes 1 osabi)); [destruct w; reflexivity|now apply f_1]).
  change (0x464c457f =? 0x464c457f) with true. assert (((if w then 2 else 1) =? 2) = w) as -> by (destruct w; reflexivity).
  assert ((w || ((if w then 2 else 1) =? 1)) && (1 =? 1) && (1 =? 1) = true) as -> by (destruct w; reflexivity). cbn [negb].
  change (if w then 64 else 52) with (sizeof_ehdr w). rewrite Hh.
  set (n := if w then 8%nat else 4%nat).
  assert (field (24 + 2 * n) n hdr = sizeof_ehdr w) as -> by (destruct w; reflexivity).
  assert (field (24 + 3 * n + 10) 2 hdr = sizeof_shdr w) as -> by (destruct w; reflexivity).
  assert (field (24 + 3 * n + 12) 2 hdr = shnum) as -> by (transitivity (le_val (le_bytes 2 shnum)); [destruct w; reflexivity|apply f_2; lia]).
  assert (field (24 + 3 * n + 14) 2 hdr = ix) as -> by (transitivity (le_val (le_bytes 2 (wrap 16 ix))); [destruct w; reflexivity|rewrite wrap_small by lia; apply f_2; lia]).
  assert (field 16 2 hdr = 1) as -> by (destruct w; reflexivity).
  assert (field 20 4 hdr = 1) as -> by (destruct w; reflexivity).
  assert (field (24 + 3 * n + 4) 2 hdr = sizeof_ehdr w) as -> by (destruct w; reflexivity).
  assert (field (24 + 3 * n + 8) 2 hdr = 0) as -> by (destruct w; reflexivity).
  assert (field 18 2 hdr = if w then 62 else 3) as -> by (destruct w; reflexivity).
  assert ((1 =? 1) && (1 =? 1) && (sizeof_ehdr w =? sizeof_ehdr w) && (0 =? 0) && (sizeof_shdr w =? (if w then 64 else 40)) = true) as -> by (destruct w; reflexivity). cbn [negb].
  rewrite Ht. rewrite table_map; [|destruct w; reflexivity|apply Forall_forall; intros x _; apply shdr_zlen].
  rewrite nth_error_map, Hs1. cbn [option_map]. rewrite (rd_sec_ok w f None h [] names Hs2 eq_refl (fun _ => Hs4)).
  assert (has_data h = true) as Hd by (unfold has_data; rewrite Hs3; reflexivity). cbn [sec_of v_type v_data]. rewrite Hs3, Hd. change (3 =? 3) with true. cbn [negb].
  rewrite Hsecs, Hst, Hstr, T1, T2. change (if w then 24 else 16) with (sizeof_sym w). rewrite Z.eqb_refl. change (3 =? 3) with true. cbn [andb negb].
  rewrite D1, D2. rewrite table_map; [|destruct w; reflexivity|apply Forall_forall; intros x _; apply sym_bytes_zlen]. rewrite Hsyms, Hrels. now rewrite ?Z.eqb_refl.
Qed.

(** * the parts of the module *)
Record parts (m : module) := {
  p_ns : list (list Z); p_h1 : list shdr; p_a : shdr; p_b : shdr; p_c : shdr; p_h3 : list shdr; p_t : symtab; p_es : list elfsym; p_rd : list (list Z) }.
Arguments p_ns {m}. Arguments p_h1 {m}. Arguments p_a {m}. Arguments p_b {m}. Arguments p_c {m}. Arguments p_h3 {m}. Arguments p_t {m}. Arguments p_es {m}. Arguments p_rd {m}.
Definition p_names {m} (p : parts m) : list Z := shstr_data (m_64 m) (combine (m_secs m) (p_ns p)).
Definition p_strs (m : module) : list Z := strtab_data m (private_symbols m).
Definition p_symd {m} (p : parts m) : list Z := flat_map (sym_bytes (m_64 m)) (p_es p).
Definition p_hs {m} (p : parts m) : list shdr := null_shdr :: p_h1 p ++ [p_a p; p_b p; p_c p] ++ p_h3 p.
Definition p_blocks {m} (p : parts m) : list (list Z) := map block (m_secs m) ++ [p_names p; p_symd p; p_strs m] ++ p_rd p.
Definition shnum (m : module) : Z := 4 + zlen (m_secs m) + zlen (relocated m).
Definition fo0 (m : module) : Z := up (sizeof_ehdr (m_64 m) + shnum m * sizeof_shdr (m_64 m)).
Record parts_ok (m : module) (f : list Z) (p : parts m) : Prop := {
  q_ns : Forall2 name_of (m_secs m) (p_ns p);
  q_hs : zlen (p_hs p) = shnum m;
  q_h1 : Forall2 (prog_ok (p_names p)) (combine (m_secs m) (p_ns p)) (p_h1 p);
  q_a : tab_ok (p_names p) n_shstr 3 0 0 1 0 (zlen (p_names p)) (p_a p);
  q_b : tab_ok (p_names p) n_sym 2 (zlen (m_secs m) + 3) (2 + zlen (m_secs m) + zlen (private_symbols m)) 4 (sizeof_sym (m_64 m)) (zlen (p_symd p)) (p_b p);
  q_c : tab_ok (p_names p) n_str 3 0 0 1 0 (zlen (p_strs m)) (p_c p);
  q_h3 : Forall2 (rel_ok (m_64 m) (zlen (m_secs m)) (p_names p)) (rels_of (m_secs m) (p_ns p)) (p_h3 p);
  q_inv : inv (2 + zlen (m_secs m)) (p_t p) (order m);
  q_es : all (rd_sym (m_64 m) (p_strs m)) (map (sym_bytes (m_64 m)) (p_es p)) = Some (local_part m (srcname (m_path m) (m_path m)) ++ global_part m);
  q_rd : Forall2 (fun s d => write_relocs (m_64 m) (p_t p) (s_fix s) = Ok d) (filter has_fixups (m_secs m)) (p_rd p);
  q_ofs : map sh_offset (p_h1 p ++ [p_a p; p_b p; p_c p] ++ p_h3 p) = lay (fo0 m) (map zlen (p_blocks p));
  q_blk : map zlen (map block (m_secs m)) = map fsize (m_secs m);
  q_slices : Forall2 (fun h d => slice (sh_offset h) (zlen d) f = Some d) (p_h1 p ++ [p_a p; p_b p; p_c p] ++ p_h3 p) (p_blocks p);
  q_ehdr : slice 0 (sizeof_ehdr (m_64 m)) f = Some (ehdr_bytes (m_64 m) (m_osabi m) (shnum m) (wrap 16 (1 + zlen (m_secs m))));
  q_tab : slice (sizeof_ehdr (m_64 m)) (shnum m * sizeof_shdr (m_64 m)) f = Some (flat_map (shdr_bytes (m_64 m)) (p_hs p));
  q_end : fo0 m + pad16 (map zlen (p_blocks p)) < 2 ^ 32 }.
Lemma F2_map_l {A B C} (g : A -> B) (R : B -> C -> Prop) l r : Forall2 (fun a c => R (g a) c) l r <-> Forall2 R (map g l) r.
Proof.
  split; [induction 1; cbn [map]; constructor; auto|]. revert r. induction l as [|a l IH]; intros r H; inversion H; subst; constructor; auto.
Qed.
Lemma pad16_app a b : pad16 (a ++ b) = pad16 a + pad16 b. Proof. apply sum_app. Qed.
Lemma relocated_len m : get_num_reloc_sections (m_secs m) = zlen (relocated m).
Proof.
  unfold get_num_reloc_sections, relocated. rewrite <- (numbered_snd (m_secs m) 0) at 1. rewrite filter_map_comm. unfold zlen. now rewrite map_length.
Qed.
Lemma zlen_map {A B} (g : A -> B) l : zlen (map g l) = zlen l. Proof. unfold zlen. now rewrite map_length. Qed.
Lemma lay_end_pad fo l : lay_end fo l <= fo + pad16 l. Proof. apply lay_end_le. Qed.
Lemma elf_parts m f : module_ok m -> elf_write_module m = Ok f -> exists p : parts m, parts_ok m f p.
Proof.
  intros K E. unfold elf_write_module in E. rewrite relocated_len in E. pose proof (k_count _ K) as Kc. pose proof (zlen_nonneg (m_secs m)) as Sn. pose proof (zlen_nonneg (relocated m)) as Rn.
  assert (wrap 16 (1 + zlen (m_secs m) + 3 + zlen (relocated m)) = shnum m) as Esh by (unfold shnum; rewrite wrap_small by lia; lia). rewrite Esh in E.
  assert (zlen (relocated m) <= zlen (m_secs m)) as Rl.
  { unfold relocated. eapply Z.le_trans; [apply filter_le|]. unfold zlen. rewrite numbered_length. lia. }
  set (w := m_64 m) in *. set (ss := m_secs m) in *.
  destruct (section_names ss) as [ns| |] eqn:Ens; cbn [bindr] in E; [|discriminate..]. apply (section_names_ok m) in Ens; [|apply (k_secs _ K)].
  destruct (bounds_ok m ns K Ens) as [B1 B2 B3 B4 B5]. fold w ss in B1, B5.
  rewrite shstrtab_ok in E by exact B1. cbn [bindr] in E. set (names := shstr_data w (combine ss ns)) in *.
  assert (0 <= sizeof_ehdr w + shnum m * sizeof_shdr w <= 64 + 64 * (4 + 2 * zlen ss)) as Hh by (unfold shnum; fold ss; destruct w; cbn [sizeof_ehdr sizeof_shdr]; lia).
  pose proof (up_spec (sizeof_ehdr w + shnum m * sizeof_shdr w)) as [U1 U2]. assert (fo0 m = up (sizeof_ehdr w + shnum m * sizeof_shdr w)) as Efo by reflexivity.
  rewrite align16_up in E by lia. rewrite <- Efo in E, U1, U2. specialize (B5 (fo0 m) ltac:(lia)).
  assert (0 <= nsyms m) as Nn by (unfold nsyms; fold ss; pose proof (zlen_nonneg (m_ext m)); pose proof (zlen_nonneg (m_pub m)); pose proof (zlen_nonneg (fixups m)); lia).
  assert (0 <= pad16 (map (rsize w) (rels_of ss ns))) as Pr.
  { apply pad16_nonneg, Forall_map, Forall_forall. intros x _. unfold rsize. pose proof (zlen_nonneg (s_fix (snd (fst x)))). destruct w; cbn [sizeof_rel]; lia. }
  assert (0 <= pad16 (map fsize ss)) as Pf. { apply pad16_nonneg, Forall_map. eapply Forall_impl; [|exact (k_secs _ K)]. cbv beta. intros x Hx. apply (fsize_nonneg m x Hx). }
  pose proof (zlen_nonneg names) as Nnn. pose proof (zlen_nonneg (strtab_data m (private_symbols m))) as Stn.
  rewrite !pad16_cons in B5. change (pad16 []) with 0 in B5.
  (* program headers *)
  destruct (prog_headers_ok m names (flat_map asciiz internal_names ++ flat_map (rnm w) (combine ss ns)) ss ns (k_secs _ K) Ens B1 [0] (fo0 m)) as (hs1 & E1 & P1 & O1); [apply shstr_data_eq|lia|exact U2|lia|].
  change (zlen [0]) with 1 in E1. rewrite E1 in E.
  (* symbols *)
  assert (Forall (fun f => f_ref f <> RNone) (fixups m)) as NN.
  { apply Forall_forall. intros x Hx Ex. unfold set_symtab_values, set_indices in E. rewrite scan_none in E; [discriminate|]. apply Exists_exists. exists x. now split. }
  destruct (set_indices_ok m K B3 NN) as (t & Et & V & Lt). destruct (set_symtab_ok m K B2) as (es & Ees & Les & Aes). fold (p_strs m) in Ees, Aes.
  pose proof (nsyms_order m) as No. fold ss in No, Les, Et, V.
  assert (zlen (flat_map (sym_bytes w) es) = zlen es * sizeof_sym w) as Lsy by (apply flat_map_zlen; apply Forall_forall; intros x _; apply sym_bytes_zlen).
  unfold set_symtab_values in E. rewrite Et in E. cbn [bindr] in E. rewrite Lt, Ees in E. fold w in E. pose proof (zlen_nonneg (order m)) as On.
  assert (0 <= zlen es * sizeof_sym w <= nsyms m * 24) as Bes by (rewrite Les; destruct w; cbn [sizeof_sym]; lia).
  rewrite (fill_exact (wrap 32 (symindex t * sizeof_sym w))) in E by (rewrite (i_count _ _ _ V), Lsy, Les; apply wrap_small; rewrite Les in Bes; lia). cbn [bindr] in E.
  fold (p_strs m) in E, B2, B5, Stn. rewrite (fill_exact (zlen (p_strs m))) in E by reflexivity. cbn [bindr] in E.
  set (symd := flat_map (sym_bytes w) es) in *.
  (* internal headers *)
  pose proof (lay_end_pad (fo0 m) (map fsize ss)) as LE1. pose proof (lay_end_ge (fo0 m) (map fsize ss)) as LG1.
  specialize (LG1 ltac:(apply Forall_map; eapply Forall_impl; [|exact (k_secs _ K)]; cbv beta; intros x Hx; apply (fsize_nonneg m x Hx))).
  destruct (int_headers_ok w (zlen ss) (2 + zlen ss + zlen (private_symbols m)) names ([0] ++ flat_map nm (combine ss ns)) (flat_map (rnm w) (combine ss ns)) (lay_end (fo0 m) (map fsize ss))
              (zlen names) (zlen symd) (zlen (p_strs m))) as (a & b & c & E2 & Ta & Tb & Tc & O2);
    [unfold names; rewrite shstr_data_eq, <- !app_assoc; reflexivity|exact B1|lia|lia|apply zlen_nonneg|lia|rewrite !pad16_cons; change (pad16 []) with 0; lia|].
  rewrite E2 in E.
  set (q2 := lay_end (lay_end (fo0 m) (map fsize ss)) [zlen names; zlen symd; zlen (p_strs m)]) in *.
  assert (lay_end (fo0 m) (map fsize ss) <= q2 <= lay_end (fo0 m) (map fsize ss) + pad16 [zlen names; zlen symd; zlen (p_strs m)]) as LE2.
  { split; [apply lay_end_ge; repeat constructor; apply zlen_nonneg|apply lay_end_pad]. }
  rewrite !pad16_cons in LE2. change (pad16 []) with 0 in LE2.
  (* relocation headers *)
  destruct (rel_headers_ok m w (zlen ss) names [] ss ns (k_secs _ K) Ens B1 (([0] ++ flat_map nm (combine ss ns)) ++ flat_map asciiz internal_names) q2 0%nat) as (hs3 & E3 & P3 & O3);
    [unfold names; rewrite shstr_data_eq, app_nil_r, <- !app_assoc; reflexivity|lia|apply lay_end_mod, lay_end_mod; exact U2|fold (rels_of ss ns); lia|].
  rewrite E3 in E. fold (rels_of ss ns) in P3, O3, E3.
  set (f0 := ehdr_bytes w (m_osabi m) (shnum m) (wrap 16 (1 + zlen ss)) ++ flat_map (shdr_bytes w) (null_shdr :: hs1 ++ [a; b; c] ++ hs3)) in E.
  assert (zlen (null_shdr :: hs1 ++ [a; b; c] ++ hs3) = shnum m) as Hlen.
  { rewrite zlen_cons, !zlen_app. change (zlen [a; b; c]) with 3. rewrite <- (Forall2_zlen _ _ _ P1), <- (Forall2_zlen _ _ _ P3).
    assert (zlen (combine ss ns) = zlen ss) as -> by (unfold zlen; rewrite combine_length, <- (F2_length _ _ _ Ens); lia).
    assert (zlen (rels_of ss ns) = zlen (relocated m)) as ->. { rewrite <- (zlen_map fst (rels_of ss ns)), rels_fst by exact (F2_length _ _ _ Ens). reflexivity. }
    unfold shnum. fold ss. lia. }
  assert (zlen (flat_map (shdr_bytes w) (null_shdr :: hs1 ++ [a; b; c] ++ hs3)) = shnum m * sizeof_shdr w) as Htab.
  { rewrite (flat_map_zlen (shdr_bytes w) (sizeof_shdr w)); [now rewrite Hlen|]. apply Forall_forall. intros x _. apply shdr_zlen. }
  assert (zlen f0 <= fo0 m) as Lf0 by (unfold f0; rewrite zlen_app, ehdr_zlen, Htab; lia).
  destruct (write_data f0 (combine ss hs1)) as [f1| |] eqn:Ed; cbn [bindr] in E; [|discriminate..].
  destruct (write_data_ok m ss (k_secs _ K) hs1 f0 (fo0 m) f1 O1 Lf0 ltac:(lia) U2 ltac:(lia) Ed) as (W1 & L1 & Z1).
  destruct (write_internal_ok [names; symd; p_strs m]) with (h := [a; b; c]) (f := f1) (fo := lay_end (fo0 m) (map fsize ss)) as (W2 & L2 & X2).
  { repeat constructor.
    - unfold names. rewrite shstr_data_eq. discriminate.
    - intros N0. assert (zlen symd = 0) as Z0 by (rewrite N0; reflexivity). rewrite Lsy, Les in Z0. destruct w; cbn [sizeof_sym] in Z0; lia.
    - unfold p_strs. rewrite strtab_eq. discriminate. }
  { exact O2. }
  { lia. }
  set (f2 := write_internal f1 (combine [names; symd; p_strs m] [a; b; c])) in *. cbn [map] in W2, L2. fold q2 in W2, L2.
  assert (length (filter has_fixups ss) = length hs3) as Lh3 by (rewrite <- (rels_secs ss ns), map_length by exact (F2_length _ _ _ Ens); exact (F2_length _ _ _ P3)).
  assert (map (rsize w) (rels_of ss ns) = map (fun p : section * shdr => zlen (s_fix (fst p)) * sizeof_rel w) (combine (filter has_fixups ss) hs3)) as Ers.
  { rewrite <- (map_map fst (fun s => zlen (s_fix s) * sizeof_rel w)), map_fst_combine by exact Lh3. rewrite <- (rels_secs ss ns) by exact (F2_length _ _ _ Ens). rewrite map_map. reflexivity. }
  destruct (write_all_relocs_ok w t (combine (filter has_fixups ss) hs3) f2 q2 f) as (ds & F3 & Zd & W3 & L3 & X3).
  { rewrite map_snd_combine by exact Lh3. rewrite <- Ers. exact O3. }
  { apply Forall_forall. intros [s h] Hin. apply in_combine_l in Hin. apply filter_In in Hin as [_ Hin]. cbn [fst]. unfold has_fixups in Hin. destruct (s_fix s); congruence. }
  { lia. }
  { apply write_relocs_zlen. }
  { exact E. }
  rewrite <- Ers in Zd.
  pose (p := {| p_ns := ns; p_h1 := hs1; p_a := a; p_b := b; p_c := c; p_h3 := hs3; p_t := t; p_es := es; p_rd := ds |} : parts m).
  assert (p_blocks p = map block ss ++ [names; symd; p_strs m] ++ ds) as Ebl by reflexivity.
  assert (map sh_offset (hs1 ++ [a; b; c] ++ hs3) = lay (fo0 m) (map zlen (p_blocks p))) as Oall.
  { rewrite Ebl, !map_app, !lay_app, Z1. rewrite O1, O3, Zd. f_equal. f_equal. exact O2. }
  assert (padto f (lay_end (fo0 m) (map zlen (p_blocks p))) = padto f0 (fo0 m) ++ pack (fo0 m) (p_blocks p)) as Pall.
  { rewrite Ebl, !map_app, !lay_end_app, !pack_app, Z1. cbn [map]. fold q2. rewrite W3, W2, W1, <- !app_assoc. reflexivity. }
  assert (ends f (fo0 m) (p_blocks p)) as Xall.
  { rewrite Ebl. apply ends_more with (g := f) in X2; [|lia]. apply ends_app; [|apply ends_app; [rewrite Z1; exact X2|rewrite Z1; exact X3]]. apply ends_all. rewrite Z1.
    unfold ends in X2. cbn [map lay] in X2. inversion X2 as [|? ? ? ? Y1 Y2]. lia. }
  exists p. split; try assumption.
  - change (p_rd p) with ds. change (p_t p) with t. rewrite <- (map_fst_combine (filter has_fixups (m_secs m)) hs3 Lh3). exact (proj1 (F2_map_l (@fst section shdr) (fun s d => write_relocs w t (s_fix s) = Ok d) _ _) F3).
  - exact (blocks_slices f _ (p_blocks p) (padto f0 (fo0 m)) (fo0 m) _ Pall (padto_zlen _ _ Lf0) Oall Xall).
  - apply (read_head f _ f0 (fo0 m) _ _ _ _ Pall); [lia|]. unfold f0. apply (slice_app [] _ _); [reflexivity|]. now rewrite ehdr_zlen.
  - apply (read_head f _ f0 (fo0 m) _ _ _ _ Pall); [lia|]. unfold f0. rewrite <- (app_nil_r (flat_map (shdr_bytes w) (null_shdr :: hs1 ++ [a; b; c] ++ hs3))). apply slice_app; [now rewrite ehdr_zlen|symmetry; exact Htab].
  - rewrite Ebl, !map_app, !pad16_app, Z1, Zd. cbn [map]. rewrite !pad16_cons. change (pad16 []) with 0. lia.
Qed.
