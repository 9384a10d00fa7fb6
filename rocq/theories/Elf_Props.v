(** C19: symbols and relocations of ELF files. C20: sections of ELF files. *)
From Coq Require Import String Ascii Lia.
From Verif Require Import Base Elf_Model Elf_Spec Elf_Proofs ElfLay_Proofs ElfSym_Proofs ElfEnt_Proofs ElfRel_Proofs ElfTop_Proofs ElfObj_Proofs ElfRead_Proofs ElfTotal_Proofs.
Open Scope list_scope.
Fixpoint str (s : string) : list Z := match s with EmptyString => [] | String c s => Z.of_nat (nat_of_ascii c) :: str s end.

(** * C20 *)
(** The file is a well-formed relocatable object. Its section headers are the
    null header, the program sections, .shstrtab, .symtab, .strtab and one
    relocation section per section with fixups; each has its name, its kind, its
    contents and designates the right sections. *)
Theorem C20_sections : forall m f, module_ok m -> elf_write_module m = Ok f -> exists o null progs shstr symt strt rels,
  rd_object f = Some o /\
  o_64 o = m_64 m /\ o_osabi o = m_osabi m /\ o_machine o = (if m_64 m then 62 else 3) /\
  o_secs o = null :: progs ++ [shstr; symt; strt] ++ rels /\ null_sec null /\ Forall2 prog_sec (m_secs m) progs /\
  table_sec (str ".shstrtab") 3 0 0 1 0 shstr /\
  table_sec (str ".symtab") 2 (zlen (m_secs m) + 3) (zlen (filter (fun e => e_bind e =? 0) (o_syms o))) 4 (if m_64 m then 24 else 16) symt /\
  table_sec (str ".strtab") 3 0 0 1 0 strt /\
  Forall2 (fun ks v => rel_sec (m_64 m) (zlen (m_secs m)) (fst ks) (snd ks) v) (relocated m) rels /\
  o_shstrndx o = zlen (m_secs m) + 1 /\ o_symtab o = (zlen (m_secs m) + 2, symt).
Proof.
  intros m f K E. destruct (elf_read m f K E) as (o & R & G). destruct (g_secs _ _ G) as (n & p & a & b & c & r & E1 & E2 & E3 & E4 & E5 & E6 & E7 & E8).
  destruct (g_class _ _ G) as (C1 & C2 & C3). exists o, n, p, a, b, c, r.
  assert (zlen (filter (fun e => e_bind e =? 0) (o_syms o)) = zlen (local_part m (srcname (m_path m) (m_path m)))) as ->.
  { rewrite (g_syms _ _ G), filter_app. rewrite filter_all by (eapply Forall_impl; [|apply local_binds]; cbv beta; intros e ->; reflexivity).
    rewrite filter_none by (eapply Forall_impl; [|apply (global_binds m K)]; cbv beta; intros e [-> | ->]; reflexivity). now rewrite app_nil_r. }
  repeat (split; [assumption|]). split; [exact (g_shstrndx _ _ G)|exact E8].
Qed.
Print Assumptions C20_sections.
(** The ELF header, the section headers and the contents of the sections lie one
    behind the other, without overlap; the contents are aligned to 16 bytes. *)
Theorem C20_layout : forall m f, module_ok m -> elf_write_module m = Ok f -> exists o,
  rd_object f = Some o /\ ForallOrdPairs apart (regions o) /\ Forall (fun v => v_offset v mod 16 = 0) (o_secs o) /\
  o_table o = (if m_64 m then 64 else 52, zlen (o_secs o) * (if m_64 m then 64 else 40)).
Proof. intros m f K E. destruct (elf_read m f K E) as (o & R & G). exists o. split; [exact R|]. split; [exact (g_apart _ _ G)|]. split; [exact (g_aligned _ _ G)|exact (g_table _ _ G)]. Qed.
Print Assumptions C20_layout.
(** Modules whose buffers are complete and whose fixups the format knows are written. *)
Theorem C20_total : forall m, module_ok m -> complete m -> exists f, elf_write_module m = Ok f.
Proof. exact elf_total. Qed.
Print Assumptions C20_total.
(** A section without alias gets exactly one name. *)
Theorem C20_name : forall name, zlen name <= 245 -> exists n, convert cst name = Ok n /\ forall n', new_name name n' <-> n' = n.
Proof.
  intros name H. destruct (convert_fits name H) as [n E]. exists n. split; [exact E|]. apply convert_ok in E. intros n'. split; [intros X; exact (new_name_unique _ _ _ X E)|intros ->; exact E].
Qed.
Print Assumptions C20_name.

(** * C19 *)
(** The symbol table: null, the source file, the sections, the private symbols
    that fixups refer to, then the external and the public symbols, each with its
    name, value, section, type and binding. sh_info is the number of the first
    global symbol. *)
Theorem C19_symbols : forall m f, module_ok m -> elf_write_module m = Ok f -> exists o file,
  rd_object f = Some o /\ base_name (m_path m) file /\ (forall n, base_name (m_path m) n -> n = file) /\
  o_syms o = local_part m file ++ global_part m /\ v_info (snd (o_symtab o)) = zlen (local_part m file) /\
  Forall (fun e => e_bind e = 0) (local_part m file) /\ Forall (fun e => e_bind e = 1 \/ e_bind e = 2) (global_part m).
Proof.
  intros m f K E. destruct (elf_read m f K E) as (o & R & G). exists o, (srcname (m_path m) (m_path m)). split; [exact R|]. split; [apply srcname_base|].
  split; [intros n Hn; exact (base_name_unique _ _ _ Hn (srcname_base _))|]. split; [exact (g_syms _ _ G)|]. split; [|split; [apply local_binds|apply global_binds, K]].
  destruct (g_secs _ _ G) as (n & p & a & b & c & r & _ & _ & _ & _ & (_ & _ & _ & _ & _ & X & _) & _ & _ & E8). rewrite E8. exact X.
Qed.
Print Assumptions C19_symbols.
(** Each private symbol that a fixup refers to has one entry; others have none. *)
Theorem C19_private : forall m, NoDup (private_symbols m) /\ forall n, In n (private_symbols m) <->
  (exists s x, In s (m_secs m) /\ In x (s_fix s) /\ f_ref x = RSym n) /\ y_state (sym m n) = Internal /\ y_public (sym m n) = false.
Proof.
  intros m. split; [apply once_NoDup|]. intros n. rewrite private_In. unfold private, used. split.
  - intros [U P]. split; [|destruct (y_state (sym m n)); try discriminate; split; [reflexivity|now apply Bool.negb_true_iff]].
    apply in_flat_map in U as (s & S1 & U). apply in_flat_map in U as (x & X1 & U). exists s, x. repeat split; auto. destruct (f_ref x) as [|k| |]; cbn in U; try contradiction. destruct U as [->|[]]. reflexivity.
  - intros [(s & x & S1 & X1 & E) [P1 P2]]. split; [eapply used_In; eauto|]. now rewrite P1, P2.
Qed.
Print Assumptions C19_private.
(** Each relocation section holds the relocations of its section, one per fixup,
    in order: place, type, addend, and the index of the entry of its target. *)
Theorem C19_relocations : forall m f, module_ok m -> elf_write_module m = Ok f -> exists o,
  rd_object f = Some o /\
  Forall2 (fun ks ir => fst ir = Z.of_nat (fst ks) + 1 /\ Forall2 (reloc_ok m (o_syms o)) (s_fix (snd ks)) (snd ir)) (relocated m) (o_rels o).
Proof. intros m f K E. destruct (elf_read m f K E) as (o & R & G). exists o. split; [exact R|exact (g_rels _ _ G)]. Qed.
Print Assumptions C19_relocations.

(** * Examples *)
Definition sec1 (name : string) (ty : Z) (max : Z) (buf : option (list Z)) (fx : list fixup) : section :=
  {| s_name := str name; s_alias := None; s_info := false; s_type := ty; s_readonly := false; s_const := false; s_align := 4; s_max := max; s_start := 0; s_buf := buf; s_fix := fx |}.
Definition fx (ty ofs : Z) (r : ref) : fixup := {| f_type := ty; f_locofs := ofs; f_addbytes := 4; f_ref := r |}.
Definition y (name : string) (st : state) (seg : option nat) (pub comm weak : bool) (ofs : Z) : symbol :=
  {| y_name := str name; y_state := st; y_seg := seg; y_public := pub; y_comm := comm; y_weak := weak; y_altname := false; y_offset := ofs; y_total := 8; y_included := false |}.
(** code with relocations to a private, an external and a public symbol and a section; data with one; BSS *)
Definition prog (w : bool) : module :=
  {| m_64 := w; m_osabi := 0; m_path := str "dir/a.asm";
     m_secs := [sec1 "_TEXT" 1 20 (Some (repeat 0x90 20)) [fx FIX_RELOFF32 1 (RSym 1); fx FIX_OFF32 6 (RSym 0); fx FIX_RELOFF32 11 (RSym 2); fx FIX_OFF32 16 (RSec 1)];
                sec1 "_DATA$x" 2 8 (Some [1; 2; 3; 4; 0; 0; 0; 0]) [fx FIX_OFF32 4 (RSym 0)]; sec1 "_BSS" 3 100 None []; sec1 "other" 2 0 None []];
     m_syms := [y "priv" Internal (Some 1%nat) false false false 4; y "printf" External None false false false 0; y "main" Internal (Some 0%nat) true false false 0;
                y "unused" External None false false true 0; y "buf" External None false true true 0];
     m_ext := [1; 3; 4]%nat; m_pub := [2]%nat |}.
Ltac small := repeat (apply Forall_cons || apply Forall_nil); cbn; try lia.
Example prog_ok w : module_ok (prog w).
Proof.
  split.
  - apply name_ok_lit. reflexivity.
  - cbn. lia.
  - repeat (apply Forall_cons || apply Forall_nil); split; try (apply name_ok_lit; reflexivity); try exact Logic.I; try (right; cbn; lia); try (cbn; lia).
    all: repeat (apply Forall_cons || apply Forall_nil); cbn; (split; [lia|]); (split; [lia|]); auto 10.
  - repeat (apply Forall_cons || apply Forall_nil); vm_compute; split; (reflexivity || discriminate).
  - small.
  - small.
  - split; [repeat (constructor; [cbn; intuition discriminate|]); constructor|]. repeat (apply Forall_cons || apply Forall_nil); reflexivity.
  - split; [repeat (constructor; [cbn; intuition discriminate|]); constructor|]. repeat (apply Forall_cons || apply Forall_nil); split; reflexivity.
  - repeat (apply Forall_cons || apply Forall_nil); reflexivity.
  - vm_compute. reflexivity.
  - vm_compute. reflexivity.
  - intros _. vm_compute. reflexivity.
Qed.
Example prog_complete w : complete (prog w).
Proof.
  split.
  - repeat (apply Forall_cons || apply Forall_nil); intros A B; try (now exfalso; apply A); try (now exfalso; apply B); eexists; (split; [reflexivity|vm_compute; discriminate]).
  - repeat (apply Forall_cons || apply Forall_nil); right; vm_compute; discriminate.
  - repeat (apply Forall_cons || apply Forall_nil); (split; [|exact Logic.I]); destruct w; eexists; cbn; auto 20.
Qed.
Example C20_example w : exists f, elf_write_module (prog w) = Ok f. Proof. exact (C20_total _ (prog_ok w) (prog_complete w)). Qed.
Example C20_example_names : match elf_write_module (prog true) with Ok f => option_map (fun o => map v_name (o_secs o)) (rd_object f) | _ => None end =
  Some [[]; str ".text"; str ".data$x"; str ".bss"; str "other"; str ".shstrtab"; str ".symtab"; str ".strtab"; str ".rela.text"; str ".rela.data$x"].
Proof. vm_compute. reflexivity. Qed.
Example C19_example : match elf_write_module (prog false) with Ok f => option_map (fun o => (map e_name (o_syms o), v_info (snd (o_symtab o)), map (fun ir => map r_sym (snd ir)) (o_rels o))) (rd_object f) | _ => None end =
  Some ([[]; str "a.asm"; []; []; []; []; str "priv"; str "printf"; str "buf"; str "main"], 7, [[7; 6; 9; 3]; [6]]).
Proof. vm_compute. reflexivity. Qed.

(** * Refuted *)
(** A fixup without symbol (an absolute address as the target of a jump): the
    writer dereferences NULL for every such module. *)
Theorem C19_no_symbol_refuted : forall m ns, section_names (m_secs m) = Ok ns -> zlen (shstr_data (m_64 m) (combine (m_secs m) ns)) < 2 ^ 32 ->
  Exists (fun x => f_ref x = RNone) (fixups m) -> elf_write_module m = UB.
Proof.
  intros m ns E B X. unfold elf_write_module. rewrite E. cbn [bindr]. rewrite shstrtab_ok by exact B. cbn [bindr]. destruct (prog_headers _ _ _ _) as [[hs p] fo]. unfold set_symtab_values, set_indices.
  rewrite scan_none by exact X. reflexivity.
Qed.
Print Assumptions C19_no_symbol_refuted.
(** CONST$ and 241 more characters: the converted name overflows its buffer. *)
Theorem C20_name_refuted : exists name, zlen name = 247 /\ convert cst name = UB.
Proof. exists (str "CONST$" ++ repeat 65 241). split; vm_compute; reflexivity. Qed.
Print Assumptions C20_name_refuted.
(** ELF32 relocations have 24 bits for the symbol: higher indices are cut. *)
Theorem C19_index_refuted : exists t x b, index_of t (f_ref x) = Ok (2 ^ 24 + 7) /\ write_reloc false t x = Ok b /\ r_sym (rd_rel false b) = 7.
Proof.
  exists {| symindex := 0; ext_idx := fun _ => 2 ^ 24 + 7; included := fun _ => false; locals := [] |}, (fx FIX_OFF32 0 (RSym 0)). eexists. split; [reflexivity|]. split; [vm_compute; reflexivity|]. vm_compute. reflexivity.
Qed.
Print Assumptions C19_index_refuted.
