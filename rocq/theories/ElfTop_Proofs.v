(** ELF: the whole file read back. *)
From Verif Require Import Base Elf_Model Elf_Spec Elf_Proofs ElfLay_Proofs ElfFile_Proofs ElfSym_Proofs ElfEnt_Proofs ElfRel_Proofs.
From Coq Require Import Lia Arith.

(** * lists *)
Lemma map_fst_combine {A B} (a : list A) (b : list B) : length a = length b -> map fst (combine a b) = a.
Proof. revert b. induction a as [|x a IH]; intros [|y b] H; try discriminate; [reflexivity|]. cbn [combine map fst]. f_equal. apply IH. now injection H. Qed.
Lemma map_snd_combine {A B} (a : list A) (b : list B) : length a = length b -> map snd (combine a b) = b.
Proof. revert b. induction a as [|x a IH]; intros [|y b] H; try discriminate; [reflexivity|]. cbn [combine map snd]. f_equal. apply IH. now injection H. Qed.
Lemma F2_length {A B} (R : A -> B -> Prop) a b : Forall2 R a b -> length a = length b. Proof. induction 1; cbn [length]; auto. Qed.
Lemma numbered_snd {A} (l : list A) : forall k, map snd (numbered k l) = l. Proof. induction l as [|a l IH]; intros k; [reflexivity|]. cbn [numbered map snd]. now rewrite IH. Qed.
Lemma numbered_length {A} (l : list A) : forall k, length (numbered k l) = length l. Proof. induction l as [|a l IH]; intros k; [reflexivity|]. cbn [numbered length]. now rewrite IH. Qed.
Lemma filter_map_comm {A B} (f : A -> B) p l : filter p (map f l) = map f (filter (fun x => p (f x)) l).
Proof. induction l as [|a l IH]; [reflexivity|]. cbn [map filter]. destruct (p (f a)); cbn [map]; now rewrite IH. Qed.
Definition rels_of (ss : list section) (ns : list (list Z)) : list (nat * section * list Z) := filter hasf (combine (numbered 0 ss) ns).
Lemma rels_fst ss ns : length ss = length ns -> map fst (rels_of ss ns) = filter (fun p => match s_fix (snd p) with [] => false | _ => true end) (numbered 0 ss).
Proof.
  intros H. unfold rels_of. rewrite <- (map_fst_combine (numbered 0 ss) ns) at 2 by (now rewrite numbered_length). rewrite filter_map_comm. f_equal.
Qed.
Lemma rels_secs ss ns : length ss = length ns -> map (fun p => snd (fst p)) (rels_of ss ns) = filter has_fixups ss.
Proof.
  intros H. rewrite <- (map_map fst snd), rels_fst by exact H. rewrite <- (numbered_snd ss 0) at 2. rewrite filter_map_comm. reflexivity.
Qed.

(** * section headers read *)
Record hdr_ok (h : shdr) : Prop := {
  h1 : 0 <= sh_name h < 2 ^ 32; h2 : 0 <= sh_type h < 2 ^ 32; h3 : 0 <= sh_flags h < 2 ^ 32; h4 : 0 <= sh_offset h < 2 ^ 32; h5 : 0 <= sh_size h < 2 ^ 32;
  h6 : 0 <= sh_link h < 2 ^ 32; h7 : 0 <= sh_info h < 2 ^ 32; h8 : 0 <= sh_addralign h < 2 ^ 32; h9 : 0 <= sh_entsize h < 2 ^ 32 }.
Lemma shdr_zlen w h : zlen (shdr_bytes w h) = sizeof_shdr w. Proof. destruct w; reflexivity. Qed.
Definition has_data (h : shdr) : bool := negb ((sh_type h =? 0) || (sh_type h =? 8)).
Definition sec_of (n : list Z) (d : option (list Z)) (h : shdr) : sec :=
  {| v_name := n; v_type := sh_type h; v_flags := sh_flags h; v_addr := 0; v_offset := sh_offset h; v_size := sh_size h; v_link := sh_link h; v_info := sh_info h;
     v_align := sh_addralign h; v_entsize := sh_entsize h; v_data := if has_data h then d else None |}.
Lemma fw (w : bool) v : 0 <= v < 2 ^ 32 -> le_val (le_bytes (if w then 8 else 4) v) = v.
Proof. intros H. destruct w; [apply f_8; lia|now apply f_4]. Qed.
Lemma rd_sec_ok w f shstr h n d : hdr_ok h -> (match shstr with Some t => string_at t (sh_name h) = Some n | None => n = [] end) ->
  (has_data h = true -> slice (sh_offset h) (sh_size h) f = Some d) -> rd_sec w f shstr (shdr_bytes w h) = Some (sec_of n (Some d) h).
Proof.
  intros [] Hn Hd. unfold rd_sec, sec_of, has_data in *.
  assert (field 4 4 (shdr_bytes w h) = sh_type h) as E1 by (transitivity (le_val (le_bytes 4 (sh_type h))); [destruct w; reflexivity|now apply f_4]).
  assert (field 0 4 (shdr_bytes w h) = sh_name h) as E2 by (transitivity (le_val (le_bytes 4 (sh_name h))); [destruct w; reflexivity|now apply f_4]).
  set (k := if w then 8%nat else 4%nat).
  assert (field (8 + 2 * k) k (shdr_bytes w h) = sh_offset h) as E3 by (transitivity (le_val (le_bytes k (sh_offset h))); [destruct w; reflexivity|now apply fw]).
  assert (field (8 + 3 * k) k (shdr_bytes w h) = sh_size h) as E4 by (transitivity (le_val (le_bytes k (sh_size h))); [destruct w; reflexivity|now apply fw]).
  assert (field 8 k (shdr_bytes w h) = sh_flags h) as E5 by (transitivity (le_val (le_bytes k (sh_flags h))); [destruct w; reflexivity|now apply fw]).
  assert (field (8 + k) k (shdr_bytes w h) = 0) as E6 by (destruct w; reflexivity).
  assert (field (8 + 4 * k) 4 (shdr_bytes w h) = sh_link h) as E7 by (transitivity (le_val (le_bytes 4 (sh_link h))); [destruct w; reflexivity|now apply f_4]).
  assert (field (12 + 4 * k) 4 (shdr_bytes w h) = sh_info h) as E8 by (transitivity (le_val (le_bytes 4 (sh_info h))); [destruct w; reflexivity|now apply f_4]).
  assert (field (16 + 4 * k) k (shdr_bytes w h) = sh_addralign h) as E9 by (transitivity (le_val (le_bytes k (sh_addralign h))); [destruct w; reflexivity|now apply fw]).
  assert (field (16 + 5 * k) k (shdr_bytes w h) = sh_entsize h) as E10 by (transitivity (le_val (le_bytes k (sh_entsize h))); [destruct w; reflexivity|now apply fw]).
  rewrite E1, E2, E3, E4, E5, E6, E7, E8, E9, E10. assert (match shstr with Some t => string_at t (sh_name h) | None => Some [] end = Some n) as -> by (destruct shstr; congruence).
  destruct ((sh_type h =? 0) || (sh_type h =? 8)); cbn [negb] in *; [reflexivity|]. now rewrite Hd.
Qed.

(** * slices of the blocks *)
Lemma blocks_slices f q : forall bs P fo hs, padto f q = P ++ pack fo bs -> zlen P = fo -> map sh_offset hs = lay fo (map zlen bs) -> ends f fo bs ->
  Forall2 (fun h d => slice (sh_offset h) (zlen d) f = Some d) hs bs.
Proof.
  induction bs as [|d bs IH]; intros P fo hs E Z0 O X.
  - destruct hs; [constructor|discriminate].
  - destruct hs as [|h hs]; cbn [map lay] in O; [discriminate|]. assert (sh_offset h = fo) as O1 by congruence. assert (map sh_offset hs = lay (up (fo + zlen d)) (map zlen bs)) as O2 by congruence.
    unfold ends in X. cbn [map lay] in X. inversion X as [|? ? ? ? X1 X2]; subst. cbn [pack] in E. pose proof (up_spec (zlen P + zlen d)) as [U _]. constructor.
    + rewrite O1. apply (slice_prefix _ _ f (zeros (q - zlen f))); [|exact X1]. fold (padto f q). rewrite E. now apply slice_app.
    + apply (IH (P ++ d ++ zeros (up (zlen P + zlen d) - (zlen P + zlen d))) (up (zlen P + zlen d))); [rewrite E, <- !app_assoc; reflexivity| |exact O2|exact X2].
      rewrite !zlen_app, zeros_zlen by lia. lia.
Qed.
Lemma ends_all f bs : forall fo, lay_end fo (map zlen bs) <= zlen f -> ends f fo bs.
Proof.
  induction bs as [|d bs IH]; intros fo H; unfold ends; cbn [map lay lay_end] in *; [constructor|]. pose proof (up_spec (fo + zlen d)) as [U _]. constructor; [|now apply IH].
  assert (up (fo + zlen d) <= lay_end (up (fo + zlen d)) (map zlen bs)); [|lia]. apply lay_end_ge. apply Forall_map, Forall_forall. intros x _. apply zlen_nonneg.
Qed.
Lemma ends_app f a b : forall fo, ends f fo a -> ends f (lay_end fo (map zlen a)) b -> ends f fo (a ++ b).
Proof. unfold ends. intros fo A B. rewrite map_app, lay_app. now apply Forall2_app. Qed.
(** regions in order *)
Definition reg (v : sec) : list (Z * Z) := match v_data v with Some _ => [(v_offset v, v_size v)] | None => [] end.
Lemma regions_apart : forall secs fo sizes, Forall2 (fun v z => v_data v <> None -> v_size v = z) secs sizes -> map v_offset secs = lay fo sizes -> Forall (fun z => 0 <= z) sizes ->
  ForallOrdPairs apart (flat_map reg secs) /\ Forall (fun r => fo <= fst r) (flat_map reg secs).
Proof.
  induction secs as [|v secs IH]; intros fo sizes F O N; inversion F as [|? z ? zs F1 F2]; subst; cbn [flat_map map lay] in *; [split; constructor|].
  assert (v_offset v = fo) as O1 by congruence. assert (map v_offset secs = lay (up (fo + z)) zs) as O2 by congruence. apply Forall_inv in N as Nz. apply Forall_inv_tail in N.
  destruct (IH _ _ F2 O2 N) as [A B]. pose proof (up_spec (fo + z)) as [U _].
  assert (Forall (fun r => fo <= fst r) (flat_map reg secs)) as B' by (eapply Forall_impl; [|exact B]; cbv beta; intros; lia).
  unfold reg at 1 3. destruct (v_data v) as [d|]; cbn [app]; [|now split]. rewrite F1 by discriminate. split.
  - constructor; [|exact A]. eapply Forall_impl; [|exact B]. cbv beta. intros r Hr. unfold apart. cbn [fst snd]. lia.
  - constructor; [cbn [fst]; lia|exact B'].
Qed.
Lemma ehdr_zlen w o a b : zlen (ehdr_bytes w o a b) = sizeof_ehdr w. Proof. destruct w; reflexivity. Qed.

(** * bounds *)
Lemma sum_filter_le {A} (g : A -> Z) p l : (forall a, 0 <= g a) -> sum g (filter p l) <= sum g l.
Proof. intros H. induction l as [|a l IH]; [reflexivity|]. cbn [filter]. specialize (H a). destruct (p a); rewrite !sum_cons; lia. Qed.
Lemma sum_once_le g l : (forall a, 0 <= g a) -> sum g (once l) <= sum g l.
Proof. intros H. induction l as [|a l IH]; [reflexivity|]. cbn [once]. rewrite !sum_cons. pose proof (sum_filter_le g (fun k => negb (Nat.eqb k a)) (once l) H). lia. Qed.
Lemma flat_map_sum {A} (g : A -> list Z) l : zlen (flat_map g l) = sum (fun a => zlen (g a)) l.
Proof. induction l as [|a l IH]; [reflexivity|]. cbn [flat_map]. now rewrite zlen_app, sum_cons, IH. Qed.
Lemma sum_add {A} (g h : A -> Z) l : sum (fun a => g a + h a) l = sum g l + sum h l.
Proof. induction l as [|a l IH]; [reflexivity|]. rewrite !sum_cons, IH. lia. Qed.
Lemma sum_const {A} c (l : list A) : sum (fun _ => c) l = c * zlen l.
Proof. induction l as [|a l IH]; [cbn; change (zlen (@nil A)) with 0; lia|]. rewrite sum_cons, IH, zlen_cons. lia. Qed.
Lemma names_bound w ss ns : Forall2 name_of ss ns -> zlen (shstr_data w (combine ss ns)) <= 27 + sum (fun s => 2 * name_room s + 7) ss.
Proof.
  intros F. rewrite shstr_data_eq, !zlen_app. change (zlen [0]) with 1. change (zlen (flat_map asciiz internal_names)) with 26.
  enough (zlen (flat_map nm (combine ss ns)) + zlen (flat_map (rnm w) (combine ss ns)) <= sum (fun s => 2 * name_room s + 7) ss) by lia.
  induction F as [|s n ss ns (_ & _ & H) _ IH]; [reflexivity|]. cbn [combine flat_map]. rewrite !zlen_app, sum_cons. unfold nm at 1, rnm at 1. cbn [fst snd]. rewrite asciiz_zlen.
  assert (zlen (if has_fixups s then asciiz (rel_prefix w ++ n) else []) <= zlen n + 6).
  { destruct (has_fixups s); [rewrite asciiz_zlen, zlen_app; destruct w; cbn [rel_prefix]; rewrite !zlen_cons; change (zlen (@nil Z)) with 0; lia|]. change (zlen (@nil Z)) with 0. pose proof (zlen_nonneg n). lia. }
  lia.
Qed.
Lemma strtab_bound m : module_ok m -> zlen (strtab_data m (private_symbols m)) <= 2 + zlen (m_path m) + sum (fun n => zlen (y_name (sym m n)) + 1) (used m ++ m_ext m ++ m_pub m).
Proof.
  intros K. rewrite strtab_eq, !zlen_app, asciiz_zlen. change (zlen [0]) with 1. destruct (srcname_facts (m_path m) (k_path _ K)) as [_ S0]. rewrite !flat_map_sum, !sum_app.
  set (g := fun n => zlen (y_name (sym m n)) + 1). assert (forall l, sum (fun a => zlen (ynm m a)) l = sum g l) as G.
  { induction l as [|a l IH]; [reflexivity|]. rewrite !sum_cons, IH. unfold ynm, g. now rewrite asciiz_zlen. }
  rewrite !G. assert (forall a, 0 <= g a) as Gn by (intros a; unfold g; pose proof (zlen_nonneg (y_name (sym m a))); lia).
  unfold private_symbols, external_symbols. pose proof (sum_once_le g (filter (private m) (used m)) Gn). pose proof (sum_filter_le g (private m) (used m) Gn).
  pose proof (sum_filter_le g (fun n => y_comm (sym m n) || negb (y_weak (sym m n))) (m_ext m) Gn). lia.
Qed.
Lemma rels_bound w ss ns : length ss = length ns -> pad16 (map (rsize w) (rels_of ss ns)) <= 24 * zlen (flat_map s_fix ss) + 16 * zlen ss.
Proof.
  intros H. unfold pad16. rewrite sum_map. unfold rsize. rewrite <- (sum_map (fun s => zlen (s_fix s) * sizeof_rel w + 16) (fun p => snd (fst p))), rels_secs by exact H.
  clear. induction ss as [|s ss IH]; [reflexivity|]. cbn [filter flat_map]. rewrite zlen_app, (zlen_cons s ss). pose proof (zlen_nonneg (s_fix s)).
  destruct (has_fixups s); rewrite ?sum_cons; destruct w; cbn [sizeof_rel] in *; lia.
Qed.
Lemma name_room_nonneg s : 0 <= name_room s.
Proof. unfold name_room. destruct (s_alias s) as [a|]; [apply zlen_nonneg|]. pose proof (zlen_nonneg (s_name s)). lia. Qed.
Record bounds (m : module) (ns : list (list Z)) : Prop := {
  b_names : zlen (shstr_data (m_64 m) (combine (m_secs m) ns)) < 2 ^ 32;
  b_str : zlen (strtab_data m (private_symbols m)) < 2 ^ 32;
  b_syms : nsyms m + 1 < 2 ^ 32;
  b_symtab : nsyms m * 24 < 2 ^ 32;
  b_all : forall fo, fo <= 64 + 64 * (4 + 2 * zlen (m_secs m)) + 16 ->
    fo + (pad16 (map fsize (m_secs m)) + (pad16 [zlen (shstr_data (m_64 m) (combine (m_secs m) ns)); nsyms m * 24; zlen (strtab_data m (private_symbols m))] +
      pad16 (map (rsize (m_64 m)) (rels_of (m_secs m) ns)))) < 2 ^ 32 }.
Lemma bounds_ok m ns : module_ok m -> Forall2 name_of (m_secs m) ns -> bounds m ns.
Proof.
  intros K F. pose proof (k_room _ K) as R. unfold room in R. pose proof (names_bound (m_64 m) _ _ F) as B1. pose proof (strtab_bound m K) as B2.
  pose proof (rels_bound (m_64 m) (m_secs m) ns (F2_length _ _ _ F)) as B3. fold (fixups m) in B3.
  assert (pad16 (map fsize (m_secs m)) <= sum (fun s => s_max s + 16) (m_secs m)) as B4.
  { unfold pad16. rewrite sum_map. apply sum_le. eapply Forall_impl; [|apply (k_secs _ K)]. cbv beta. intros s Hs. pose proof (fsize_nonneg m s Hs). lia. }
  assert (sum (fun s => s_max s + 32 + 2 * name_room s + 8) (m_secs m) = sum (fun s => s_max s + 16) (m_secs m) + sum (fun s => 2 * name_room s + 7) (m_secs m) + 17 * zlen (m_secs m)) as B5.
  { rewrite <- sum_const, <- !sum_add. clear. induction (m_secs m) as [|s ss IH]; [reflexivity|]. rewrite !sum_cons, IH. lia. }
  rewrite B5 in R. pose proof (zlen_nonneg (m_secs m)). pose proof (zlen_nonneg (fixups m)). pose proof (zlen_nonneg (m_path m)).
  assert (0 <= sum (fun s => s_max s + 16) (m_secs m)) as B6.
  { apply sum_nonneg. eapply Forall_impl; [|apply (k_secs _ K)]. cbv beta. intros s Hs. pose proof (fsize_nonneg m s Hs). lia. }
  assert (0 <= sum (fun s => 2 * name_room s + 7) (m_secs m)) as B7 by (apply sum_nonneg, Forall_forall; intros s _; pose proof (name_room_nonneg s); lia).
  assert (0 <= sum (fun n => zlen (y_name (sym m n)) + 1) (used m ++ m_ext m ++ m_pub m)) as B8 by (apply sum_nonneg, Forall_forall; intros n _; pose proof (zlen_nonneg (y_name (sym m n))); lia).
  assert (0 <= nsyms m) as B9 by (unfold nsyms; pose proof (zlen_nonneg (m_ext m)); pose proof (zlen_nonneg (m_pub m)); lia).
  split; try lia. intros fo Hfo. rewrite !pad16_cons. change (pad16 []) with 0. lia.
Qed.
