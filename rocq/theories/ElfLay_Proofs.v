(** ELF: section names, section headers, and the contents written. *)
From Verif Require Import Base Elf_Model Elf_Spec Elf_Proofs.
From Coq Require Import Lia Arith.
Local Opaque le_bytes.

(** * section names *)
Lemma strip_spec src name : match strip src name with Some r => name = src ++ r | None => forall r, name <> src ++ r end.
Proof.
  revert name. induction src as [|x s IH]; intros name; cbn [strip app]; [reflexivity|].
  destruct name as [|y n]; [discriminate|]. destruct (Z.eqb_spec x y) as [->|N].
  - specialize (IH n). destruct (strip s n) as [r|]; [congruence|]. intros r E. apply (IH r). congruence.
  - intros r E. congruence.
Qed.
Definition plain (src name : list Z) : Prop := forall r, name = src ++ r -> r <> [] /\ forall q, r <> 36 :: q.
Lemma convert_cons src dst t name n : convert ((src, true, dst) :: t) name = Ok n ->
  (exists r, name = src ++ r /\ (r = [] \/ exists q, r = 36 :: q) /\ n = dst ++ r) \/ (plain src name /\ convert t name = Ok n).
Proof.
  cbn [convert]. pose proof (strip_spec src name) as P. destruct (strip src name) as [[|c r]|].
  - intros E. left. exists []. rewrite !app_nil_r in *. split; [exact P|]. split; [now left|congruence].
  - cbn [andb]. destruct (Z.eqb_spec c 36) as [->|N].
    + destruct (_ <? _); [discriminate|]. intros E. left. exists (36 :: r). repeat split; eauto. congruence.
    + intros E. right. split; [|exact E]. intros r' E'. rewrite P in E'. apply app_inv_head in E'. subst r'. split; [discriminate|]. intros q. congruence.
  - intros E. right. split; [|exact E]. intros r' E'. exfalso. exact (P r' E').
Qed.
Lemma strip_bss name : match strip [95; 66; 83; 83] name with Some [] => name = [95; 66; 83; 83] | _ => name <> [95; 66; 83; 83] end.
Proof.
  pose proof (strip_spec [95; 66; 83; 83] name) as P. destruct (strip _ name) as [[|c r]|].
  - exact P.
  - rewrite P. discriminate.
  - intros E. apply (P []). exact E.
Qed.
Lemma convert_ok name n : convert cst name = Ok n -> new_name name n.
Proof.
  unfold cst. intros E. apply convert_cons in E as [(r & A & B & C)|[P1 E]]; [left; do 3 eexists; repeat split; [left; reflexivity|exact A|exact B|exact C]|].
  apply convert_cons in E as [(r & A & B & C)|[P2 E]]; [left; do 3 eexists; repeat split; [right; left; reflexivity|exact A|exact B|exact C]|].
  apply convert_cons in E as [(r & A & B & C)|[P3 E]]; [left; do 3 eexists; repeat split; [right; right; left; reflexivity|exact A|exact B|exact C]|].
  right. cbn [convert] in E. pose proof (strip_bss name) as P. destruct (strip _ name) as [[|c r]|]; cbn [andb convert] in E.
  - left. split; [exact P|congruence].
  - right. split; [congruence|]. split; [exact P|]. intros src q [<-|[<-|[<-|[]]]]; [apply P1|apply P2|apply P3].
  - right. split; [congruence|]. split; [exact P|]. intros src q [<-|[<-|[<-|[]]]]; [apply P1|apply P2|apply P3].
Qed.
Lemma name_ok_app a b : name_ok (a ++ b) <-> name_ok a /\ name_ok b. Proof. unfold name_ok. apply Forall_app. Qed.
Lemma name_ok_lit l : forallb (fun x => (1 <=? x) && (x <? 256)) l = true -> name_ok l.
Proof. rewrite forallb_forall. intros H. apply Forall_forall. intros x Hx. specialize (H x Hx). lia. Qed.
Lemma new_name_facts name n : name_ok name -> new_name name n -> name_ok n /\ zlen n <= zlen name + 2.
Proof.
  intros H [(src & dst & r & I1 & -> & _ & ->)|[[-> ->]|(-> & _)]].
  - apply name_ok_app in H as [_ H]. cbn [In] in I1. rewrite !zlen_app.
    destruct I1 as [E|[E|[E|[]]]]; apply pair_equal_spec in E as [<- <-]; (split; [apply name_ok_app; split; [now apply name_ok_lit|exact H]|]);
      rewrite ?zlen_cons; change (zlen (@nil Z)) with 0; lia.
  - split; [now apply name_ok_lit|]. vm_compute. discriminate.
  - split; [exact H|lia].
Qed.
Lemma new_name_unique name n n' : new_name name n -> new_name name n' -> n = n'.
Proof.
  intros A B.
  destruct A as [(src & dst & r & I1 & E1 & R1 & ->)|[[-> ->]|(-> & N1 & P1)]]; destruct B as [(src' & dst' & r' & I2 & E2 & R2 & ->)|[[E2 ->]|(-> & N2 & P2)]]; subst; try reflexivity; try congruence.
  - cbn [In] in I1, I2. destruct I1 as [E|[E|[E|[]]]]; apply pair_equal_spec in E as [<- <-]; destruct I2 as [E|[E|[E|[]]]]; apply pair_equal_spec in E as [<- <-]; cbn [app] in E2; congruence.
  - cbn [In] in I1. destruct I1 as [E|[E|[E|[]]]]; apply pair_equal_spec in E as [<- <-]; cbn [app] in E2; congruence.
  - exfalso. assert (In src [[95; 84; 69; 88; 84]; [95; 68; 65; 84; 65]; [67; 79; 78; 83; 84]]) as I3.
    { cbn [In] in I1 |- *. destruct I1 as [E|[E|[E|[]]]]; apply pair_equal_spec in E as [<- <-]; auto. }
    destruct (P2 src r I3 eq_refl) as [X Y]. destruct R1 as [->|[q ->]]; [now apply X|]. now apply (Y q).
  - cbn [In] in I2. destruct I2 as [E|[E|[E|[]]]]; apply pair_equal_spec in E as [<- <-]; cbn [app] in E2; congruence.
  - exfalso. assert (In src' [[95; 84; 69; 88; 84]; [95; 68; 65; 84; 65]; [67; 79; 78; 83; 84]]) as I3.
    { cbn [In] in I2 |- *. destruct I2 as [E|[E|[E|[]]]]; apply pair_equal_spec in E as [<- <-]; auto. }
    destruct (P1 src' r' I3 eq_refl) as [X Y]. destruct R2 as [->|[q ->]]; [now apply X|]. now apply (Y q).
Qed.
Definition name_of (s : section) (n : list Z) : Prop := named s n /\ name_ok n /\ zlen n <= name_room s.
Lemma section_name_ok m s n : sec_ok m s -> section_name s = Ok n -> name_of s n.
Proof.
  intros [W1 W2 _ _ _ _]. unfold section_name, name_of, named, name_room. destruct (s_alias s) as [a|].
  - intros E. assert (n = a) as -> by congruence. repeat split; [exact W2|lia].
  - intros E. apply convert_ok in E. split; [exact E|]. now apply new_name_facts.
Qed.
Lemma section_names_ok m ss ns : Forall (sec_ok m) ss -> section_names ss = Ok ns -> Forall2 name_of ss ns.
Proof.
  intros F. revert ns. induction F as [|s ss Hs _ IH]; intros ns E; cbn [section_names] in E; [assert (ns = []) as -> by congruence; constructor|].
  destruct (section_name s) as [n| |] eqn:En; cbn [bindr] in E; [|discriminate..]. destruct (section_names ss) as [r| |]; cbn [bindr] in E; [|discriminate..].
  assert (ns = n :: r) as -> by congruence. constructor; [eapply section_name_ok; eauto|]. now apply IH.
Qed.
(** the conversion succeeds unless the buffer overflows *)
Lemma convert_fits name : zlen name <= MAX_ID_LEN - 2 -> exists n, convert cst name = Ok n.
Proof.
  intros L.
  assert (G : forall t, (forall src b dst, In (src, b, dst) t -> zlen dst <= zlen src + 2) -> exists n, convert t name = Ok n).
  { induction t as [|[[src b] dst] t IH]; intros Ht; cbn [convert]; [eauto|].
    destruct IH as [n' E']; [intros; eapply Ht; right; eauto|].
    pose proof (strip_spec src name) as P. destruct (strip src name) as [[|c r]|]; [eauto| |eauto].
    destruct (b && (c =? 36)); [|eauto]. destruct (Z.ltb_spec MAX_ID_LEN (zlen (dst ++ c :: r))) as [O|]; [|eauto].
    exfalso. subst name. specialize (Ht src b dst (or_introl eq_refl)). rewrite zlen_app in L, O. lia. }
  apply G. unfold cst. cbn [In]. intros src b dst [E|[E|[E|[E|[]]]]]; apply pair_equal_spec in E as [E <-]; apply pair_equal_spec in E as [<- <-]; vm_compute; discriminate.
Qed.

(** * .shstrtab *)
Definition nm (sn : section * list Z) : list Z := asciiz (snd sn).
Definition rnm (w : bool) (sn : section * list Z) : list Z := if has_fixups (fst sn) then asciiz (rel_prefix w ++ snd sn) else [].
Lemma shstr_data_eq w sn : shstr_data w sn = [0] ++ flat_map nm sn ++ flat_map asciiz internal_names ++ flat_map (rnm w) sn.
Proof.
  unfold shstr_data. f_equal. f_equal; [|f_equal].
  - apply flat_map_ext. now intros [s n].
  - apply flat_map_ext. now intros [s n].
Qed.
Lemma shstr_size_ok w sn : shstr_size w sn = zlen (shstr_data w sn).
Proof.
  rewrite shstr_data_eq. unfold shstr_size.
  assert (G : forall sn z, fold_left (fun size '(s, n) => let size := size + (zlen n + 1) in if has_fixups s then size + (zlen n + (zlen (rel_prefix w) + 1)) else size) sn z
                = z + zlen (flat_map nm sn) + zlen (flat_map (rnm w) sn)).
  { induction sn0 as [|[s n] r IH]; intros z; cbn [fold_left flat_map]; [change (zlen (@nil Z)) with 0; lia|].
    rewrite IH, !zlen_app. unfold nm at 2, rnm at 2. cbn [fst snd]. destruct (has_fixups s); rewrite ?asciiz_zlen, ?zlen_app; change (zlen (@nil Z)) with 0; lia. }
  rewrite G, !zlen_app. change (zlen [0]) with 1. change (zlen (flat_map asciiz internal_names)) with 26. change (fold_left _ internal_names 0) with 26. lia.
Qed.
Lemma fill_exact size d : size = zlen d -> fill size d = Ok d.
Proof. intros ->. unfold fill. rewrite Z.leb_refl, Z.sub_diag. cbn [Z.to_nat repeat]. now rewrite app_nil_r. Qed.
Lemma shstrtab_ok w sn : zlen (shstr_data w sn) < 2 ^ 32 -> set_shstrtab_values w sn = Ok (shstr_data w sn).
Proof. intros H. unfold set_shstrtab_values. apply fill_exact. rewrite shstr_size_ok. apply wrap_small. pose proof (zlen_nonneg (shstr_data w sn)). lia. Qed.

(** * section headers *)
Definition fsize (s : section) : Z := if nobits s then 0 else s_max s.
Definition prog_ok (names : list Z) (sn : section * list Z) (h : shdr) : Prop :=
  let '(s, n) := sn in
  string_at names (sh_name h) = Some n /\ 0 <= sh_name h < 2 ^ 32 /\ sh_type h = sec_kind s /\ sh_flags h = sec_flags s /\ sh_size h = s_max s /\ sh_link h = 0 /\ sh_info h = 0 /\
  sh_addralign h = (if s_align s =? 255 then 0 else 2 ^ s_align s) /\ sh_entsize h = 0.
Lemma type_flags_ok s : type_flags s = (sec_kind s, sec_flags s).
Proof.
  unfold type_flags, sec_kind, sec_flags, SEGTYPE_BSS, SEGTYPE_CODE. destruct (s_info s); [reflexivity|]. f_equal.
  - now destruct (s_type s =? 3).
  - destruct (s_type s =? 1); [reflexivity|]. destruct (s_readonly s), (s_const s); reflexivity.
Qed.
Lemma kind_nobits s : (sec_kind s =? SHT_NOBITS) = nobits s.
Proof. unfold sec_kind, nobits. destruct (s_info s); [reflexivity|]. now destruct (s_type s =? 3). Qed.
Lemma alignment_ok m s : sec_ok m s -> Get_Alignment s = (if s_align s =? 255 then 0 else 2 ^ s_align s).
Proof.
  intros W. unfold Get_Alignment, MAX_SEGALIGNMENT. change 0xff with 255. destruct (Z.eqb_spec (s_align s) 255) as [E|N]; [reflexivity|].
  destruct (w_align _ _ W) as [E|R]; [contradiction|]. rewrite Z.shiftl_mul_pow2, Z.mul_1_l by lia. apply wrap_small. split; [apply Z.pow_nonneg; lia|]. apply Z.pow_lt_mono_r; lia.
Qed.
Lemma sum_cons {A} (g : A -> Z) a l : sum g (a :: l) = g a + sum g l. Proof. reflexivity. Qed.
Lemma sum_app {A} (g : A -> Z) a b : sum g (a ++ b) = sum g a + sum g b.
Proof. induction a as [|x a IH]; [reflexivity|]. cbn [app]. rewrite !sum_cons, IH. lia. Qed.
Lemma sum_nonneg {A} (g : A -> Z) l : Forall (fun a => 0 <= g a) l -> 0 <= sum g l.
Proof. induction 1 as [|a l H _ IH]; [vm_compute; discriminate|]. rewrite sum_cons. lia. Qed.
Lemma sum_map {A B} (g : B -> Z) (h : A -> B) l : sum g (map h l) = sum (fun a => g (h a)) l.
Proof. induction l as [|a l IH]; [reflexivity|]. cbn [map]. now rewrite !sum_cons, IH. Qed.
Lemma sum_le {A} (g h : A -> Z) l : Forall (fun a => g a <= h a) l -> sum g l <= sum h l.
Proof. induction 1 as [|a l H _ IH]; [vm_compute; discriminate|]. rewrite !sum_cons. lia. Qed.
Definition pad16 (l : list Z) : Z := sum (fun z => z + 16) l.
Lemma pad16_cons z l : pad16 (z :: l) = z + 16 + pad16 l. Proof. reflexivity. Qed.
Lemma pad16_nonneg l : Forall (fun z => 0 <= z) l -> 0 <= pad16 l.
Proof. intros H. apply sum_nonneg. eapply Forall_impl; [|exact H]. cbv beta. intros. lia. Qed.
Lemma fsize_nonneg m s : sec_ok m s -> 0 <= fsize s <= s_max s /\ s_max s < 2 ^ 31.
Proof. intros W. pose proof (w_max _ _ W). pose proof (w_size _ _ W). unfold fsize. destruct (nobits s); lia. Qed.
Lemma prog_headers_ok m names B ss ns : Forall (sec_ok m) ss -> Forall2 name_of ss ns -> zlen names < 2 ^ 32 -> forall A fo,
  names = A ++ flat_map nm (combine ss ns) ++ B -> 0 <= fo -> fo mod 16 = 0 -> fo + pad16 (map fsize ss) < 2 ^ 32 ->
  exists h, prog_headers names (zlen A) fo ss = (h, zlen (A ++ flat_map nm (combine ss ns)), lay_end fo (map fsize ss)) /\
    Forall2 (prog_ok names) (combine ss ns) h /\ map sh_offset h = lay fo (map fsize ss).
Proof.
  intros F N L. revert F. induction N as [|s n ss ns Hn _ IH]; intros F A fo E H0 Hm Hb; cbn [prog_headers combine flat_map map lay lay_end] in *.
  - exists []. rewrite app_nil_r. repeat split; constructor.
  - apply Forall_inv in F as Hs. apply Forall_inv_tail in F. rewrite type_flags_ok, kind_nobits. rewrite pad16_cons in Hb.
    pose proof (fsize_nonneg m s Hs) as Fs. assert (0 <= pad16 (map fsize ss)) as Pn. { apply pad16_nonneg, Forall_map. eapply Forall_impl; [|exact F]. cbv beta. intros x Hx. apply (fsize_nonneg m x Hx). }
    assert ((if negb (nobits s) then align16 (wrap 32 (fo + s_max s)) else fo) = up (fo + fsize s)) as ->.
    { unfold fsize in *. destruct (nobits s); cbn [negb]; [rewrite Z.add_0_r; now rewrite up_id|]. rewrite wrap_small by lia. apply align16_up; lia. }
    rewrite <- app_assoc in E. change (nm (s, n)) with (asciiz n) in *.
    assert (next_name names (zlen A) = zlen (A ++ asciiz n)) as ->. { rewrite E. apply next_name_app; [apply Hn|reflexivity]. }
    pose proof (up_spec (fo + fsize s)) as [U1 U2].
    destruct (IH F (A ++ asciiz n) (up (fo + fsize s))) as (h & E1 & P1 & O1); [rewrite E, <- !app_assoc; reflexivity|lia|exact U2|lia|].
    rewrite E1. eexists. split; [rewrite <- app_assoc; reflexivity|]. split; [|cbn [map]; now rewrite O1].
    constructor; [|exact P1]. cbn [prog_ok sh_name sh_type sh_flags sh_size sh_link sh_info sh_addralign sh_entsize].
    repeat split; [rewrite E; apply string_at_app; [apply Hn|reflexivity]| apply zlen_nonneg | |].
    + apply Z.le_lt_trans with (zlen names); [|exact L]. rewrite E, zlen_app. pose proof (zlen_nonneg (asciiz n ++ flat_map nm (combine ss ns) ++ B)). lia.
    + eapply alignment_ok; eauto.
Qed.
Definition rel_ok (w : bool) (nsecs : Z) (names : list Z) (ksn : nat * section * list Z) (h : shdr) : Prop :=
  let '(k, s, n) := ksn in
  string_at names (sh_name h) = Some (rel_prefix w ++ n) /\ 0 <= sh_name h < 2 ^ 32 /\ sh_type h = (if w then 4 else 9) /\ sh_flags h = 0 /\ sh_size h = zlen (s_fix s) * sizeof_rel w /\
  sh_link h = nsecs + 2 /\ sh_info h = Z.of_nat k + 1 /\ sh_addralign h = 4 /\ sh_entsize h = sizeof_rel w.
Definition hasf (p : nat * section * list Z) : bool := has_fixups (snd (fst p)).
Definition rsize (w : bool) (p : nat * section * list Z) : Z := zlen (s_fix (snd (fst p))) * sizeof_rel w.
Lemma rel_headers_ok m w nsecs names B ss ns : Forall (sec_ok m) ss -> Forall2 name_of ss ns -> zlen names < 2 ^ 32 -> forall A fo k,
  names = A ++ flat_map (rnm w) (combine ss ns) ++ B -> 0 <= fo -> fo mod 16 = 0 ->
  let l := filter hasf (combine (numbered k ss) ns) in
  fo + pad16 (map (rsize w) l) < 2 ^ 32 ->
  exists h, rel_headers w nsecs names (zlen A) fo k ss = (h, zlen (A ++ flat_map (rnm w) (combine ss ns)), lay_end fo (map (rsize w) l)) /\
    Forall2 (rel_ok w nsecs names) l h /\ map sh_offset h = lay fo (map (rsize w) l).
Proof.
  intros F N L. revert F. induction N as [|s n ss ns Hn _ IH]; intros F A fo k E H0 Hm l Hb; subst l; cbn [rel_headers numbered combine flat_map filter map lay lay_end] in *.
  - exists []. rewrite app_nil_r. repeat split; constructor.
  - apply Forall_inv in F as Hs. apply Forall_inv_tail in F. change (hasf (k, s, n)) with (has_fixups s) in *.
    destruct (has_fixups s) eqn:HF; assert (rnm w (s, n) = if has_fixups s then asciiz (rel_prefix w ++ n) else []) as Rn by reflexivity; rewrite HF in Rn; rewrite Rn in *.
    + cbn [map lay lay_end] in *. rewrite pad16_cons in Hb. change (rsize w (k, s, n)) with (zlen (s_fix s) * sizeof_rel w) in *. unfold num_relocs.
      assert (0 <= zlen (s_fix s) * sizeof_rel w) as Fs. { pose proof (zlen_nonneg (s_fix s)). destruct w; cbn [sizeof_rel]; lia. }
      assert (0 <= pad16 (map (rsize w) (filter hasf (combine (numbered (S k) ss) ns)))) as Pn.
      { apply pad16_nonneg, Forall_map, Forall_forall. intros x _. unfold rsize. pose proof (zlen_nonneg (s_fix (snd (fst x)))). destruct w; cbn [sizeof_rel]; lia. }
      rewrite wrap_small by lia. rewrite align16_up by lia.
      rewrite <- app_assoc in E. 
      assert (next_name names (zlen A) = zlen (A ++ asciiz (rel_prefix w ++ n))) as ->.
      { rewrite E. apply next_name_app; [apply name_ok_app; split; [destruct w; now apply name_ok_lit|apply Hn]|reflexivity]. }
      pose proof (up_spec (fo + zlen (s_fix s) * sizeof_rel w)) as [U1 U2].
      destruct (IH F (A ++ asciiz (rel_prefix w ++ n)) (up (fo + zlen (s_fix s) * sizeof_rel w)) (S k)) as (h & E1 & P1 & O1); [rewrite E, <- !app_assoc; reflexivity|lia|exact U2|lia|].
      rewrite E1. eexists. split; [rewrite <- app_assoc; reflexivity|]. split; [|cbn [map]; now rewrite O1].
      constructor; [|exact P1]. cbn [rel_ok sh_name sh_type sh_flags sh_size sh_link sh_info sh_addralign sh_entsize]. unfold GetSegIdx.
      repeat split; [rewrite E; apply string_at_app; [apply name_ok_app; split; [destruct w; now apply name_ok_lit|apply Hn]|reflexivity]|apply zlen_nonneg| |lia].
      apply Z.le_lt_trans with (zlen names); [|exact L]. rewrite E, zlen_app. pose proof (zlen_nonneg (asciiz (rel_prefix w ++ n) ++ flat_map (rnm w) (combine ss ns) ++ B)). lia.
    + cbn [app] in E. destruct (IH F A fo (S k)) as (h & E1 & P1 & O1); [exact E|lia|exact Hm|exact Hb|].
      exists h. rewrite E1. cbn [app]. repeat split; assumption.
Qed.
