From Coq Require Import Permutation Sorted.
From Verif Require Import Base Sort_Model Sort_Spec Sort_Proofs Data_Proofs Bin_Model Bin_Spec Bin_Proofs BinFix_Proofs BinFile_Proofs.

(** * relocations *)
Lemma adjust_spec : forall fuel loc vs, 0 <= loc -> loc / 16 <= Z.of_nat fuel -> 0 <= vs < 2 ^ 16 ->
  let '(loc', vs') := adjust fuel loc vs in 0 <= loc' < 2 ^ 16 /\ 0 <= vs' < 2 ^ 16 /\ (16 * vs' + loc') mod 2 ^ 20 = (16 * vs + loc) mod 2 ^ 20.
Proof.
  induction fuel as [|n IH]; intros loc vs L F V.
  - cbn [adjust]. pose proof (Z.div_mod loc 16 ltac:(lia)). pose proof (Z.mod_pos_bound loc 16 ltac:(lia)). change (2 ^ 16) with 65536 in *. split; [lia|]. split; [lia|]. reflexivity.
  - cbn [adjust]. destruct (Z.geb_spec loc 65536) as [G|G].
    + assert ((loc - 16) / 16 = loc / 16 - 1) as D by (replace (loc - 16) with (loc + (-1) * 16) by lia; rewrite Z.div_add by lia; lia).
      specialize (IH (loc - 16) (wrap 16 (vs + 1)) ltac:(lia) ltac:(lia) ltac:(apply wrap_range; lia)). destruct (adjust n (loc - 16) (wrap 16 (vs + 1))) as [loc' vs'].
      destruct IH as (A & B & C). split; [exact A|]. split; [exact B|]. rewrite C. unfold wrap. rewrite (Z.mod_eq (vs + 1) (2 ^ 16)) by lia.
      replace (16 * (vs + 1 - 2 ^ 16 * ((vs + 1) / 2 ^ 16)) + (loc - 16)) with (16 * vs + loc + (- ((vs + 1) / 2 ^ 16)) * 2 ^ 20) by (change (2 ^ 20) with (16 * 2 ^ 16); ring).
      apply Z_mod_plus_full.
    + change (2 ^ 16) with 65536 in *. split; [lia|]. split; [lia|reflexivity].
Qed.
Lemma wrap16_lin : forall v l x, (16 * v + l) mod 2 ^ 20 = x mod 2 ^ 20 -> (16 * wrap 16 v + l) mod 2 ^ 20 = x mod 2 ^ 20.
Proof.
  intros v l x E. rewrite <- E. unfold wrap. rewrite (Z.mod_eq v (2 ^ 16)) by lia.
  replace (16 * (v - 2 ^ 16 * (v / 2 ^ 16)) + l) with (16 * v + l + (- (v / 2 ^ 16)) * 2 ^ 20) by (change (2 ^ 20) with (16 * 2 ^ 16); ring). apply Z_mod_plus_full.
Qed.
Lemma reloc_ok : forall im k f, addresses_ok im -> 0 <= f_locofs f -> base im k + f_locofs f + 40 < 2 ^ 32 ->
  let '(ofs, sg) := reloc_entry im (segment im k) f in
  0 <= ofs < 2 ^ 16 /\ 0 <= sg < 2 ^ 16 /\ linear sg ofs mod 2 ^ 20 = (base im k + f_locofs f + selector_at f) mod 2 ^ 20.
Proof.
  intros im k f SA LO HI. destruct SA as [SA SG]. destruct (SA k) as [S0 S1]. unfold reloc_entry, base, linear in *. rewrite !land15.
  assert ((if f_type f =? FIX_PTR16 then 2 else if f_type f =? FIX_PTR32 then 4 else 0) = selector_at f) as TS.
  { unfold selector_at, FIX_PTR16, FIX_PTR32. destruct (Z.eqb_spec (f_type f) 9) as [->|]; [reflexivity|]. destruct (Z.eqb_spec (f_type f) 10) as [->|]; [reflexivity|]. destruct (f_type f) as [|[[[[]|[]|]|[[]|[]|]|]|[[[]|[]|]|[[]|[]|]|]|]|]; congruence. }
  assert (0 <= selector_at f <= 4) as SB by (rewrite <- TS; destruct (_ =? _); [lia|]; destruct (_ =? _); lia).
  assert (forall loc, (if f_type f =? FIX_PTR16 then loc + 2 else if f_type f =? FIX_PTR32 then loc + 4 else loc) = loc + selector_at f) as TL by (intros loc; rewrite <- TS; destruct (_ =? _); [lia|]; destruct (_ =? _); lia).
  set (st := s_start (segment im k)) in *. pose proof (Z.div_mod st 16 ltac:(lia)) as DS. pose proof (Z.mod_pos_bound st 16 ltac:(lia)) as MS. pose proof (Z.div_pos st 16 S0 ltac:(lia)) as PS.
  rewrite (Z.shiftr_div_pow2 st) by lia. change (2 ^ 4) with 16.
  assert (forall loc vs x, 0 <= loc < 2 ^ 32 -> 0 <= vs < 2 ^ 16 -> (16 * vs + loc) mod 2 ^ 20 = x mod 2 ^ 20 ->
    let '(ofs, sg) := (let '(loc, vs) := adjust (Z.to_nat (loc / 16)) loc vs in (wrap 16 loc, vs)) in 0 <= ofs < 2 ^ 16 /\ 0 <= sg < 2 ^ 16 /\ (16 * sg + ofs) mod 2 ^ 20 = x mod 2 ^ 20) as FIN.
  { intros loc vs x LB VB E. pose proof (Z.div_pos loc 16 ltac:(lia) ltac:(lia)). pose proof (adjust_spec (Z.to_nat (loc / 16)) loc vs ltac:(lia) ltac:(rewrite Z2Nat.id; lia) VB) as AD.
    destruct (adjust _ _ _) as [loc' vs']. destruct AD as (A & B & C). rewrite (wrap_small 16 loc' A). split; [exact A|]. split; [exact B|]. rewrite C. exact E. }
  destruct (s_grp (segment im k)) as [g|] eqn:EG; rewrite ?land15.
  - set (o := g_offset (group_of im g)) in *. specialize (SG g). fold o in SG. pose proof (Z.div_mod o 16 ltac:(lia)) as DO. pose proof (Z.mod_pos_bound o 16 ltac:(lia)) as MO. rewrite (Z.shiftr_div_pow2 o) by lia. change (2 ^ 4) with 16.
    rewrite TL. change (2 ^ 32) with 4294967296 in *. rewrite (wrap_small 32 (f_locofs f + st mod 16)) by (change (2 ^ 32) with 4294967296; lia). rewrite (wrap_small 32 (f_locofs f + st mod 16 + o mod 16)) by (change (2 ^ 32) with 4294967296; lia).
    rewrite (wrap_small 32 (_ + selector_at f)) by (change (2 ^ 32) with 4294967296; lia). apply FIN; [lia|apply wrap_range; lia|]. apply wrap16_lin.
    replace (16 * (wrap 16 (st / 16) + o / 16) + (f_locofs f + st mod 16 + o mod 16 + selector_at f)) with (16 * wrap 16 (st / 16) + (16 * (o / 16) + (f_locofs f + st mod 16 + o mod 16 + selector_at f))) by ring.
    apply wrap16_lin. f_equal. lia.
  - rewrite TL. change (2 ^ 32) with 4294967296 in *. rewrite (wrap_small 32 (f_locofs f + st mod 16)) by (change (2 ^ 32) with 4294967296; lia).
    rewrite (wrap_small 32 (_ + selector_at f)) by (change (2 ^ 32) with 4294967296; lia). apply FIN; [lia|apply wrap_range; lia|]. apply wrap16_lin. f_equal. lia.
Qed.
Lemma relocatable_iff : forall im f, needs_reloc im f = true <-> relocatable im f.
Proof.
  intros im f. unfold needs_reloc, relocatable. rewrite andb_true_iff, !orb_true_iff, !Z.eqb_eq, negb_true_iff. unfold FIX_PTR32, FIX_PTR16, FIX_SEG.
  assert (match sym_segment (f_sym f) with Some k => is_abs im k | None => false end = false <-> match f_sym f with SSeg k | SLab (Some k) _ => s_type (segment im k) <> 5 | _ => True end) as X.
  { unfold sym_segment, is_abs, SEGTYPE_ABS. destruct (f_sym f) as [|g|k|k|[k|] o]; try tauto; apply Z.eqb_neq. }
  rewrite X. tauto.
Qed.
Lemma relocs_in : forall l im e, In e (GetSegRelocs l im) <-> exists k f, In k l /\ real (segs im) k = true /\ In f (s_fix (segment im k)) /\ relocatable im f /\ e = reloc_entry im (segment im k) f.
Proof.
  intros l im e. unfold GetSegRelocs. rewrite in_flat_map. split.
  - intros (k & K & H). unfold SEGTYPE_ABS in H. destruct (s_type (segment im k) =? 5) eqn:T; [destruct H|]. apply in_map_iff in H. destruct H as (f & E & F). apply filter_In in F. destruct F as [F R].
    exists k, f. split; [exact K|]. split; [unfold real; fold (segment im k); rewrite T; reflexivity|]. split; [exact F|]. split; [apply relocatable_iff; exact R|]. symmetry. exact E.
  - intros (k & f & K & T & F & R & ->). exists k. split; [exact K|]. unfold real in T. fold (segment im k) in T. apply negb_true_iff in T. unfold SEGTYPE_ABS. rewrite T.
    apply in_map. apply filter_In. split; [exact F|]. apply relocatable_iff. exact R.
Qed.
(** their number doesn't depend on addresses or the order *)
Lemma relocs_count : forall l l' im im', Permutation l l' -> (forall k, placed (segment im k) (segment im' k)) -> length (GetSegRelocs l' im') = length (GetSegRelocs l im).
Proof.
  intros l l' im im' P H.
  assert (forall k, length (let s := segment im' k in if s_type s =? SEGTYPE_ABS then [] else map (reloc_entry im' s) (filter (needs_reloc im') (s_fix s))) =
                    length (let s := segment im k in if s_type s =? SEGTYPE_ABS then [] else map (reloc_entry im s) (filter (needs_reloc im) (s_fix s)))) as X.
  { intros k. cbv zeta. assert (forall f, needs_reloc im' f = needs_reloc im f) as NR.
    { intros f. unfold needs_reloc. f_equal. f_equal. destruct (sym_segment (f_sym f)) as [j|]; [|reflexivity]. unfold is_abs. destruct (H j) as (a & b & c & ->). reflexivity. }
    rewrite (filter_same _ _ _ _ (fun f _ => NR f)). destruct (H k) as (a & b & c & ->). cbn [place s_type s_fix]. destruct (_ =? _); [reflexivity|]. rewrite !map_length. reflexivity. }
  assert (forall m, length (GetSegRelocs m im') = length (GetSegRelocs m im)) as Y.
  { induction m as [|z m IHm]; [reflexivity|]. unfold GetSegRelocs in *. cbn [flat_map]. rewrite !app_length, X. lia. }
  rewrite Y. apply Permutation_length. apply Permutation_sym. unfold GetSegRelocs. apply Permutation_flat_map. exact P.
Qed.

(** * the header *)
Lemma byte_at_app : forall a b p, 0 <= p -> byte_at (a ++ b) p = if p <? zlen a then byte_at a p else byte_at b (p - zlen a).
Proof.
  intros a b p P. unfold byte_at. destruct (Z.ltb_spec p 0); [lia|]. destruct (Z.ltb_spec p (zlen a)) as [L|L]; unfold zlen in *.
  - rewrite app_nth1 by lia. reflexivity.
  - destruct (Z.ltb_spec (p - Z.of_nat (length a)) 0); [lia|]. rewrite app_nth2 by lia. f_equal. lia.
Qed.
Lemma word_at_app_r : forall a b p, zlen a <= p -> word_at (a ++ b) p = word_at b (p - zlen a).
Proof.
  intros a b p P. pose proof (zlen_nonneg a). unfold word_at. rewrite !byte_at_app by lia. destruct (Z.ltb_spec p (zlen a)); [lia|]. destruct (Z.ltb_spec (p + 1) (zlen a)); [lia|]. replace (p + 1 - zlen a) with (p - zlen a + 1) by lia. reflexivity.
Qed.
Lemma word_le : forall v r, word_at (le_bytes 2 v ++ r) 0 = v mod 2 ^ 16.
Proof.
  intros v r. pose proof (le_val_le_bytes 2 v) as E. change (8 * Z.of_nat 2) with 16 in E. rewrite <- E. clear E.
  assert (exists a b, le_bytes 2 v = [a; b]) as (a & b & ->) by (eexists; eexists; reflexivity).
  change (word_at ([a; b] ++ r) 0) with (a + 256 * b). cbn [le_val]. lia.
Qed.
Lemma words_at : forall vs r i, (i < length vs)%nat -> word_at (flat_map (le_bytes 2) vs ++ r) (2 * Z.of_nat i) = nth i vs 0 mod 2 ^ 16.
Proof.
  induction vs as [|v vs IH]; intros r i H; [cbn in H; lia|]. cbn [flat_map]. rewrite <- app_assoc. destruct i as [|i].
  - change (2 * Z.of_nat 0) with 0. cbn [nth]. apply word_le.
  - cbn [nth]. rewrite <- (IH r i ltac:(cbn in H; lia)). assert (zlen (le_bytes 2 v) = 2) as L by (unfold zlen; rewrite le_bytes_length; reflexivity).
    rewrite word_at_app_r by lia. f_equal. lia.
Qed.
Lemma zlen_words : forall vs, zlen (flat_map (le_bytes 2) vs) = 2 * zlen vs.
Proof. induction vs as [|v vs IH]; [reflexivity|]. cbn [flat_map]. rewrite zlen_app, zlen_cons, IH. unfold zlen at 1. rewrite le_bytes_length. lia. Qed.
Lemma zlen_table : forall t : list (Z * Z), zlen (flat_map (fun '(o, s) => le_bytes 2 o ++ le_bytes 2 s) t) = 4 * zlen t.
Proof. induction t as [|[o s] t IH]; [reflexivity|]. cbn [flat_map]. rewrite !zlen_app, zlen_cons, IH. unfold zlen at 1 2. rewrite !le_bytes_length. lia. Qed.
Lemma entries_read : forall (t : list (Z * Z)) h r, (forall o s, In (o, s) t -> 0 <= o < 2 ^ 16 /\ 0 <= s < 2 ^ 16) ->
  entries (length t) (h ++ flat_map (fun '(o, s) => le_bytes 2 o ++ le_bytes 2 s) t ++ r) (zlen h) = t.
Proof.
  induction t as [|[o s] t IH]; intros h r H; [reflexivity|]. cbn [length entries flat_map]. destruct (H o s ltac:(left; reflexivity)) as [HO HS].
  rewrite !word_at_app_r by lia. replace (zlen h - zlen h) with 0 by lia. rewrite <- !app_assoc. rewrite word_le.
  assert (zlen (le_bytes 2 o) = 2) as L by (unfold zlen; rewrite le_bytes_length; reflexivity). assert (zlen (le_bytes 2 s) = 2) as L' by (unfold zlen; rewrite le_bytes_length; reflexivity).
  rewrite (word_at_app_r h _ (zlen h + 2)) by lia. rewrite (word_at_app_r (le_bytes 2 o)) by lia. replace (zlen h + 2 - zlen h - zlen (le_bytes 2 o)) with 0 by lia. rewrite word_le. rewrite (Z.mod_small o), (Z.mod_small s) by assumption. f_equal.
  replace (zlen h + 4) with (zlen (h ++ le_bytes 2 o ++ le_bytes 2 s)) by (rewrite !zlen_app; lia).
  replace (h ++ le_bytes 2 o ++ le_bytes 2 s ++ flat_map (fun '(o, s) => le_bytes 2 o ++ le_bytes 2 s) t ++ r) with ((h ++ le_bytes 2 o ++ le_bytes 2 s) ++ flat_map (fun '(o, s) => le_bytes 2 o ++ le_bytes 2 s) t ++ r) by (rewrite <- !app_assoc; reflexivity).
  apply IH. intros o' s' I'. apply H. right. exact I'.
Qed.
Lemma sizehdr_ok : forall d n, mz_ok d -> 0 <= n < 2 ^ 16 ->
  let h := mz_sizehdr d n in 4 * n + ofs_fixups d <= h < 4 * n + ofs_fixups d + alignment d /\ (alignment d | h).
Proof.
  intros d n (O & A & (j & J & EA) & _) N h. unfold h, mz_sizehdr. rewrite EA in *.
  assert (2 ^ j < 2 ^ 16) as PJ by apply A. set (x := n * 4 + ofs_fixups d).
  assert (Z.land (x + (2 ^ j - 1)) (Z.lnot (2 ^ j - 1)) = up j x) as ->.
  { unfold up. replace (x + (2 ^ j - 1)) with (x + 2 ^ j - 1) by lia. set (y := x + 2 ^ j - 1). rewrite Z.sub_1_r, <- Z.ones_equiv. rewrite <- Z.ldiff_land, Z.ldiff_ones_r by lia.
    rewrite Z.shiftr_div_pow2, Z.shiftl_mul_pow2 by lia. reflexivity. }
  destruct (up_spec j x ltac:(lia)) as [U1 U2]. change (2 ^ 16) with 65536 in *. rewrite wrap_small by (change (2 ^ 32) with 4294967296; lia). split; [lia|exact U2].
Qed.
