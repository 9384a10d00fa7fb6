(** C16: when there is an object file. *)
From Verif Require Import Base Crc_Model Crc_Spec Crc_Proofs Coff_Model Coff_Spec CoffStr_Proofs CoffSym_Proofs CoffEnt_Proofs CoffPub_Proofs CoffIdx_Proofs CoffRel_Proofs CoffHead_Proofs CoffTop_Proofs.
From Coq Require Import Lia.

(** the section behind the section table *)
Record ready (x : section) : Prop := {
  r_loc : 0 <= s_start_loc x <= s_max x;
  r_buf : match s_buf x with Some b => zlen b = s_max x - s_start_loc x /\ Forall is_byte b | None => True end;
  r_fix : Forall (fun f => reloc_type (s_use64 x) f <> None /\ (f_type f <> FIX_VOID -> f_ref f <> RNone /\ f_ref f <> RVar None)) (s_fix x);
  r_lines : match s_lines x with Some (LLine _ _ :: _) => False | _ => True end;
  r_comdat : s_comdat x <> 0 -> s_start_loc x = 0 }.
Lemma absolute_total start fs : forall b, Forall (fun f => is_none f = true -> f_type f = FIX_RELOFF32 -> exists c, b = Some c /\ start <= f_locofs f /\ f_locofs f + 4 <= start + zlen c) fs ->
  exists b', absolute_fixups start fs b = Ok b'.
Proof.
  induction fs as [|f fs IH]; intros b F; cbn [absolute_fixups]; [eexists; reflexivity|]. pose proof (Forall_inv F) as F1. pose proof (Forall_inv_tail F) as F2. cbv beta in F1.
  destruct (is_none f) eqn:Nf; cbn [andb]; [|now apply IH]. destruct (Z.eqb_spec (f_type f) FIX_RELOFF32) as [T|T]; [|now apply IH].
  destruct (F1 eq_refl T) as (c & -> & L1 & L2). cbn zeta. unfold poke32. destruct (Z.leb_spec 0 (f_locofs f - start)); [|lia]. destruct (Z.leb_spec (f_locofs f - start + 4) (zlen c)); [|lia]. cbn [andb bindr].
  apply IH. eapply Forall_impl; [|exact F2]. intros g G N T'. destruct (G N T') as (c' & E & M1 & M2). injection E as <-. eexists. split; [reflexivity|]. split; [assumption|].
  unfold zlen in *. rewrite !app_length, le_bytes_length, firstn_length, skipn_length. lia.
Qed.
Lemma type_known use64 f t : asked_type use64 f t -> reloc_type use64 f <> None.
Proof.
  unfold asked_type, reloc_type. intros A. destruct use64.
  - destruct A as [[-> _]|A]; [discriminate|]. cbn [In] in A. repeat (destruct A as [A|A]; [apply pair_equal_spec in A as [<- _]; discriminate|]). destruct A.
  - cbn [In] in A. repeat (destruct A as [A|A]; [apply pair_equal_spec in A as [<- _]; discriminate|]). destruct A.
Qed.
Lemma ready_section m o s P l old : section_wf m s -> supported s -> exists h name l' fo x, section_header o s P l old = Ok (h, name, l', fo, x) /\ ready x /\ s_max x = s_max s /\ s_start_loc x = s_start_loc s.
Proof.
  intros W [SA SR SC]. unfold section_header. destruct (section_name o s) as [sn st']. destruct (header_name l sn old) as [name l1]. destruct (characteristics s st' P) as [[[c size] ptr] t].
  destruct (absolute_total (s_start_loc s) (s_fix s) (s_buf s)) as [buf EB].
  { pose proof (w_buf _ _ W) as WB. pose proof (w_size _ _ W) as WZ. eapply Forall_impl; [|exact SA]. intros f G N T. destruct (G N T) as (NB & L1 & L2). destruct (s_buf s) as [b|]; [|congruence]. exists b. split; [reflexivity|]. lia. }
  rewrite EB. cbn [bindr]. cbn zeta.
  match goal with |- context [?e = Ok _] => assert (exists h fo, e = Ok (h, name, l1, fo, with_data s t buf)) as (h & fo & ->) end.
  { case (s_fix s); [|intros f0 fs0; case (num_relocs s <=? 65535)]; (case (s_lines s); [intros q; case (debug4 o)|]); do 2 eexists; reflexivity. }
  do 5 eexists. split; [reflexivity|]. split; [|split; reflexivity]. split; cbn [with_data s_start_loc s_max s_buf s_fix s_use64 s_lines s_comdat].
  - apply (w_size _ _ W).
  - pose proof (resolved_buf _ _ _ W EB) as RB. destruct buf; [|exact Logic.I]. split; apply RB.
  - destruct (w_fix _ _ W) as [WF _]. rewrite Forall_map. rewrite Forall_forall in *. intros f If. specialize (WF f If). specialize (SR f If). destruct (is_none f) eqn:Nf.
    + split; [discriminate|]. cbn [void f_type]. congruence.
    + destruct (SR eq_refl) as [ty TY]. split; [eapply type_known; exact TY|]. intros _. unfold is_none in Nf. destruct WF as (_ & _ & WR). destruct (f_ref f) as [| | |[|]]; try discriminate; try (split; discriminate). destruct WR.
  - pose proof (w_lines _ _ W) as WL. destruct (s_lines s) as [[|[|] q]|]; try exact Logic.I. apply WL.
  - exact SC.
Qed.
Lemma ready_sections m o : forall ss P l old, Forall (section_wf m) ss -> Forall supported ss ->
  exists hs l' xs, section_headers o ss P l old = Ok (hs, l', xs) /\ Forall2 (fun s x => ready x /\ s_max x = s_max s /\ s_start_loc x = s_start_loc s) ss xs.
Proof.
  induction ss as [|s ss IH]; intros P l old W SU; cbn [section_headers]; [do 3 eexists; split; [reflexivity|constructor]|].
  destruct (ready_section m o s P l old (Forall_inv W) (Forall_inv SU)) as (h & name & l1 & fo & x & -> & R). cbn [bindr].
  destruct (IH fo l1 name (Forall_inv_tail W) (Forall_inv_tail SU)) as (hs & l2 & xs & -> & F). cbn [bindr]. do 3 eexists. split; [reflexivity|]. now constructor.
Qed.
Lemma indices_total m : forall q index lastfile lastfproc s, (lastfproc = None -> c_start_files s = 0) -> 0 < index -> exists r, pub_indices m q index lastfile lastfproc s = Ok r.
Proof.
  induction q as [|p q IH]; intros index lastfile lfp s H P; cbn [pub_indices]; [eexists; reflexivity|]. cbn zeta.
  assert (0 <= aux_entries (file_name m (y_file (sym m p)))). { unfold aux_entries. pose proof (zlen_nonneg (file_name m (y_file (sym m p)))). pose proof (Z.div_pos (zlen (file_name m (y_file (sym m p)))) 18). destruct (_ =? _); lia. }
  destruct (lines_on (m_opt m) && y_proc (sym m p)); [|apply IH; [exact H|lia]]. destruct (negb (y_file (sym m p) =? lastfile)); [|apply IH; [exact H|lia]].
  destruct (Z.eqb_spec (c_start_files s) 0) as [E|E]; [apply IH; [discriminate|lia]|]. destruct lfp as [x|]; [apply IH; [discriminate|lia]|]. exfalso. apply E. now apply H.
Qed.
Lemma ext_pos m : forall es index idx, index <= fst (ext_indices m es index idx).
Proof. induction es as [|e es IH]; intros index idx; cbn [ext_indices]; [cbn [fst]; lia|]. destruct (skipped (sym m e)); [apply IH|]. etransitivity; [|apply IH]. destruct (weak_ext (sym m e)); lia. Qed.
Lemma set_total m : m_secs m <> [] -> exists r, SetSymbolIndices m = Ok r.
Proof.
  intros N. unfold SetSymbolIndices. cbn zeta. destruct (ext_indices m (m_ext m) _ _) as [i1 idx] eqn:Ei. destruct (if no_static_procs (m_opt m) then _ else _) as [inc pub]. apply indices_total; [reflexivity|].
  match type of Ei with ext_indices m (m_ext m) ?i ?f = _ => pose proof (ext_pos m (m_ext m) i f) as Q end. rewrite Ei in Q. cbn [fst] in Q.
  assert (0 <= section_start m) by (rewrite <- head_size; apply xsizes_nonneg). destruct (m_secs m) as [|x r]; [congruence|]. rewrite zlen_cons in Q. pose proof (zlen_nonneg r). destruct (no_section_aux (m_opt m)); lia.
Qed.
Lemma fixups_total m use64 : forall fs index s, Forall (fun f => reloc_type use64 f <> None /\ (f_type f <> FIX_VOID -> f_ref f <> RNone /\ f_ref f <> RVar None)) fs ->
  exists r, write_fixups m use64 fs index s = Ok r.
Proof.
  induction fs as [|f fs IH]; intros index s F; cbn [write_fixups]; [eexists; reflexivity|]. pose proof (Forall_inv F) as [F1 F2]. apply Forall_inv_tail in F.
  destruct (reloc_type use64 f) as [[t|]|] eqn:T; [|now apply IH|congruence].
  assert (V : f_type f <> FIX_VOID). { intros E. unfold reloc_type in T. cbn zeta in T. rewrite E in T. discriminate. } destruct (F2 V) as [N1 N2].
  assert (FI : exists i j s', fixup_index m (f_ref f) index s = Ok (i, j, s')).
  { unfold fixup_index. destruct (f_ref f) as [|n|k|[k|]]; try congruence; [|do 3 eexists; reflexivity|do 3 eexists; reflexivity]. destruct (_ && _); do 3 eexists; reflexivity. }
  destruct FI as (i & j & s' & ->). cbn [bindr]. destruct (IH j s' F) as [[[bs k] s''] ->]. cbn [bindr]. eexists. reflexivity.
Qed.
Lemma lines_total : forall q start offset last s, (match q with LLine _ _ :: _ => last <> None | _ => True end) -> exists r, write_lines q start offset last s = Ok r.
Proof.
  assert (G : forall q start offset last s, last <> None -> exists r, write_lines q start offset last s = Ok r).
  { induction q as [|[n line|number ofs] q IH]; intros start offset last s H; cbn [write_lines]; [eexists; reflexivity| |].
    - cbn zeta. match goal with |- context [write_lines q start ?o ?l ?s'] => destruct (IH start o l s') as [[bs s''] ->]; [discriminate|] end. eexists. reflexivity.
    - destruct last as [n|]; [|congruence]. cbn zeta. match goal with |- context [write_lines q start ?o ?l ?s'] => destruct (IH start o l s') as [[bs s''] ->]; [discriminate|] end. eexists. reflexivity. }
  intros [|[n line|number ofs] q] start offset last s H; [eexists; reflexivity| |now apply G].
  cbn [write_lines]. cbn zeta. match goal with |- context [write_lines q start ?o ?l ?s'] => destruct (G q start o l s') as [[bs s''] ->]; [discriminate|] end. eexists. reflexivity.
Qed.
Lemma bytes_total x offset : ready x -> exists b, section_bytes x offset = Ok b.
Proof.
  intros [R1 R2 _ _ _]. unfold section_bytes. cbn zeta. destruct (s_buf x) as [b|]; [|eexists; reflexivity]. destruct R2 as [R2 _].
  match goal with |- context [if ?p then 1 else 0] => assert (Q : 0 <= (if p then 1 else 0) <= 1) by (destruct p; lia); set (pad := if p then 1 else 0) in * end.
  destruct (Z.ltb_spec (s_max x + pad - s_start_loc x) 0); [lia|]. rewrite Z.gtb_ltb. destruct (Z.ltb_spec (zlen b + 1) (s_max x + pad - s_start_loc x)); [lia|]. eexists. reflexivity.
Qed.
Lemma data_total m : forall xs offset index s, Forall ready xs -> exists r, write_data m xs offset index s = Ok r.
Proof.
  induction xs as [|x xs IH]; intros offset index s F; cbn [write_data]; [eexists; reflexivity|]. pose proof (Forall_inv F) as R. apply Forall_inv_tail in F.
  destruct (s_stack x && _); [now apply IH|]. destruct (s_type x =? SEGTYPE_BSS); [now apply IH|].
  assert (E1 : exists b i s1, (if s_max x =? 0 then Ok ([], index, s) else bindr (section_bytes x offset) (fun b => bindr (coff_write_fixups m x index s) (fun '(r, index, s) => Ok (b ++ r, index, s)))) = Ok (b, i, s1)).
  { destruct (s_max x =? 0); [do 3 eexists; reflexivity|]. destruct (bytes_total x offset R) as [b ->]. cbn [bindr]. unfold coff_write_fixups. destruct (fixups_total m (s_use64 x) (s_fix x) index s (r_fix _ R)) as [[[bs i] s1] ->]. cbn [bindr]. do 3 eexists. reflexivity. }
  destruct E1 as (b & i & s1 & ->). cbn [bindr].
  assert (E2 : exists ln s2, match s_lines x with Some q => if lines_on (m_opt m) then write_lines q (start_data m) (offset + zlen b) None s1 else Ok ([], s1) | None => Ok ([], s1) end = Ok (ln, s2)).
  { pose proof (r_lines _ R) as RL. destruct (s_lines x) as [q|]; [|do 2 eexists; reflexivity]. destruct (lines_on (m_opt m)); [|do 2 eexists; reflexivity].
    destruct (lines_total q (start_data m) (offset + zlen b) None s1) as [[ln s2] ->]; [destruct q as [|[|] q]; [exact Logic.I|exact Logic.I|destruct RL]|]. do 2 eexists. reflexivity. }
  destruct E2 as (ln & s2 & ->). cbn [bindr]. match goal with |- context [write_data m xs ?o ?j ?s'] => destruct (IH o j s' F) as [[r s3] ->] end. eexists. reflexivity.
Qed.
Lemma entries_total o : forall xs i l ias, Forall ready xs -> exists r, section_entries o xs i l ias = Ok r.
Proof.
  induction xs as [|x xs IH]; intros i l ias F; cbn [section_entries]; [eexists; reflexivity|]. pose proof (Forall_inv F) as R. apply Forall_inv_tail in F.
  destruct (alloc_name l (fst (section_name o x))) as [nm l1]. cbn zeta. destruct (_ || _).
  - assert (A : exists a, section_aux o x = Ok a).
    { unfold section_aux. assert (C : exists c, (if s_comdat x =? 0 then Ok 0 else CRC32Comdat (s_buf x) (s_max x) 0) = Ok c).
      { destruct (Z.eqb_spec (s_comdat x) 0) as [E|E]; [eexists; reflexivity|]. pose proof (r_comdat _ R E) as C0. pose proof (r_buf _ R) as RB. unfold CRC32Comdat. destruct (s_buf x) as [b|]; [|eexists; reflexivity].
        destruct RB as [Zb Bb]. exists (crc32 0 b). replace (Z.to_nat (s_max x)) with (length b) by (unfold zlen in Zb; lia). rewrite <- (app_nil_r b) at 1. apply crc_loop_spec; [assumption|lia]. }
      destruct C as [c ->]. cbn [bindr]. eexists. reflexivity. }
    destruct A as [a ->]. cbn [bindr]. destruct (IH (i + 1) l1 a F) as [[[rs l2] j] ->]. eexists. reflexivity.
  - destruct (IH (i + 1) l1 ias F) as [[[rs l2] j] ->]. eexists. reflexivity.
Qed.
Lemma update_Forall {A} (P : A -> Prop) f : forall l n, Forall P l -> (forall x, nth_error l n = Some x -> P (f x)) -> Forall P (update n f l).
Proof. induction l as [|x l IH]; intros [|n] F H; cbn [update]; try constructor; try (now inversion F); [now apply H|]. apply IH; [now inversion F|exact H]. Qed.
Lemma Forall2_nth_l {A B} (R : A -> B -> Prop) : forall l l' n y, Forall2 R l l' -> nth_error l' n = Some y -> exists x, nth_error l n = Some x /\ R x y.
Proof. induction l as [|x l IH]; intros l' n y F E; inversion F; subst; [destruct n; discriminate|]. destruct n; cbn [nth_error] in *; [injection E as <-; eauto|]. eapply IH; eassumption. Qed.
Theorem module_total m : module_ok m -> Forall supported (m_secs m) -> exists f, coff_write_module m = Ok f.
Proof.
  intros M SU. destruct (w_secs _ M) as (WS & NE & _). unfold coff_write_module, coff_write_data.
  destruct (ready_sections m (m_opt m) (m_secs m) (start_data m) {| l_size := 4; l_items := [] |} (m_ish m) WS SU) as (hs & l & xs & -> & RX). cbn [bindr].
  destruct (set_total m NE) as [[index s0] ->]. cbn [bindr].
  assert (FX : Forall ready xs). { clear -RX. induction RX as [|? ? ? ? [R _]]; constructor; assumption. }
  assert (E : exists ys, fill_sxdata m s0 xs = Ok ys /\ Forall ready ys).
  { unfold fill_sxdata. destruct (m_safeseh m) as [|n r] eqn:Q; [eexists; split; [reflexivity|assumption]|]. destruct (w_sx _ M) as (k & s & SX & Nk & Mx & SL & Fx & Cx & _); [congruence|]. rewrite SX.
    eexists. split; [reflexivity|]. apply update_Forall; [assumption|]. intros x Ex. destruct (Forall2_nth_l _ _ _ _ _ RX Ex) as (s' & Es & R & E1 & E2). rewrite Nk in Es. injection Es as <-.
    destruct R as [R1 R2 R3 R4 R5]. split; cbn [set_buf s_start_loc s_max s_buf s_fix s_use64 s_lines s_comdat]; try assumption. split; [|apply Forall_flat_map, Forall_forall; intros; apply le_bytes_byte].
    rewrite E1, E2, Mx, SL, Q. rewrite Z.sub_0_r. change (flat_map _ (n :: r)) with (handlers {| m_opt := m_opt m; m_use64 := m_use64 m; m_time := m_time m; m_dot_file := m_dot_file m; m_files := m_files m; m_secs := m_secs m; m_syms := m_syms m; m_ext := m_ext m; m_procs := m_procs m; m_pub := m_pub m; m_alias := m_alias m; m_safeseh := n :: r; m_sx := m_sx m; m_ias := m_ias m; m_ish := m_ish m |} s0). now rewrite handlers_zlen. }
  destruct E as (ys & -> & RY). cbn [bindr]. destruct (data_total m ys 0 index s0 RY) as [[data s1] ->]. cbn [bindr].
  assert (E : exists r, coff_write_symbols m ys s1 l = Ok r).
  { unfold coff_write_symbols. cbn zeta. match goal with |- context [section_entries ?o ys ?i ?l ?a] => destruct (entries_total o ys i l a RY) as [[[secs l1] ias] ->] end. cbn [bindr].
    destruct (ext_entries m s1 (m_ext m) l1 ias) as [[exts l2] ias2]. match goal with |- context [pub_entries m s1 ?a ?b ?c ?d ?e] => destruct (pub_entries m s1 a b c d e) as [[[pubs cnt1] l3] ias3] end.
    destruct (alias_entries m s1 (m_alias m) l3) as [als l4]. eexists. reflexivity. }
  destruct E as ([[recs cnt] l'] & ->). cbn [bindr]. eexists. reflexivity.
Qed.
