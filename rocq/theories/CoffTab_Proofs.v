(** C17: the section table and what it refers to. *)
From Verif Require Import Base Record_Proofs Crc_Model Crc_Spec Coff_Model Coff_Spec CoffStr_Proofs CoffSym_Proofs CoffEnt_Proofs CoffPub_Proofs CoffIdx_Proofs CoffRel_Proofs CoffLine_Proofs CoffHead_Proofs CoffSec_Proofs.
From Verif Require Bin_Proofs.
From Coq Require Import Lia.

Definition prel (P : Z) (s : section) : Z := match s_fix s with [] => 0 | _ => P + raw s + padn P s end.
Definition plin (m : module) (P : Z) (s : section) : Z := match s_lines s with Some _ => if debug4 (m_opt m) then 0 else P + raw s + padn P s + 10 * nrels s | None => 0 end.
Definition praw (P : Z) (s : section) : Z := if uninit s || (s_max s =? 0) then 0 else P.
Record fields (m : module) (P : Z) (s : section) (h nm : list Z) : Prop := {
  h_len : length h = 40%nat; h_name : firstn 8 h = nm; h_size : field 16 4 h = raw_size s; h_raw : field 20 4 h = praw P s;
  h_prel : field 24 4 h = prel P s; h_plin : field 28 4 h = plin m P s; h_nrel : field 32 2 h = Z.min 0xffff (num_relocs s);
  h_nlin : field 34 2 h = zlen (asked_lines m s); h_char : field 36 4 h = flags s }.

Lemma header_fields name size ptr prel plin n nlin c : length name = 8%nat ->
  let h := name ++ le_bytes 4 0 ++ le_bytes 4 0 ++ le_bytes 4 size ++ le_bytes 4 ptr ++ le_bytes 4 prel ++ le_bytes 4 plin ++ le_bytes 2 n ++ le_bytes 2 nlin ++ le_bytes 4 c in
  length h = 40%nat /\ firstn 8 h = name /\ field 16 4 h = size mod 2 ^ 32 /\ field 20 4 h = ptr mod 2 ^ 32 /\ field 24 4 h = prel mod 2 ^ 32 /\ field 28 4 h = plin mod 2 ^ 32 /\
  field 32 2 h = n mod 2 ^ 16 /\ field 34 2 h = nlin mod 2 ^ 16 /\ field 36 4 h = c mod 2 ^ 32.
Proof.
  intros L h.
  split. { subst h. now rewrite !app_length, !le_bytes_length, L. }
  split. { subst h. rewrite firstn_app, L, Nat.sub_diag, <- L, firstn_all. apply app_nil_r. }
  assert (F : forall a n v b, h = a ++ le_bytes n v ++ b -> field (length a) n h = v mod 2 ^ (8 * Z.of_nat n)). { intros a n0 v b ->. now apply field_le. }
  subst h. repeat split.
  - specialize (F (name ++ le_bytes 4 0 ++ le_bytes 4 0) 4%nat size). rewrite !app_length, !le_bytes_length, L in F. eapply F. rewrite <- !app_assoc. reflexivity.
  - specialize (F (name ++ le_bytes 4 0 ++ le_bytes 4 0 ++ le_bytes 4 size) 4%nat ptr). rewrite !app_length, !le_bytes_length, L in F. eapply F. rewrite <- !app_assoc. reflexivity.
  - specialize (F (name ++ le_bytes 4 0 ++ le_bytes 4 0 ++ le_bytes 4 size ++ le_bytes 4 ptr) 4%nat prel). rewrite !app_length, !le_bytes_length, L in F. eapply F. rewrite <- !app_assoc. reflexivity.
  - specialize (F (name ++ le_bytes 4 0 ++ le_bytes 4 0 ++ le_bytes 4 size ++ le_bytes 4 ptr ++ le_bytes 4 prel) 4%nat plin). rewrite !app_length, !le_bytes_length, L in F. eapply F. rewrite <- !app_assoc. reflexivity.
  - specialize (F (name ++ le_bytes 4 0 ++ le_bytes 4 0 ++ le_bytes 4 size ++ le_bytes 4 ptr ++ le_bytes 4 prel ++ le_bytes 4 plin) 2%nat n). rewrite !app_length, !le_bytes_length, L in F. eapply F. rewrite <- !app_assoc. reflexivity.
  - specialize (F (name ++ le_bytes 4 0 ++ le_bytes 4 0 ++ le_bytes 4 size ++ le_bytes 4 ptr ++ le_bytes 4 prel ++ le_bytes 4 plin ++ le_bytes 2 n) 2%nat nlin). rewrite !app_length, !le_bytes_length, L in F. eapply F. rewrite <- !app_assoc. reflexivity.
  - specialize (F (name ++ le_bytes 4 0 ++ le_bytes 4 0 ++ le_bytes 4 size ++ le_bytes 4 ptr ++ le_bytes 4 prel ++ le_bytes 4 plin ++ le_bytes 2 n ++ le_bytes 2 nlin) 4%nat c). rewrite !app_length, !le_bytes_length, L in F.
    eapply (F []). rewrite app_nil_r, <- !app_assoc. reflexivity.
Qed.
Lemma even_up a : 0 <= a -> a + 1 < 2 ^ 32 -> Z.land (wrap 32 (a + 1)) (wrap 32 (Z.lnot 1)) = a + a mod 2.
Proof.
  intros A B. change (wrap 32 (Z.lnot 1)) with (2 ^ 32 - 2 ^ 1). rewrite wrap_small by lia. rewrite Bin_Proofs.land_high by lia.
  change (2 ^ 1) with 2. rewrite (Z.div_mod a 2) at 1 by lia. pose proof (Z.mod_pos_bound a 2 eq_refl). pose proof (Z.div_mod a 2 ltac:(lia)).
  assert (Q : a mod 2 = 0 \/ a mod 2 = 1) by lia. destruct Q as [Q|Q]; rewrite Q in *.
  - replace (2 * (a / 2) + 0 + 1) with (1 + a / 2 * 2) by lia. rewrite Z.div_add by lia. change (1 / 2) with 0. lia.
  - replace (2 * (a / 2) + 1 + 1) with (0 + (a / 2 + 1) * 2) by lia. rewrite Z.div_add by lia. change (0 / 2) with 0. lia.
Qed.
Lemma raw_nonneg m s : section_wf m s -> 0 <= raw s <= s_max s.
Proof. intros W. destruct (w_size _ _ W). unfold raw. destruct (_ || _); lia. Qed.
Lemma padn_range P s : 0 <= padn P s <= 1.
Proof. unfold padn. destruct (s_fix s); [lia|]. pose proof (Z.mod_pos_bound (P + raw s) 2 eq_refl). lia. Qed.

Lemma header_shape o s P l old h nm l' fo x : section_header o s P l old = Ok (h, nm, l', fo, x) ->
  header_name l (fst (section_name o s)) old = (nm, l') /\
  exists c size ptr t buf, characteristics s (snd (section_name o s)) P = (c, size, ptr, t) /\ absolute_fixups (s_start_loc s) (s_fix s) (s_buf s) = Ok buf /\ x = with_data s t buf.
Proof.
  unfold section_header. destruct (section_name o s) as [sn st]. cbn [fst snd]. destruct (header_name l sn old) as [nm0 l0]. destruct (characteristics s st P) as [[[c size] ptr] t].
  destruct (absolute_fixups _ _ _) as [buf| |]; cbn [bindr]; try discriminate.
  destruct (match s_fix s with [] => _ | _ => _ end) as [[[a b] c0] d]. destruct (match s_lines s with Some q => _ | None => _ end) as [[e f] g].
  intros E. apply Ok_inj in E. repeat (apply pair_equal_spec in E as [E ?]). subst. split; [reflexivity|]. now exists c, size, ptr, t, buf.
Qed.
Ltac peq := repeat (apply pair_equal_spec; split); try reflexivity; try lia.
Lemma header_step m s P l old h nm l' fo x : section_wf m s -> section_header (m_opt m) s P l old = Ok (h, nm, l', fo, x) -> length nm = 8%nat ->
  0 < P -> P + sz m P s + 1 < 2 ^ 32 -> fields m P s h nm /\ fo = P + sz m P s.
Proof.
  intros W E L P0 B.
  unfold section_header in E. destruct (section_name (m_opt m) s) as [sn st] eqn:En. destruct (header_name l sn old) as [nm0 l0] eqn:Eh. destruct (characteristics s st P) as [[[c size] ptr] t] eqn:Ec.
  destruct (absolute_fixups _ _ _) as [buf| |]; cbn [bindr] in E; try discriminate.
  assert (Ec' : characteristics s (snd (section_name (m_opt m) s)) P = (c, size, ptr, t)) by (rewrite En; exact Ec).
  destruct (characteristics_spec _ _ _ _ _ _ _ _ W Ec') as (-> & Ep & _). destruct (flags_spec _ _ _ _ _ _ _ _ W Ec') as (Ef & Rf & _).
  pose proof (raw_nonneg _ _ W) as R1. pose proof (padn_range P s) as R2. pose proof (nrels_nonneg s) as R3. pose proof (zlen_nonneg (asked_lines m s)) as R4. destruct (w_size _ _ W) as [S1 S2].
  unfold sz in B.
  assert (E1 : (if ptr =? 0 then P else wrap 32 (P + raw_size s)) = P + raw s).
  { rewrite Ep. unfold raw, raw_size in *. destruct (uninit s) eqn:U; cbn [orb andb] in *; [change (0 =? 0) with true; cbv iota; lia|]. destruct (s_max s =? 0); cbn [orb] in *; [change (0 =? 0) with true; cbv iota; lia|]. destruct (Z.eqb_spec P 0); [lia|]. apply wrap_small. lia. }
  cbn zeta in E. rewrite E1 in E.
  assert (E2 : match s_fix s with
     | [] => (0, 0, manual s c, P + raw s)
     | _ => if num_relocs s <=? 0xffff then (Z.land (wrap 32 (P + raw s + 1)) (wrap 32 (Z.lnot 1)), num_relocs s, manual s c, wrap 32 (Z.land (wrap 32 (P + raw s + 1)) (wrap 32 (Z.lnot 1)) + num_relocs s * 10))
            else (Z.land (wrap 32 (P + raw s + 1)) (wrap 32 (Z.lnot 1)), 0xffff, Z.lor (manual s c) 0x01000000, wrap 32 (Z.land (wrap 32 (P + raw s + 1)) (wrap 32 (Z.lnot 1)) + num_relocs s * 10 + 10))
     end = (prel P s, Z.min 0xffff (num_relocs s), flags s, P + raw s + padn P s + 10 * nrels s)).
  { unfold prel. destruct (s_fix s) as [|f0 fs] eqn:F.
    - unfold padn. rewrite F. rewrite (num_relocs_nil s F), (nrels_nil s F) in *. change (0 <=? 65535) with true in Ef. cbv iota in Ef. rewrite Ef. peq.
    - assert (Pd : padn P s = (P + raw s) mod 2) by (unfold padn; now rewrite F). rewrite even_up by lia. rewrite <- Pd. rewrite <- Ef. unfold nrels in *. rewrite Z.gtb_ltb in *.
      pose proof (num_relocs_nonneg s). destruct (Z.leb_spec (num_relocs s) 65535) as [Q|Q]; destruct (Z.ltb_spec 65535 (num_relocs s)) as [Q'|Q']; try lia.
      + rewrite Z.min_r by lia. rewrite wrap_small by lia. peq.
      + rewrite Z.min_l by lia. rewrite wrap_small by lia. peq. }
  rewrite E2 in E. clear E2.
  assert (E3 : match s_lines s with
    | Some q => if debug4 (m_opt m) then (0, 0, P + raw s + padn P s + 10 * nrels s)
                else (P + raw s + padn P s + 10 * nrels s, wrap 16 (zlen q), wrap 32 (P + raw s + padn P s + 10 * nrels s + wrap 16 (zlen q) * 6))
    | None => (0, 0, P + raw s + padn P s + 10 * nrels s)
    end = (plin m P s, zlen (asked_lines m s), P + sz m P s)).
  { pose proof (w_lines _ _ W) as WL. unfold plin, sz. unfold asked_lines, lines_on in *. destruct (s_lines s) as [q|].
    - destruct WL as (Q1 & Q2 & _). rewrite Q1 in *. cbn [andb] in *. destruct (debug4 (m_opt m)); cbn [negb] in *; change (zlen (@nil lineitem)) with 0.
      + peq.
      + pose proof (zlen_nonneg q). rewrite (wrap_small 16) by lia. rewrite wrap_small by lia. peq.
    - assert (Q : zlen (if line_numbers (m_opt m) && negb (debug4 (m_opt m)) then [] else ([] : list lineitem)) = 0) by (destruct (_ && _); reflexivity). rewrite Q. peq. }
  rewrite E3 in E. clear E3. apply Ok_inj in E. repeat (apply pair_equal_spec in E as [E ?]). subst nm0 fo.
  destruct (header_fields nm (raw_size s) ptr (prel P s) (plin m P s) (Z.min 0xffff (num_relocs s)) (zlen (asked_lines m s)) (flags s) L) as (G1 & G2 & G3 & G4 & G5 & G6 & G7 & G8 & G9).
  cbv zeta in *. rewrite E in *. split; [|reflexivity].
  assert (Rr : 0 <= raw_size s < 2 ^ 32) by (unfold raw_size; destruct (_ && _); lia).
  assert (Rp : 0 <= prel P s < 2 ^ 32) by (unfold prel; destruct (s_fix s); lia).
  assert (Rl : 0 <= plin m P s < 2 ^ 32) by (unfold plin; destruct (s_lines s); [destruct (debug4 _)|]; lia).
  destruct (asked_lines_ok _ _ W) as [_ Rn]. pose proof (num_relocs_nonneg s).
  split; try assumption.
  - rewrite G3. now apply Z.mod_small.
  - rewrite G4, Ep. unfold praw. destruct (_ || _); [reflexivity|]. apply Z.mod_small. lia.
  - rewrite G5. now apply Z.mod_small.
  - rewrite G6. now apply Z.mod_small.
  - rewrite G7. apply Z.mod_small. lia.
  - rewrite G8. apply Z.mod_small. lia.
  - rewrite G9. apply Z.mod_small. lia.
Qed.

(** * reading one section *)
Lemma slice_exact a b c i n : i = zlen a -> n = zlen b -> slice i n (a ++ b ++ c) = Some b. Proof. apply slice_app. Qed.
Lemma rd_table_at a recs c pos size : pos = zlen a -> Forall (fun r => zlen r = size) recs -> 0 <= size -> rd_table (a ++ concat recs ++ c) pos (zlen recs) size = Some recs.
Proof.
  intros E F S0. unfold rd_table. destruct (Z.eqb_spec (zlen recs) 0) as [Q|Q].
  { destruct recs; [reflexivity|]. rewrite zlen_cons in Q. pose proof (zlen_nonneg recs). lia. }
  rewrite slice_app; [|assumption|]. 2: { rewrite (concat_len size) by assumption. lia. }
  pose proof (records_app recs size [] F S0) as R. rewrite app_nil_r in R. replace (Z.to_nat (zlen recs)) with (length recs) by (unfold zlen; lia). now rewrite R.
Qed.
Lemma rd_reloc_fixup a i t : rd_reloc (coff_write_fixup a i t) = (a mod 2 ^ 32, i mod 2 ^ 32, t mod 2 ^ 16).
Proof.
  unfold rd_reloc, coff_write_fixup. repeat (apply pair_equal_spec; split).
  - exact (field_le [] 4 a (le_bytes 4 i ++ le_bytes 2 t) 0 eq_refl).
  - apply (field_le (le_bytes 4 a) 4 i (le_bytes 2 t) 4). apply le_bytes_length.
  - pose proof (field_le (le_bytes 4 a ++ le_bytes 4 i) 2 t [] 8) as H. rewrite app_nil_r, <- app_assoc in H. apply H. now rewrite app_length, !le_bytes_length.
Qed.
Record view (m : module) (c : nat -> Z) (H : list Z) (k : nat) (P : Z) (s : section) (v : secview) (recs : list (list Z)) : Prop := {
  vw_name : v_name v = fst (section_name (m_opt m) s); vw_char : v_char v = flags s; vw_size : v_size v = raw_size s; vw_raw : v_raw v = praw P s;
  vw_data : v_data v = if uninit s || (s_max s =? 0) then None else Some (dat m H k s); vw_prel : v_prel v = prel P s; vw_relocs : v_relocs v = map rd_reloc recs;
  vw_plin : v_plin v = plin m P s; vw_lines : v_lines v = elines c 0 (asked_lines m s); vw_nrel : v_nrel v = nrels s }.
Lemma read_step m s c H k P h nm A d pad recs lin B strs : section_wf m s -> fields m P s h nm -> rd_section_name strs nm = Some (fst (section_name (m_opt m) s)) ->
  0 < P -> zlen A = P -> zlen d = raw s -> (raw s <> 0 -> d = dat m H k s) -> zlen pad = padn P s -> zlen recs = num_relocs s -> Forall (fun r => length r = 10%nat) recs -> lrecs c 0 (asked_lines m s) lin ->
  exists v, rd_section (A ++ (d ++ pad ++ (over s ++ concat recs) ++ lin) ++ B) strs h = Some v /\ view m c H k P s v recs.
Proof.
  intros W Fd Hn P0 LA Ld Hd Lp Lr Fr LL. set (f := A ++ _ ++ B). unfold rd_section. rewrite (h_name _ _ _ _ _ Fd), Hn. cbn zeta.
  rewrite (h_size _ _ _ _ _ Fd), (h_raw _ _ _ _ _ Fd), (h_prel _ _ _ _ _ Fd), (h_plin _ _ _ _ _ Fd), (h_nrel _ _ _ _ _ Fd), (h_nlin _ _ _ _ _ Fd), (h_char _ _ _ _ _ Fd).
  assert (E1 : (if praw P s =? 0 then Some None else 'b <- slice (praw P s) (raw_size s) f ;; Some (Some b)) = Some (if uninit s || (s_max s =? 0) then None else Some (dat m H k s))).
  { unfold praw. destruct (uninit s || (s_max s =? 0)) eqn:U; [reflexivity|]. destruct (Z.eqb_spec P 0); [lia|].
    assert (R : raw s = s_max s /\ raw_size s = s_max s /\ s_max s <> 0). { unfold raw, raw_size. apply orb_false_iff in U as [U1 U2]. rewrite U1, U2. apply Z.eqb_neq in U2. now cbn. }
    destruct R as (R1 & R2 & R3). unfold f. rewrite <- !app_assoc. rewrite slice_app by lia. now rewrite Hd by lia. }
  rewrite E1. clear E1.
  assert (Fl : Z.testbit (flags s) 24 = (num_relocs s >? 65535)).
  { destruct (characteristics s (snd (section_name (m_opt m) s)) P) as [[[c0 size] ptr] t] eqn:Ec. now destruct (flags_spec _ _ _ _ _ _ _ _ W Ec) as (_ & _ & Q). }
  rewrite Fl. pose proof (num_relocs_nonneg s) as N0. destruct (w_fix _ _ W) as [_ N1].
  assert (Eo : (num_relocs s >? 65535) && (Z.min 65535 (num_relocs s) =? 65535) = (num_relocs s >? 65535)).
  { rewrite Z.gtb_ltb. destruct (Z.ltb_spec 65535 (num_relocs s)); [|reflexivity]. rewrite Z.min_l by lia. reflexivity. }
  rewrite Eo. set (tab := (if num_relocs s >? 65535 then [coff_write_fixup (num_relocs s + 1) 0 0] else []) ++ recs).
  assert (T1 : concat tab = over s ++ concat recs). { unfold tab, over. destruct (_ >? _); [|reflexivity]. reflexivity. }
  assert (T2 : zlen tab = nrels s). { unfold tab, nrels. rewrite zlen_app, Lr. destruct (_ >? _); [|change (zlen (@nil (list Z))) with 0; lia]. change (zlen [coff_write_fixup (num_relocs s + 1) 0 0]) with 1. lia. }
  assert (T3 : Forall (fun r => zlen r = 10) tab).
  { unfold tab. apply Forall_app. split; [destruct (_ >? _); repeat constructor; unfold zlen; now rewrite fixup_length|]. eapply Forall_impl; [|exact Fr]. intros r Q. cbv beta in Q. unfold zlen. now rewrite Q. }
  assert (T4 : (if num_relocs s >? 65535 then number (prel P s) 4 f else Some (Z.min 65535 (num_relocs s))) = Some (nrels s)).
  { unfold nrels. destruct (Z.gtb_spec (num_relocs s) 65535) as [Q|Q]; [|f_equal; lia]. unfold prel. destruct (s_fix s) eqn:Ef; [rewrite (num_relocs_nil s Ef) in Q; lia|].
    unfold number, f, over. destruct (Z.gtb_spec (num_relocs s) 65535) as [_|Q']; [|lia]. unfold coff_write_fixup.
    replace (A ++ (d ++ pad ++ ((le_bytes 4 (num_relocs s + 1) ++ le_bytes 4 0 ++ le_bytes 2 0) ++ concat recs) ++ lin) ++ B)
      with ((A ++ d ++ pad) ++ le_bytes 4 (num_relocs s + 1) ++ (le_bytes 4 0 ++ le_bytes 2 0) ++ concat recs ++ lin ++ B) by (rewrite <- !app_assoc; reflexivity).
    rewrite slice_app; [|rewrite !zlen_app; lia|unfold zlen; rewrite le_bytes_length; reflexivity]. rewrite le_val_le_bytes. f_equal. apply Z.mod_small. lia. }
  rewrite T4.
  assert (T5 : rd_table f (prel P s) (nrels s) 10 = Some tab).
  { destruct (s_fix s) eqn:Ef.
    - rewrite (nrels_nil s Ef). unfold rd_table. change (0 =? 0) with true. cbv iota. f_equal. rewrite (nrels_nil s Ef) in T2. destruct tab; [reflexivity|]. rewrite zlen_cons in T2. pose proof (zlen_nonneg tab). lia.
    - rewrite <- T2. unfold f. rewrite <- T1. replace (A ++ (d ++ pad ++ concat tab ++ lin) ++ B) with ((A ++ d ++ pad) ++ concat tab ++ lin ++ B) by (rewrite <- !app_assoc; reflexivity).
      apply rd_table_at; [|assumption|lia]. unfold prel. rewrite Ef, !zlen_app. lia. }
  rewrite T5. pose proof (lrecs_length _ _ _ _ LL) as L6. destruct LL as (lr & -> & Fl6 & El).
  assert (T6 : rd_table f (plin m P s) (zlen (asked_lines m s)) 6 = Some lr).
  { assert (Q : zlen lr = zlen (asked_lines m s)). { rewrite (concat_len 6) in L6 by assumption. lia. }
    destruct (Z.eqb_spec (zlen (asked_lines m s)) 0) as [Z0|NZ].
    - rewrite Z0. unfold rd_table. change (0 =? 0) with true. cbv iota. f_equal. destruct lr; [reflexivity|]. rewrite zlen_cons in Q. pose proof (zlen_nonneg lr). lia.
    - rewrite <- Q. unfold f. replace (A ++ (d ++ pad ++ (over s ++ concat recs) ++ concat lr) ++ B) with ((A ++ d ++ pad ++ (over s ++ concat recs)) ++ concat lr ++ B) by (rewrite <- !app_assoc; reflexivity).
      apply rd_table_at; [|assumption|lia]. unfold plin. unfold asked_lines, lines_on in NZ. destruct (s_lines s) as [q|].
      + destruct (debug4 (m_opt m)); [rewrite andb_false_r in NZ; now cbn in NZ|]. rewrite <- T1. rewrite !zlen_app, (concat_len 10) by assumption. lia.
      + destruct (_ && _) in NZ; now cbn in NZ. }
  rewrite T6. eexists. split; [reflexivity|]. split; cbn [v_name v_char v_size v_raw v_data v_prel v_relocs v_plin v_lines v_nrel]; try reflexivity.
  - unfold tab. destruct (_ >? _); reflexivity.
  - exact El.
Qed.

(** * all sections *)
Fixpoint sxs (m : module) (H : list Z) (k : nat) (xs : list section) : list section := match xs with [] => [] | x :: xs => sx m H k x :: sxs m H (S k) xs end.
Inductive views (m : module) (s : st) (H : list Z) : nat -> Z -> list section -> list secview -> Z -> Prop :=
| vs_nil k P : views m s H k P [] [] P
| vs_cons k P x xs v vs recs Q : section_wf m x -> view m (c_idx s) H k P x v recs -> Forall2 (reloc_rec m s (s_use64 x)) (needs x) recs ->
    views m s H (S k) (P + sz m P x) xs vs Q -> views m s H k P (x :: xs) (v :: vs) Q.
Lemma elines_cong m c c' q : Forall (line_ok m) q -> (forall n, In n (queue m) -> c n = c' n) -> forall start, elines c start q = elines c' start q.
Proof. intros F E. induction F as [|[n l|n o] q Hq F IH]; intros start; [reflexivity| |]; cbn [elines]; rewrite IH; [|reflexivity]. now rewrite (E n Hq). Qed.
Lemma same_sx m H k s t buf : sx_ok m H k s -> absolute_fixups (s_start_loc s) (s_fix s) (s_buf s) = Ok buf -> same s (sx m H k (with_data s t buf)).
Proof.
  intros SX A. assert (N : num_relocs (sx m H k (with_data s t buf)) = num_relocs s) by (unfold sx; destruct (is_sx m k); rewrite ?num_relocs_set; apply num_relocs_with).
  unfold sx in *. destruct (is_sx m k) eqn:K; split; try reflexivity; try assumption.
  - intros C. now destruct (SX K) as (_ & _ & _ & Q & _).
  - intros _. exact A.
Qed.
Lemma NoDup_app_l {A} (a b : list A) : NoDup (a ++ b) -> NoDup a.
Proof. induction a as [|x a IH]; cbn [app]; intros H; [constructor|]. inversion H; subst. constructor; [|auto]. intros Q. apply H2, in_or_app. now left. Qed.
Definition long (o : options) (s : section) : Z := if zlen (fst (section_name o s)) <=? 8 then 0 else zlen (fst (section_name o s)) + 1.
Lemma secs_spec m nf H (M : module_ok m) : forall ss k l old P off index s0 added G D hs l' xs0 bs s',
  Forall (section_wf m) ss -> (forall j s, nth_error ss j = Some s -> sx_ok m H (k + j) s) ->
  section_headers (m_opt m) ss P l old = Ok (hs, l', xs0) -> write_data m (sxs m H k xs0) off index s0 = Ok (bs, s') ->
  P = start_data m + off -> 0 < P -> P + zlen bs + 1 < 2 ^ 32 -> zlen D = off -> ln_ok l -> length old = 8%nat ->
  4 + zlen (packed l) + fold_right (fun s n => long (m_opt m) s + n) 0 ss < 10 ^ 7 ->
  inv m index s0 added -> dinv m nf G s0 D -> Forall (fun g => In (gname (fst g)) (queue m)) G -> NoDup (pnames G ++ map gname (flat_map (fun s => groups (asked_lines m s)) ss)) ->
  ln_ok l' /\ ext l l' /\ Forall2 same ss (sxs m H k xs0) /\ keeps m s0 s' /\ c_start_files s' = c_start_files s0 /\
  (exists index', inv m index' s' (added ++ new_refs m (map f_ref (flat_map needs ss)) (statics m ++ added))) /\
  (exists G', map fst G' = flat_map (fun s => groups (asked_lines m s)) ss /\ dinv m nf (G ++ G') s' (D ++ bs)) /\
  exists hl, hs = concat hl /\ Forall (fun h => zlen h = 40) hl /\ length hl = length ss /\
  forall A B L, zlen A = P -> ext l' L -> final L -> exists vs, rd_all (A ++ bs ++ B) (string_table L) hl = Some vs /\ views m s' H k P ss vs (P + zlen bs).
Proof.
  induction ss as [|s ss IH]; intros k l old P off index s0 added G D hs l' xs0 bs s' W SX EH ED EP P0 PB LD LN LO NB V DV GQ ND.
  { cbn [section_headers] in EH. apply Ok_inj in EH. repeat (apply pair_equal_spec in EH as [EH ?]). subst. cbn [sxs write_data] in ED. apply Ok_inj in ED. apply pair_equal_spec in ED as [<- <-].
    split; [assumption|]. split; [apply ext_refl|]. split; [constructor|]. split; [apply keeps_refl|]. split; [reflexivity|]. split.
    { exists index. cbn [flat_map map new_refs]. now rewrite app_nil_r. }
    split. { exists []. rewrite !app_nil_r. now split. }
    exists []. split; [reflexivity|]. split; [constructor|]. split; [reflexivity|]. intros A B L _ _ _. exists []. split; [reflexivity|]. change (zlen (@nil Z)) with 0. rewrite Z.add_0_r. constructor. }
  cbn [section_headers] in EH. destruct (section_header (m_opt m) s P l old) as [[[[[h nm] l1] fo] x]| |] eqn:E1; cbn [bindr] in EH; try discriminate.
  destruct (section_headers (m_opt m) ss fo l1 nm) as [[[hs1 l2] xs1]| |] eqn:E2; cbn [bindr] in EH; try discriminate.
  apply Ok_inj in EH. apply pair_equal_spec in EH as [EH <-]. apply pair_equal_spec in EH as [<- <-].
  pose proof (Forall_inv W) as Ws. pose proof (Forall_inv_tail W) as Wt.
  destruct (header_shape _ _ _ _ _ _ _ _ _ _ E1) as (En & c & size & ptr & t & buf & Ec & Ea & Ex).
  destruct (characteristics_spec _ _ _ _ _ _ _ _ Ws Ec) as (_ & _ & Sk). fold (skips s t) in Sk.
  cbn [fold_right] in NB. unfold long at 1 in NB.
  assert (NN : 0 <= fold_right (fun s n => long (m_opt m) s + n) 0 ss).
  { clear. induction ss as [|a r IH]; cbn [fold_right]; [lia|]. unfold long at 1. pose proof (zlen_nonneg (fst (section_name (m_opt m) a))). destruct (_ <=? _); lia. }
  destruct (w_name _ _ Ws) as [Nok N47].
  destruct (header_name_read l _ old nm l1 LN Nok N47 LO) as (LN1 & X1 & Ln & Pk & Rd); [|exact En|].
  { pose proof (zlen_nonneg (fst (section_name (m_opt m) s))). destruct (zlen (fst (section_name (m_opt m) s)) <=? 8); lia. }
  cbn [sxs] in ED. subst x.
  assert (SX0 : sx_ok m H k s). { pose proof (SX 0%nat s eq_refl) as Q. now rewrite Nat.add_0_r in Q. }
  cbn [flat_map] in ND. rewrite map_app, app_assoc in ND.
  assert (ND1 : NoDup (pnames G ++ map gname (groups (asked_lines m s)))) by exact (NoDup_app_l _ _ ND).
  destruct (data_step m nf H k s t buf (sxs m H (S k) xs1) off index s0 added G D bs s' M Ws Ea Sk SX0 V DV LD GQ ND1 ED)
    as (d & pad & recs & lin & bs1 & index1 & s1 & G1 & Eb & Ld & Hd & Lp & Lr & Hr & LL & V1 & K1 & F1 & EG1 & DV1 & ED1).
  cbv zeta in *. set (all := d ++ pad ++ (over s ++ concat recs) ++ lin) in *.
  assert (La : zlen all = sz m P s). { unfold all, sz. rewrite zlen_app, zlen_app, zlen_app, Lr, Ld, Lp, (lrecs_length _ _ _ _ LL), EP. lia. }
  assert (PB1 : P + sz m P s + zlen bs1 + 1 < 2 ^ 32) by (rewrite Eb, zlen_app in PB; lia). pose proof (zlen_nonneg bs1) as Q1. pose proof (zlen_nonneg all) as Q2.
  destruct (header_step m s P l old h nm l1 fo _ Ws E1 Ln P0 ltac:(lia)) as [Fd Efo]. subst fo.
  assert (GQ1 : Forall (fun g => In (gname (fst g)) (queue m)) (G ++ G1)).
  { apply Forall_app. split; [assumption|]. pose proof (groups_names m _ (proj1 (asked_lines_ok m s Ws))) as Q. rewrite <- EG1 in Q. rewrite Forall_map in Q. exact Q. }
  destruct (IH (S k) l1 nm (P + sz m P s) (off + zlen all) index1 s1 (added ++ new_refs m (map f_ref (needs s)) (statics m ++ added)) (G ++ G1) (D ++ all) hs1 l2 xs1 bs1 s') as (LN2 & X2 & Sm & K2 & F2 & (index2 & V2) & (G2 & EG2 & DV2) & hl & Eh & Fh & Lh & RR); try assumption.
  - intros j y Hy. replace (S k + j)%nat with (k + S j)%nat by lia. now apply SX.
  - lia.
  - lia.
  - rewrite zlen_app. lia.
  - lia.
  - unfold pnames in *. rewrite map_app. rewrite <- EG1, map_map in ND. exact ND.
  - split; [assumption|]. split; [eapply ext_trans; eassumption|]. split; [constructor; [now apply same_sx|assumption]|]. split; [eapply keeps_trans; eassumption|]. split; [congruence|]. split.
    { exists index2. cbn [flat_map]. rewrite map_app, new_refs_app, <- (app_assoc (statics m) added), (app_assoc added). exact V2. }
    split. { exists (G1 ++ G2). split; [cbn [flat_map]; now rewrite map_app, EG1, EG2|]. rewrite Eb, (app_assoc G), (app_assoc D). exact DV2. }
    exists (h :: hl). split; [cbn [concat]; now rewrite Eh|]. split; [constructor; [unfold zlen; now rewrite (h_len _ _ _ _ _ Fd)|assumption]|]. split; [cbn [length]; now rewrite Lh|].
    intros A B L LA XL FL. destruct (recs_length _ _ _ _ _ Hr) as [R1 R2].
    destruct (RR (A ++ all) B L) as (vs & Rv & Vv); [rewrite zlen_app; lia|assumption|assumption|].
    assert (EL : lrecs (c_idx s') 0 (asked_lines m s) lin).
    { destruct LL as (lr & L1 & L2 & L3). exists lr. split; [assumption|]. split; [assumption|]. rewrite L3. apply (elines_cong m); [apply (proj1 (asked_lines_ok m s Ws))|].
      intros n Hn. symmetry. apply K2. eapply in_queue_settled; eassumption. }
    destruct (read_step m s (c_idx s') H k P h nm A d pad recs lin (bs1 ++ B) (string_table L) Ws Fd) as (v & Rs & Vs); try assumption.
    + apply Rd; [eapply ext_trans; eassumption|assumption].
    + rewrite EP. exact Lp.
    + fold all in Rs. exists (v :: vs). split.
      * cbn [rd_all]. rewrite Eb. rewrite <- app_assoc. rewrite Rs. rewrite <- app_assoc in Rv. now rewrite Rv.
      * replace (P + zlen bs) with (P + sz m P s + zlen bs1) by (rewrite Eb, zlen_app; lia). econstructor; [exact Ws|exact Vs| |exact Vv].
        eapply Forall2_impl'; [|exact Hr]. intros f r Q. eapply reloc_rec_keeps; eassumption.
Qed.
