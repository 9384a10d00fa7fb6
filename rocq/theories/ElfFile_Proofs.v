(** ELF: the contents of the file. *)
From Verif Require Import Base Elf_Model Elf_Spec Elf_Proofs ElfLay_Proofs.
From Coq Require Import Lia Arith.
Local Opaque le_bytes.

Lemma put_step f fo d : zlen f <= fo ->
  padto (put f fo d) (up (fo + zlen d)) = padto f fo ++ d ++ zeros (up (fo + zlen d) - (fo + zlen d)) /\
  zlen f <= zlen (put f fo d) <= fo + zlen d /\ (d <> [] -> fo + zlen d <= zlen (put f fo d)).
Proof.
  intros H. pose proof (up_spec (fo + zlen d)) as [U _]. destruct d as [|x d].
  - cbn [put app]. change (zlen (@nil Z)) with 0 in *. rewrite Z.add_0_r in *. rewrite (padto_more f fo (up fo)) by lia. repeat split; try lia. congruence.
  - rewrite put_end by (try assumption; discriminate). rewrite padto_app by lia. rewrite zlen_app, padto_zlen by lia. repeat split; try lia. rewrite zlen_cons. pose proof (zlen_nonneg d). lia.
Qed.
Definition block (s : section) : list Z := if nobits s then [] else image s.
Lemma put_gap f fo st d q : zlen f <= fo -> 0 <= st -> fo + st + zlen d <= q -> d <> [] ->
  padto (put f (fo + st) d) q = padto f fo ++ (zeros st ++ d) ++ zeros (q - (fo + st + zlen d)) /\ zlen f <= zlen (put f (fo + st) d) <= q.
Proof.
  intros H S0 L N. rewrite put_end by (try assumption; lia). rewrite padto_app by lia. rewrite (padto_more f fo (fo + st)) by lia.
  replace (fo + st - fo) with st by lia. rewrite !zlen_app, padto_zlen, zeros_zlen by lia. rewrite <- !app_assoc. split; [reflexivity|]. pose proof (zlen_nonneg d). lia.
Qed.
Lemma firstn_zlen {A} n (l : list A) : 0 <= n <= zlen l -> zlen (firstn (Z.to_nat n) l) = n.
Proof. intros H. unfold zlen in *. rewrite firstn_length. lia. Qed.
(** one section *)
Definition write_one (f : list Z) (s : section) (h : shdr) : res (list Z) :=
  let size := wrap 32 (s_max s - s_start s) in
  if negb (s_type s =? SEGTYPE_BSS) && negb (size =? 0) then
    match s_buf s with
    | Some b => if size <=? zlen b then Ok (put f (wrap 32 (sh_offset h + s_start s)) (firstn (Z.to_nat size) b)) else UB
    | None => UB
    end
  else Ok f.
Lemma write_data_cons f s h l : write_data f ((s, h) :: l) = bindr (write_one f s h) (fun f => write_data f l).
Proof.
  cbn [write_data]. unfold write_one. destruct (negb (s_type s =? SEGTYPE_BSS) && negb (wrap 32 (s_max s - s_start s) =? 0)); [|reflexivity].
  destruct (s_buf s) as [b|]; [|reflexivity]. now destruct (_ <=? _).
Qed.
(** the code buffer of a section holds its contents *)
Definition filled (s : section) : Prop := s_type s <> 3 -> s_start s <> s_max s -> exists b, s_buf s = Some b /\ s_max s - s_start s <= zlen b.
Lemma write_one_ok m f s h f' : sec_ok m s -> zlen f <= sh_offset h -> 0 <= sh_offset h -> sh_offset h mod 16 = 0 -> sh_offset h + fsize s < 2 ^ 32 -> write_one f s h = Ok f' ->
  let fo := sh_offset h in let q := up (fo + fsize s) in
  padto f' q = padto f fo ++ block s ++ zeros (q - (fo + fsize s)) /\ zlen f <= zlen f' <= q /\ zlen (block s) = fsize s.
Proof.
  intros W L H0 Hm Hb E fo q. pose proof (w_max _ _ W) as M. pose proof (w_size _ _ W) as M'. pose proof (up_spec (fo + fsize s)) as [U _]. fold q in U.
  unfold write_one in E. rewrite (wrap_small 32 (s_max s - s_start s)) in E by lia. fold fo in E, L, H0, Hm, Hb.
  unfold block, fsize, image, nobits in *. change SEGTYPE_BSS with 3 in E.
  destruct (Z.eqb_spec (s_type s) 3) as [T|T]; cbn [negb andb] in E.
  - assert (f' = f) as -> by congruence. destruct (s_info s); cbn [negb andb] in *.
    + fold (zeros (s_max s)). rewrite zeros_zlen by lia. rewrite (padto_more f fo q) by lia. rewrite zeros_app by lia. repeat split; try lia. do 2 f_equal. lia.
    + rewrite Z.add_0_r in *. cbn [app]. change (zlen (@nil Z)) with 0. rewrite (padto_more f fo q) by lia. repeat split; lia.
  - rewrite andb_false_r in *. fold (zeros (s_start s)). destruct (Z.eqb_spec (s_max s - s_start s) 0) as [Z0|Z0]; cbn [negb] in E.
    + assert (f' = f) as -> by congruence. rewrite Z0. cbn [Z.to_nat firstn]. rewrite app_nil_r, zeros_zlen by lia. rewrite (padto_more f fo q), zeros_app by lia. repeat split; try lia. do 2 f_equal. lia.
    + destruct (s_buf s) as [b|]; [|discriminate]. destruct (Z.leb_spec (s_max s - s_start s) (zlen b)) as [B|]; [|discriminate].
      rewrite (wrap_small 32 (fo + s_start s)) in E by lia.
      assert (f' = put f (fo + s_start s) (firstn (Z.to_nat (s_max s - s_start s)) b)) as -> by congruence.
      pose proof (firstn_zlen (s_max s - s_start s) b ltac:(lia)) as LB.
      destruct (put_gap f fo (s_start s) (firstn (Z.to_nat (s_max s - s_start s)) b) q) as [P1 P2]; [lia|lia|rewrite LB; lia| |].
      { intros N. rewrite N in LB. change (zlen (@nil Z)) with 0 in LB. lia. }
      rewrite LB in P1. rewrite P1, zlen_app, zeros_zlen, LB by lia. rewrite <- !app_assoc. repeat split; try lia. do 4 f_equal. lia.
Qed.
Lemma write_data_ok m ss : Forall (sec_ok m) ss -> forall h f fo f', map sh_offset h = lay fo (map fsize ss) -> zlen f <= fo -> 0 <= fo -> fo mod 16 = 0 ->
  fo + pad16 (map fsize ss) < 2 ^ 32 -> write_data f (combine ss h) = Ok f' ->
  padto f' (lay_end fo (map fsize ss)) = padto f fo ++ pack fo (map block ss) /\ zlen f <= zlen f' <= lay_end fo (map fsize ss) /\ map zlen (map block ss) = map fsize ss.
Proof.
  induction 1 as [|s ss Hs F IH]; intros h f fo f' O L H0 Hm Hb E.
  - cbn [combine write_data map lay_end pack] in *. assert (f' = f) as -> by congruence. rewrite app_nil_r. repeat split; lia.
  - cbn [map lay lay_end pack] in *. destruct h as [|h hs]; cbn [map] in O; [discriminate|]. assert (sh_offset h = fo) as O1 by congruence.
    assert (map sh_offset hs = lay (up (fo + fsize s)) (map fsize ss)) as O2 by congruence. cbn [combine] in E. rewrite write_data_cons in E.
    destruct (write_one f s h) as [f1| |] eqn:E1; cbn [bindr] in E; [|discriminate..]. rewrite pad16_cons in Hb.
    assert (0 <= pad16 (map fsize ss)) as Pn. { apply pad16_nonneg, Forall_map. eapply Forall_impl; [|exact F]. cbv beta. intros x Hx. apply (fsize_nonneg m x Hx). }
    pose proof (fsize_nonneg m s Hs) as Fs.
    destruct (write_one_ok m f s h f1 Hs) as (P1 & L1 & Z1); [lia|lia|now rewrite O1|lia|exact E1|]. rewrite O1 in *.
    pose proof (up_spec (fo + fsize s)) as [U1 U2].
    destruct (IH hs f1 (up (fo + fsize s)) f' O2) as (P2 & L2 & Z2); [lia|lia|exact U2|lia|exact E|].
    rewrite Z1. rewrite P2, P1, <- !app_assoc. split; [reflexivity|]. split; [lia|]. congruence.
Qed.
Lemma write_data_total ss : Forall filled ss -> Forall (fun s => 0 <= s_start s <= s_max s /\ s_max s < 2 ^ 31) ss -> forall h f, exists f', write_data f (combine ss h) = Ok f'.
Proof.
  induction 1 as [|s ss Hs _ IH]; intros F h f; [cbn [combine write_data]; eauto|]. destruct h as [|h hs]; cbn [combine]; [cbn [write_data]; eauto|].
  apply Forall_inv in F as R. apply Forall_inv_tail in F. rewrite write_data_cons. unfold write_one. rewrite (wrap_small 32 (s_max s - s_start s)) by lia. change SEGTYPE_BSS with 3.
  destruct (Z.eqb_spec (s_type s) 3) as [T|T]; cbn [negb andb bindr]; [now apply IH|]. destruct (Z.eqb_spec (s_max s - s_start s) 0) as [Z0|Z0]; cbn [negb bindr]; [now apply IH|].
  destruct (Hs T) as (b & -> & B); [lia|]. destruct (Z.leb_spec (s_max s - s_start s) (zlen b)); [|lia]. cbn [bindr]. now apply IH.
Qed.
(** the tables *)
Definition ends (f : list Z) (fo : Z) (ds : list (list Z)) : Prop := Forall2 (fun o d => o + zlen d <= zlen f) (lay fo (map zlen ds)) ds.
Lemma ends_more f g fo ds : ends f fo ds -> zlen f <= zlen g -> ends g fo ds.
Proof. intros H L. unfold ends in *. induction H; constructor; [lia|assumption]. Qed.
Lemma write_internal_ok ds : Forall (fun d => d <> []) ds -> forall h f fo, map sh_offset h = lay fo (map zlen ds) -> zlen f <= fo ->
  let f' := write_internal f (combine ds h) in
  padto f' (lay_end fo (map zlen ds)) = padto f fo ++ pack fo ds /\ zlen f <= zlen f' <= lay_end fo (map zlen ds) /\ ends f' fo ds.
Proof.
  induction 1 as [|d ds Hd _ IH]; intros h f fo O L; cbn zeta.
  - cbn [combine write_internal map lay_end pack] in *. rewrite app_nil_r. repeat split; try lia. constructor.
  - cbn [map lay lay_end pack] in *. destruct h as [|h hs]; cbn [map] in O; [discriminate|]. assert (sh_offset h = fo) as O1 by congruence.
    assert (map sh_offset hs = lay (up (fo + zlen d)) (map zlen ds)) as O2 by congruence. cbn [combine write_internal]. rewrite O1.
    destruct (put_step f fo d L) as (P1 & L1 & G1). pose proof (up_spec (fo + zlen d)) as [U1 U2].
    destruct (IH hs (put f fo d) (up (fo + zlen d)) O2) as (P2 & L2 & Z2); [lia|]. rewrite P2, P1, <- !app_assoc. split; [reflexivity|]. split; [lia|].
    unfold ends. cbn [map lay]. constructor; [specialize (G1 Hd); lia|exact Z2].
Qed.
Lemma write_all_relocs_ok w t : forall l f fo f', map sh_offset (map snd l) = lay fo (map (fun p => zlen (s_fix (fst p)) * sizeof_rel w) l) -> Forall (fun p => s_fix (fst p) <> []) l -> zlen f <= fo ->
  (forall fs d, write_relocs w t fs = Ok d -> zlen d = zlen fs * sizeof_rel w) -> write_all_relocs w t f l = Ok f' ->
  exists ds, Forall2 (fun p d => write_relocs w t (s_fix (fst p)) = Ok d) l ds /\ map zlen ds = map (fun p => zlen (s_fix (fst p)) * sizeof_rel w) l /\
    padto f' (lay_end fo (map zlen ds)) = padto f fo ++ pack fo ds /\ zlen f <= zlen f' <= lay_end fo (map zlen ds) /\ ends f' fo ds.
Proof.
  induction l as [|[s h] l IH]; intros f fo f' O N L R E; cbn [write_all_relocs map lay fst snd] in *.
  - assert (f' = f) as -> by congruence. exists []. cbn [lay_end map pack]. rewrite app_nil_r. repeat split; try lia; constructor.
  - destruct (write_relocs w t (s_fix s)) as [d| |] eqn:Ed; cbn [bindr] in E; [|discriminate..].
    pose proof (R _ _ Ed) as Zd. assert (sh_offset h = fo) as O1 by congruence. rewrite O1 in E.
    assert (map sh_offset (map snd l) = lay (up (fo + zlen d)) (map (fun p => zlen (s_fix (fst p)) * sizeof_rel w) l)) as O2 by (rewrite Zd; congruence).
    apply Forall_inv in N as N1. apply Forall_inv_tail in N. cbn [fst] in N1.
    destruct (put_step f fo d L) as (P1 & L1 & G1). pose proof (up_spec (fo + zlen d)) as [U1 U2].
    destruct (IH (put f fo d) (up (fo + zlen d)) f' O2 N) as (ds & F2 & Z2 & P2 & L2 & X2); [lia|exact R|exact E|].
    exists (d :: ds). cbn [map lay_end pack]. repeat split; try lia.
    + constructor; [exact Ed|exact F2].
    + now rewrite Zd, Z2.
    + rewrite P2, P1, <- !app_assoc. reflexivity.
    + unfold ends. cbn [map lay]. constructor; [|exact X2].
      assert (d <> []) as Nd. { intros ->. change (zlen (@nil Z)) with 0 in Zd. destruct (s_fix s) as [|x r]; [congruence|]. rewrite zlen_cons in Zd. pose proof (zlen_nonneg r). destruct w; cbn [sizeof_rel] in Zd; lia. }
      specialize (G1 Nd). lia.
Qed.
Lemma write_all_relocs_total w t : forall l f, Forall (fun p : section * shdr => exists d, write_relocs w t (s_fix (fst p)) = Ok d) l -> exists f', write_all_relocs w t f l = Ok f'.
Proof. induction l as [|[s h] l IH]; intros f H; cbn [write_all_relocs]; [eauto|]. apply Forall_inv in H as H1. apply Forall_inv_tail in H. cbn [fst] in H1. destruct H1 as [d ->]. cbn [bindr]. now apply IH. Qed.
(** reading the blocks *)
Lemma slice_more i n a b r : slice i n a = Some r -> slice i n (a ++ b) = Some r.
Proof.
  unfold slice. rewrite zlen_app. pose proof (zlen_nonneg b). destruct (Z.leb_spec 0 i); [|discriminate]. destruct (Z.leb_spec 0 n); [|discriminate]. cbn [andb].
  destruct (Z.leb_spec (i + n) (zlen a)); [|discriminate]. destruct (Z.leb_spec (i + n) (zlen a + zlen b)); [|lia]. cbn [andb]. intros E. rewrite <- E. f_equal.
  unfold zlen in *. rewrite skipn_app, firstn_app.
  replace (Z.to_nat n - length (skipn (Z.to_nat i) a))%nat with 0%nat by (rewrite skipn_length; lia). cbn [firstn]. now rewrite app_nil_r.
Qed.
Lemma read_block f q f0 fo bs k d o : zlen f0 <= fo -> padto f q = padto f0 fo ++ pack fo bs -> nth_error bs k = Some d -> nth_error (lay fo (map zlen bs)) k = Some o ->
  o + zlen d <= zlen f -> slice o (zlen d) f = Some d.
Proof.
  intros L E Hd Ho B. destruct (pack_nth fo bs k d o Hd Ho) as (a & b & P & Za). apply (slice_prefix _ _ f (zeros (q - zlen f))); [|exact B].
  fold (padto f q). rewrite E, P, app_assoc. apply slice_app; [|reflexivity]. rewrite zlen_app, padto_zlen by exact L. lia.
Qed.
Lemma read_head f q f0 fo r i n d : padto f q = padto f0 fo ++ r -> zlen f0 <= zlen f -> slice i n f0 = Some d -> slice i n f = Some d.
Proof.
  intros E L H. apply (slice_prefix _ _ f (zeros (q - zlen f))).
  - fold (padto f q). rewrite E. unfold padto. rewrite <- app_assoc. now apply slice_more.
  - unfold slice in H. destruct (0 <=? i), (0 <=? n), (Z.leb_spec (i + n) (zlen f0)); cbn [andb] in H; try discriminate. lia.
Qed.
