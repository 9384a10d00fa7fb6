From Verif Require Import Base Data_Proofs OmfRec_Spec OmfFix_Model OmfFix_Spec.

Lemma rd_putIndex : forall i r, idx_ok i -> rd_index (putIndex i ++ r) = Some (i, r).
Proof.
  intros i r H. unfold idx_ok in H. unfold putIndex. destruct (i >? 0x7f) eqn:E.
  - assert (Z.shiftr i 8 = i / 256) as ES by (rewrite Z.shiftr_div_pow2 by lia; reflexivity).
    assert (0 <= i / 256 < 128) as R by (split; [apply Z.div_pos; lia|apply Z.div_lt_upper_bound; lia]).
    assert (Z.lor 128 (i / 256) = 128 + i / 256) as EL.
    { symmetry. rewrite <- Z.lxor_lor; [apply Z.add_nocarry_lxor|];
      (apply Z.bits_inj'; intros n Hn; rewrite Z.land_spec, Z.bits_0; destruct (Z.testbit 128 n) eqn:T; [|reflexivity];
       destruct (Z.testbit (i / 256) n) eqn:U; [|reflexivity]; exfalso;
       assert (n = 7) as -> by (change 128 with (2 ^ 7) in T; rewrite Z.pow2_bits_eqb in T by lia; lia);
       rewrite Z.testbit_true, Z.div_small in U by lia; discriminate). }
    rewrite ES, EL. unfold wrap. change (2 ^ 8) with 256. rewrite (Z.mod_small (128 + i / 256)) by lia.
    cbn [app rd_index]. rewrite (proj2 (Z.ltb_ge (128 + i / 256) 128)) by lia. f_equal. f_equal.
    pose proof (Z.div_mod i 256 ltac:(lia)). lia.
  - unfold wrap. rewrite Z.mod_small by lia. cbn [app rd_index]. rewrite (proj2 (Z.ltb_lt i 128)) by lia. reflexivity.
Qed.
Lemma putIndex_bytes : forall i, Forall is_byte (putIndex i).
Proof. intros i. unfold putIndex. destruct (i >? 0x7f); repeat apply Forall_cons; try apply Forall_nil; apply wrap_range; lia. Qed.
Lemma putIndex_length : forall i, 1 <= zlen (putIndex i) <= 2.
Proof. intros i. unfold putIndex. destruct (i >? 0x7f); rewrite ?zlen_cons, zlen_nil; lia. Qed.

(** the first byte *)
Lemma locat_byte : forall loc (self : bool) hi p, place_of loc = Some p -> 0 <= hi < 4 ->
  let a := wrap 8 (Z.lor (Z.lor (wrap 8 (Z.shiftl loc 2)) (if self then 0x80 else 0xc0)) hi) in
  a / 128 = 1 /\ place_of (a / 4 mod 16) = Some p /\ (a / 64 mod 2 =? 0) = self /\ a mod 4 = hi /\ is_byte a.
Proof.
  intros loc self hi p HP HH.
  assert (In loc [0; 1; 2; 3; 4; 5; 9; 11; 13]) as HL.
  { unfold place_of in HP. destruct loc as [|q|q]; [cbn; auto| |discriminate].
    repeat (destruct q as [q|q|]; try discriminate; cbn; auto 12). }
  assert (In hi [0; 1; 2; 3]) as H4 by (cbn; lia).
  cbn in HL, H4.
  decompose [or] HL; try contradiction; subst loc; cbn in HP; injection HP as <-; decompose [or] H4; try contradiction; subst hi; destruct self; vm_compute;
    (split; [reflexivity|split; [reflexivity|split; [reflexivity|split; [reflexivity|split; congruence]]]]).
Qed.
Lemma locat_place : forall fx, match asked_place fx with
  | Some (p, s) => exists loc, locat fx = Some (loc, s) /\ place_of loc = Some p
  | None => locat fx = None end.
Proof.
  intros fx. unfold asked_place, locat.
  destruct (f_type fx) as [|q|q] eqn:E; [reflexivity| |reflexivity].
  destruct (f_loader_resolved fx);
  repeat (destruct q as [q|q|]; try reflexivity); cbn; try (eexists; split; reflexivity).
Qed.

(** the reference *)
Definition meth (b : base) : Z := match b with BSeg _ => 0 | BGrp _ => 1 | BExt _ => 2 end.
Definition index (b : base) : Z := match b with BSeg i | BGrp i | BExt i => i end.
Lemma rd_ref_spec : forall (fr : option base) t d (wide dis : bool) rest,
  (forall b, fr = Some b -> idx_ok (index b)) -> idx_ok (index t) -> (dis = false -> d = 0) ->
  (dis = true -> 0 <= d < if wide then 2 ^ 32 else 2 ^ 16) ->
  let m := match fr with Some b => meth b | None => 5 end in
  let tt := meth t + if dis then 0 else 4 in
  rd_ref wide (wrap 8 (Z.lor (Z.shiftl m 4) tt) :: match fr with Some b => putIndex (index b) | None => [] end ++ putIndex (index t) ++
     (if dis then le_bytes (if wide then 4 else 2) d else []) ++ rest) =
  Some (match fr with Some b => b | None => t end, t, d, rest).
Proof.
  intros fr t d wide dis rest HF HT Hd0 Hd m tt. subst m tt. unfold rd_ref. cbn [rd_byte bindo].
  assert (forall l, rd_ofs wide (le_bytes (if wide then 4 else 2) d ++ l) = Some (d mod (if wide then 2 ^ 32 else 2 ^ 16), l)) as RO.
  { intros l. destruct wide; unfold rd_ofs; cbn [le_bytes app rd_dword rd_word]; f_equal; f_equal.
    - change (2 ^ 32) with 4294967296. rewrite !Zdiv.Zdiv_Zdiv by lia. change (256 * 256) with 65536. change (65536 * 256) with 16777216.
      pose proof (Z.rem_mul_r d 16777216 256 ltac:(lia) ltac:(lia)). pose proof (Z.rem_mul_r d 65536 256 ltac:(lia) ltac:(lia)).
      pose proof (Z.rem_mul_r d 256 256 ltac:(lia) ltac:(lia)). change (16777216 * 256) with 4294967296 in *. change (65536 * 256) with 16777216 in *. change (256 * 256) with 65536 in *. lia.
    - pose proof (Z.rem_mul_r d 256 256 ltac:(lia) ltac:(lia)). change (256 * 256) with 65536 in *. change (2 ^ 16) with 65536. lia. }
  assert (forall l, (if dis then rd_ofs wide ((if dis then le_bytes (if wide then 4 else 2) d else []) ++ l) else Some (0, (if dis then le_bytes (if wide then 4 else 2) d else []) ++ l)) = Some (d, l)) as RD.
  { intros l. destruct dis.
    - rewrite RO. rewrite Z.mod_small by auto. reflexivity.
    - rewrite Hd0 by reflexivity. reflexivity. }
  clear RO.
  destruct fr as [b|].
  - specialize (HF b eq_refl).
    destruct b as [i|i|i]; destruct t as [j|j|j]; cbn [meth index] in *; destruct dis; cbn -[rd_index rd_ofs putIndex le_bytes app];
      rewrite !rd_putIndex by assumption; cbn [bindo]; rewrite !rd_putIndex by assumption; cbn [bindo]; try rewrite RD; try reflexivity;
      (rewrite Hd0 by reflexivity; reflexivity).
  - destruct t as [j|j|j]; cbn [meth index] in *; destruct dis; cbn -[rd_index rd_ofs putIndex le_bytes app]; cbn [app];
      rewrite !rd_putIndex by assumption; cbn [bindo]; try rewrite RD; try reflexivity; (rewrite Hd0 by reflexivity; reflexivity).
Qed.

(** what TranslateLogref writes for a reference without displacement *)
Definition image (fr : option base) (t : base) : list Z :=
  wrap 8 (Z.lor (Z.shiftl (match fr with Some b => meth b | None => 5 end) 4) (meth t + 4)) ::
  match fr with Some b => putIndex (index b) | None => [] end ++ putIndex (index t).
(** the frame after the optimization *)
Definition reduced (f t : base) : option base := if meth f =? meth t then None else Some f.
Definition frame_field (fx : fixup) (t : base) : option base :=
  match f_sym fx with
  | NoSym | Internal false (Some (true, _)) => None
  | _ => match selected fx with None => None | Some _ => reduced (asked_frame fx t) t end
  end.
Ltac frames fx H := destruct H as [H|[H|[H|[H|[]]]]]; unfold FRAME_SEG, FRAME_GRP, FRAME_TARG, FRAME_NONE in H.
Lemma fill_image : forall fx, fixup_ok fx -> forall ms386,
  match asked_target fx with
  | None => omf_fill_logref fx = None
  | Some t => exists lr, omf_fill_logref fx = Some lr /\ TranslateLogref lr ms386 = image (frame_field fx t) t
  end.
Proof.
  intros fx (HF & HD & HS & HN) w.
  unfold asked_target, omf_fill_logref, frame_field, asked_frame, selected.
  destruct HF as [HF|[HF|[HF|[HF|[]]]]]; rewrite <- HF in *;
  (destruct (f_sym fx) as [| |i|i|i g|[] [[[] i]|]] eqn:ES; cbn;
    try (exfalso; apply HN; reflexivity); try reflexivity; try (eexists; split; [reflexivity|]);
    try (unfold TranslateLogref, image, putFrameDatum, putTargetDatum, reduced; cbn; rewrite ?app_nil_r; reflexivity)).
  - (* the group of an external *)
    destruct (f_frame_datum fx =? 0) eqn:E0.
    + apply Z.eqb_eq in E0. rewrite E0. unfold TranslateLogref, image, putFrameDatum, putTargetDatum, reduced; cbn; rewrite ?app_nil_r; reflexivity.
    + destruct (f_frame_datum fx) as [|q|q] eqn:EQ; [discriminate| |];
        unfold TranslateLogref, image, putFrameDatum, putTargetDatum, reduced; cbn; rewrite ?app_nil_r; reflexivity.
Qed.
Lemma image_read : forall fx t wide rest, fixup_ok fx -> asked_target fx = Some t -> clash (asked_frame fx t) t = false ->
  rd_ref wide (image (frame_field fx t) t ++ rest) = Some (asked_frame fx t, t, 0, rest).
Proof.
  intros fx t wide rest (HF & HD & HS & HN) HT HC.
  assert (idx_ok (index t)) as IT.
  { unfold asked_target, selected in HT. unfold sym_ok in HS.
    destruct (f_sym fx) as [| |i|i|i g|[] [[[] i]|]]; try discriminate; try (injection HT as <-; cbn; tauto);
    destruct HF as [HF|[HF|[HF|[HF|[]]]]]; rewrite <- HF in HT; cbn in HT; try discriminate; injection HT as <-; exact HD. }
  assert (forall b, frame_field fx t = Some b -> idx_ok (index b) /\ asked_frame fx t = b) as IF.
  { clear HC HT IT. intros b Hb. unfold frame_field, reduced, asked_frame, selected in *. unfold sym_ok in HS.
    destruct (f_sym fx) as [| |i|i|i g|[] [[[] i]|]]; try discriminate;
    (destruct HF as [HF|[HF|[HF|[HF|[]]]]]; rewrite <- HF in *; destruct t as [j|j|j]; cbn in Hb; try discriminate;
     try (injection Hb as <-; split; [exact HD|reflexivity])).
    all: destruct (f_frame_datum fx) as [|q|q] eqn:EQ; cbn in Hb |- *; try discriminate; (injection Hb as <-; split; [cbn; tauto|reflexivity]). }
  assert (frame_field fx t = None -> asked_frame fx t = t) as IN.
  { intros Hn. unfold frame_field, reduced in Hn. unfold asked_frame, clash in *. unfold asked_target in HT.
    assert (forall b, meth b =? meth t = true -> (match b, t with BSeg i, BSeg j | BGrp i, BGrp j => negb (i =? j) | _, _ => false end) = false -> (forall i, b <> BExt i) -> b = t) as EQB.
    { intros b E1 E2 E3. destruct b as [i|i|i], t as [j|j|j]; cbn in E1; try discriminate; try (exfalso; apply (E3 i); reflexivity);
      destruct (Z.eqb_spec i j); try discriminate; congruence. }
    unfold selected in *.
    destruct (f_sym fx) as [| |i|i|i g|[] [[[] i]|]]; try reflexivity; try discriminate;
    (destruct HF as [HF|[HF|[HF|[HF|[]]]]]; rewrite <- HF in *; destruct t as [j|j|j]; cbn in Hn, HC |- *; try reflexivity; try discriminate;
     try (apply EQB; [reflexivity|exact HC|intros; discriminate])).
    all: destruct (f_frame_datum fx) as [|q|q] eqn:EQ; cbn in Hn, HC |- *; try discriminate; (apply EQB; [reflexivity|exact HC|intros; discriminate]). }
  pose proof (rd_ref_spec (frame_field fx t) t 0 wide false rest) as R. cbn [app] in R.
  unfold image. rewrite <- app_comm_cons, <- app_assoc. rewrite R; [|intros b Hb; apply IF; exact Hb|exact IT|reflexivity|discriminate].
  destruct (frame_field fx t) as [b|] eqn:EF; [rewrite (proj2 (IF b eq_refl)); reflexivity|rewrite (IN eq_refl); reflexivity].
Qed.

Theorem fixup_read : forall fx start wide rest r, fixup_ok fx -> 0 <= f_locofs fx - start < 1024 ->
  asked start fx = Some r -> clash (r_frame r) (r_target r) = false ->
  rd_fixup wide (OmfFixGenFix fx start wide ++ rest) = Some (r, rest).
Proof.
  intros fx start wide rest r OK HO HA HC. unfold asked in HA. pose proof (locat_place fx) as LP.
  destruct (asked_place fx) as [[p s]|]; [|discriminate]. destruct LP as (loc & EL & EP).
  destruct (asked_target fx) as [t|] eqn:ET; [|discriminate]. injection HA as <-. cbn [r_frame r_target] in HC.
  pose proof (fill_image fx OK wide) as FI. rewrite ET in FI. destruct FI as (lr & E1 & E2).
  unfold OmfFixGenFix. rewrite EL, E1, E2. cbv zeta. rewrite (wrap_small 32 (f_locofs fx - start)) by (change (2 ^ 32) with 4294967296; lia).
  set (o := f_locofs fx - start) in *. rewrite Z.shiftr_div_pow2 by lia. change (2 ^ 8) with 256.
  destruct (locat_byte loc s (o / 256) p EP) as (A1 & A2 & A3 & A4 & _); [split; [apply Z.div_pos; lia|apply Z.div_lt_upper_bound; lia]|].
  cbv zeta in *. set (a := wrap 8 _) in *. unfold rd_fixup. cbn [app rd_byte bindo]. rewrite A1. cbn [Z.eqb Pos.eqb negb]. rewrite A2.
  rewrite (image_read fx t wide rest OK ET HC). cbn [bindo]. f_equal. f_equal. f_equal; [|exact A3].
  rewrite A4. unfold wrap. pose proof (Z.div_mod o 256 ltac:(lia)). change (2 ^ 8) with 256. lia.
Qed.
Theorem fixup_none : forall fx start wide, fixup_ok fx -> asked start fx = None -> OmfFixGenFix fx start wide = [].
Proof.
  intros fx start wide OK HA. unfold asked in HA. pose proof (locat_place fx) as LP. unfold OmfFixGenFix.
  destruct (asked_place fx) as [[p s]|]; [|rewrite LP; reflexivity]. destruct LP as (loc & EL & _). rewrite EL.
  pose proof (fill_image fx OK wide) as FI. destruct (asked_target fx) as [t|]; [discriminate|]. rewrite FI. reflexivity.
Qed.
Lemma image_length : forall fr t, 2 <= zlen (image fr t) <= 5.
Proof.
  intros fr t. unfold image. rewrite zlen_cons, zlen_app. pose proof (putIndex_length (index t)).
  destruct fr as [b|]; [pose proof (putIndex_length (index b))|change (zlen (@nil Z)) with 0]; lia.
Qed.
Lemma image_bytes : forall fr t, Forall is_byte (image fr t).
Proof.
  intros fr t. unfold image. apply Forall_cons; [apply wrap_range; lia|]. apply Forall_app. split; [|apply putIndex_bytes].
  destruct fr; [apply putIndex_bytes|apply Forall_nil].
Qed.
Theorem fixup_size : forall fx start wide, fixup_ok fx ->
  zlen (OmfFixGenFix fx start wide) <= 7 /\ Forall is_byte (OmfFixGenFix fx start wide) /\ (asked start fx <> None -> 4 <= zlen (OmfFixGenFix fx start wide)).
Proof.
  intros fx start wide OK. unfold OmfFixGenFix, asked. pose proof (locat_place fx) as LP.
  destruct (asked_place fx) as [[p s]|]; [|rewrite LP; split; [change (zlen (@nil Z)) with 0; lia|split; [apply Forall_nil|congruence]]]. destruct LP as (loc & EL & _). rewrite EL.
  pose proof (fill_image fx OK wide) as FI. destruct (asked_target fx) as [t|]; [|rewrite FI; split; [change (zlen (@nil Z)) with 0; lia|split; [apply Forall_nil|congruence]]].
  destruct FI as (lr & E1 & E2). rewrite E1, E2. cbv zeta. rewrite !zlen_cons. pose proof (image_length (frame_field fx t) t).
  split; [lia|]. split; [|intros _; lia]. apply Forall_cons; [apply wrap_range; lia|]. apply Forall_cons; [apply wrap_range; lia|]. apply image_bytes.
Qed.

Theorem start_read : forall fx offset displ wide x rest, fixup_ok fx -> asked_start fx offset displ wide = Some x ->
  exists bs, OmfFixGenFixModend fx offset displ wide = Ok bs /\ rd_ref wide (bs ++ rest) = Some (x, rest) /\ zlen bs <= 9.
Proof.
  intros fx offset displ wide x rest (HF & HD & HS & HN) HA.
  set (d := (offset + displ) mod (if wide then 2 ^ 32 else 2 ^ 16)).
  assert (0 <= d < (if wide then 2 ^ 32 else 2 ^ 16)) as Rd by (destruct wide; apply Z.mod_pos_bound; lia).
  assert ((if wide then le_bytes 4 (swrap 32 (offset + displ)) else le_bytes 2 (swrap 32 (offset + displ))) = le_bytes (if wide then 4 else 2) d) as EB.
  { assert (forall n, (0 < n)%nat -> 8 * Z.of_nat n <= 32 -> le_bytes n (swrap 32 (offset + displ)) = le_bytes n ((offset + displ) mod 2 ^ (8 * Z.of_nat n))) as G.
    { intros n Hn H8. apply le_bytes_cong. rewrite Z.mod_mod by (pose proof (pow2_pos (8 * Z.of_nat n)); lia).
      unfold swrap. set (y := offset + displ). rewrite Zminus_mod.
      assert ((y + 2 ^ (32 - 1)) mod 2 ^ 32 mod 2 ^ (8 * Z.of_nat n) = (y + 2 ^ (32 - 1)) mod 2 ^ (8 * Z.of_nat n)) as ->.
      { symmetry. apply Znumtheory.Zmod_div_mod; [apply pow2_pos; lia|lia|]. exists (2 ^ (32 - 8 * Z.of_nat n)).
        rewrite <- Z.pow_add_r by lia. f_equal. lia. }
      rewrite <- Zminus_mod. f_equal. lia. }
    destruct wide; apply G; lia. }
  unfold asked_start in HA.
  assert (forall t, idx_ok (index t) -> forall fd, TranslateLogref
     {| frame := 5; frame_datum := fd; is_secondary := false; target := meth t; target_datum := index t; target_offset := swrap 32 (offset + displ) |} wide =
     wrap 8 (Z.lor (Z.shiftl 5 4) (meth t + 0)) :: putIndex (index t) ++ le_bytes (if wide then 4 else 2) d) as T5.
  { intros t Ht fd. unfold TranslateLogref, putFrameDatum, putTargetDatum. cbn [frame frame_datum is_secondary target target_datum target_offset]. rewrite andb_false_r.
    destruct t; cbn -[putIndex le_bytes swrap d]; rewrite EB; reflexivity. }
  assert (forall t, idx_ok (index t) -> forall i, TranslateLogref
     {| frame := 1; frame_datum := i; is_secondary := false; target := meth t; target_datum := index t; target_offset := swrap 32 (offset + displ) |} wide =
     wrap 8 (Z.lor (Z.shiftl 1 4) (meth t + 0)) :: putIndex i ++ putIndex (index t) ++ le_bytes (if wide then 4 else 2) d) as T1.
  { intros t Ht i. unfold TranslateLogref, putFrameDatum, putTargetDatum. cbn [frame frame_datum is_secondary target target_datum target_offset]. rewrite andb_false_r.
    destruct t; cbn -[putIndex le_bytes swrap d]; rewrite EB; reflexivity. }
  assert (forall t, idx_ok (index t) -> rd_ref wide ((wrap 8 (Z.lor (Z.shiftl 5 4) (meth t + 0)) :: putIndex (index t) ++ le_bytes (if wide then 4 else 2) d) ++ rest) = Some (t, t, d, rest) /\
    zlen (wrap 8 (Z.lor (Z.shiftl 5 4) (meth t + 0)) :: putIndex (index t) ++ le_bytes (if wide then 4 else 2) d) <= 9) as R5.
  { intros t Ht. split.
    - pose proof (rd_ref_spec None t d wide true rest) as R. cbv zeta in R. cbn [app] in R. rewrite <- app_comm_cons, <- app_assoc. apply R; auto; discriminate.
    - rewrite zlen_cons, zlen_app. pose proof (putIndex_length (index t)). unfold zlen at 2. rewrite le_bytes_length. destruct wide; lia. }
  assert (forall i t, idx_ok i -> idx_ok (index t) -> rd_ref wide ((wrap 8 (Z.lor (Z.shiftl 1 4) (meth t + 0)) :: putIndex i ++ putIndex (index t) ++ le_bytes (if wide then 4 else 2) d) ++ rest) = Some (BGrp i, t, d, rest) /\
    zlen (wrap 8 (Z.lor (Z.shiftl 1 4) (meth t + 0)) :: putIndex i ++ putIndex (index t) ++ le_bytes (if wide then 4 else 2) d) <= 9) as R1.
  { intros i t Hi Ht. split.
    - pose proof (rd_ref_spec (Some (BGrp i)) t d wide true rest) as R. cbv zeta in R. cbn [app index meth] in R. rewrite <- app_comm_cons, <- !app_assoc.
      apply R; auto; [intros b [= <-]; exact Hi|discriminate].
    - rewrite zlen_cons, !zlen_app. pose proof (putIndex_length (index t)). pose proof (putIndex_length i). unfold zlen at 3. rewrite le_bytes_length. destruct wide; lia. }
  unfold OmfFixGenFixModend, selected in *. fold d in HA.
  destruct (f_sym fx) as [| |i|i|i g|v [[c i]|]] eqn:ES; try discriminate; cbn in HS; injection HA as <-;
  (destruct HF as [HF|[HF|[HF|[HF|[]]]]]; rewrite <- HF; unfold FRAME_SEG, FRAME_GRP, FRAME_TARG, FRAME_NONE; cbn -[TranslateLogref d];
   (eexists; split; [reflexivity|])).
  all: try (rewrite (T5 (BExt i)) by (cbn; tauto); apply (R5 (BExt i)); cbn; tauto).
  all: try (rewrite (T5 (BSeg i)) by (cbn; tauto); apply (R5 (BSeg i)); cbn; tauto).
  - rewrite (T1 (BExt i)) by (cbn; tauto). destruct (f_frame_datum fx) as [|q|q] eqn:EQ; cbn [Z.eqb]; apply (R1 _ (BExt i)); cbn; tauto.
  - rewrite (T1 (BSeg i)) by (cbn; tauto). destruct (f_frame_datum fx) as [|q|q] eqn:EQ; apply (R1 _ (BSeg i)); cbn; tauto.
Qed.

(** TranslateLogref on any frame and target *)
Definition ref_of (fr : option base) (t : base) (d : Z) (sec : bool) : logref :=
  {| frame := match fr with Some b => meth b | None => FRAME_TARG end; frame_datum := match fr with Some b => index b | None => 0 end;
     is_secondary := sec; target := meth t; target_datum := index t; target_offset := d |}.
Lemma logref_read : forall fr t d sec wide rest, (forall b, fr = Some b -> idx_ok (index b)) -> idx_ok (index t) ->
  rd_ref wide (TranslateLogref (ref_of fr t d sec) wide ++ rest) =
  Some (match fr with Some b => b | None => t end, t, d mod (if wide then 2 ^ 32 else 2 ^ 16), rest).
Proof.
  intros fr t d sec wide rest HF HT.
  assert (0 < (if wide then 2 ^ 32 else 2 ^ 16)) as HP by (destruct wide; reflexivity).
  set (dis := negb ((d =? 0) && sec)).
  assert (dis = false -> d = 0) as D0. { subst dis. intros E. apply negb_false_iff, andb_true_iff in E. lia. }
  rewrite <- (rd_ref_spec fr t (d mod (if wide then 2 ^ 32 else 2 ^ 16)) wide dis rest HF HT).
  - unfold TranslateLogref, ref_of. cbn [frame frame_datum is_secondary target target_datum target_offset].
    assert (le_bytes (if wide then 4 else 2)%nat (d mod (if wide then 2 ^ 32 else 2 ^ 16)) = if wide then le_bytes 4 d else le_bytes 2 d) as ->.
    { destruct wide; apply le_bytes_cong; apply Z.mod_mod; discriminate. }
    fold dis. replace ((d =? 0) && sec) with (negb dis) by (subst dis; apply negb_involutive).
    unfold putTargetDatum.
    destruct fr as [[i|i|i]|]; destruct t as [j|j|j]; destruct dis; cbn [negb meth index]; cbn -[putIndex le_bytes rd_ref];
      rewrite <- ?app_assoc; reflexivity.
  - intros E. rewrite (D0 E). destruct wide; reflexivity.
  - intros _. apply Z.mod_pos_bound. exact HP.
Qed.
