(** C39-C42: the bytes of BuildMemoryEncoding are decoded as the operand written. *)
From Coq Require Import String Ascii.
From Verif Require Import Base Mem_Model Mem_Spec V2_Model V2_Spec V2Bits_Proofs.
Open Scope list_scope.

Local Arguments wrap : simpl never.
Local Arguments swrap : simpl never.
Local Arguments Z.lor : simpl never.
Local Arguments Z.shiftl : simpl never.
Local Arguments Z.land : simpl never.
Local Arguments Z.testbit : simpl never.
Local Arguments tab : simpl never.
Local Arguments CompDisp : simpl never.
Local Opaque tab.

Definition is16 (m : memx) : bool := match x_base m with Some (K16, _) => true | _ => false end.
(** rows and operands as the tests of the table and [mem_ok] give them *)
Record mrow (d : row) (c : ci) (ev : bool) (vec : option rk) (m : memx) : Prop := {
  mr_mode : c_mode c = USE32 \/ c_mode c = USE64;
  mr_ok : mem_ok (c_mode c) ev vec m;
  mr_vec : vec = None \/ vec = Some KX \/ vec = Some KY \/ vec = Some KZ;
  mr_vsib : vec <> None -> has VEX_VSIB (d_vex d) = true;
  mr_nvsib : vec = None -> has EVEX_VSIB (d_evex d) = false;
  mr_hi : forall r, src_idx m = Some r -> has EVEX_VSIB (d_evex d) = false -> snd r < 16;
  mr_mem : exists i, d_mem d = MemOpnd i }.

Definition eb (mode : ofssize) (m : memx) : Z :=
  match src_base m with None => match mode with USE64 => if label m then 16 else 17 | _ => 17 end | r => regno r end.
Definition ei (d : row) (m : memx) : Z := match src_idx m with None => 17 | Some r => if has EVEX_VSIB (d_evex d) && (15 <? snd r) then Z.land (snd r) 7 else snd r end.

Lemma vec_simd vec k : vec = None \/ vec = Some KX \/ vec = Some KY \/ vec = Some KZ -> vec = Some k -> k = KX \/ k = KY \/ k = KZ.
Proof. intros [-> | [-> | [-> | ->]]] E; inversion E; auto. Qed.
Lemma addr_simd mode k n : addr_reg mode (k, n) -> simd (Some (k, n)) = false.
Proof. destruct k; cbn; tauto || reflexivity. Qed.
Lemma simd_kind k n : k = KX \/ k = KY \/ k = KZ -> simd (Some (k, n)) = true.
Proof. intros [-> | [-> | ->]]; reflexivity. Qed.

(** what the tests of the sizes leave *)
Definition size_error (s : ofssize) (m : memx) : bool :=
  negb (regsize s (x_base m) =? regsize s (x_idx m)) && (regsize s (x_idx m) <? 16) && (0 <? regsize s (x_idx m)) && (0 <? regsize s (x_base m)).

Section Mem.
Variables (d : row) (c : ci) (ev : bool) (vec : option rk) (m : memx).
Hypothesis M : mrow d c ev vec m.
Let O := mr_ok _ _ _ _ _ M.
Let mode := c_mode c.

Lemma vec_cases : (exists k, vec = Some k) \/ vec = None.
Proof. destruct vec; eauto. Qed.
Lemma no_swap : size_error mode m = false -> simd (x_base m) = true -> x_idx m = None /\ src_base m = None /\ src_idx m = x_base m /\ vec <> None.
Proof.
  intros E Sb. pose proof (mk_base _ _ _ _ O) as B. pose proof (mk_idx _ _ _ _ O) as X. unfold src_base, src_idx in *. rewrite Sb in *.
  assert (V : vec <> None).
  { intros Ev. destruct (x_base m) as [[k n]|]; [|discriminate]. specialize (X _ eq_refl). rewrite Ev in X. destruct X as [X _]. apply addr_simd in X. change (simd (Some (k, n)) = true) in Sb. congruence. }
  destruct (x_idx m) as [[k n]|] eqn:Ex; [exfalso|tauto].
  specialize (B _ eq_refl). unfold size_error in E. rewrite Ex in E.
  destruct (x_base m) as [[kb nb]|]; [|discriminate]. destruct kb; try discriminate Sb; destruct k; cbn in B; try tauto; cbn in E; discriminate.
Qed.
Lemma base_cases : is16 m = false -> size_error mode m = false -> forall k n, src_base m = Some (k, n) ->
  x_base m = Some (k, n) /\ src_idx m = x_idx m /\
  ((k = K32 /\ 0 <= n < 16 /\ (8 <= n -> mode = USE64)) \/ (k = K64 /\ 0 <= n < 16 /\ mode = USE64) \/ (k = KIP /\ mode = USE64)).
Proof.
  intros H16 E k n Eb. destruct (simd (x_base m)) eqn:Sb.
  - destruct (no_swap E Sb) as (_ & A & _). congruence.
  - pose proof (mk_base _ _ _ _ O _ Eb) as B. unfold src_base, src_idx in *. rewrite Sb in *. split; [exact Eb|]. split; [reflexivity|].
    destruct k; cbn in B; try tauto. unfold is16 in H16. rewrite Eb in H16. discriminate.
Qed.
Lemma idx_cases : is16 m = false -> size_error mode m = false -> forall k n, src_idx m = Some (k, n) ->
  0 <= n < 32 /\ (8 <= n -> mode = USE64) /\ (has EVEX_VSIB (d_evex d) = false -> n < 16) /\
  (match vec with Some k' => k = k' | None => (k = K32 \/ k = K64) /\ n <> 4 /\ x_idx m = Some (k, n) end).
Proof.
  intros H16 E k n Ex. pose proof (mk_idx _ _ _ _ O _ Ex) as X. pose proof (mr_hi _ _ _ _ _ M _ Ex) as Hi. pose proof (mk_x16 _ _ _ _ O n) as X16.
  destruct vec_cases as [[k' Ev] | Ev]; rewrite Ev in X |- *.
  - cbn in X, Hi. tauto.
  - destruct X as (A & B & C). cbn in B, C, Hi.
    assert (Sb : simd (x_base m) = false).
    { destruct (simd (x_base m)) eqn:Sb; [|reflexivity]. pose proof (addr_simd _ _ _ A) as Sx. unfold src_idx in Ex. rewrite Sb in Ex. rewrite Ex in Sb. rewrite Sb in Sx. discriminate. }
    assert (Exi : x_idx m = Some (k, n)) by (unfold src_idx in Ex; rewrite Sb in Ex; exact Ex).
    destruct k; cbn in A; try tauto; try (exfalso; apply B; reflexivity).
    + (* K16 *) exfalso. destruct (src_base m) as [[kb nb]|] eqn:Eb; [|apply (X16 eq_refl); exact Ex].
      destruct (base_cases H16 E _ _ Eb) as (Xb & _ & K). unfold size_error in E. rewrite Xb, Exi in E. destruct K as [(-> & _) | [(-> & _) | (-> & _)]]; cbn in E; discriminate.
    + assert (n <> 4) by (apply C; discriminate). repeat split; try tauto; lia.
    + assert (n <> 4) by (apply C; discriminate). repeat split; try tauto; lia.
Qed.

Lemma swap_eq : size_error mode m = false ->
  (if has VEX_VSIB (d_vex d) && simd (x_base m) then (regno (x_idx m), regno (x_base m)) else (regno (x_base m), regno (x_idx m))) = (regno (src_base m), regno (src_idx m)).
Proof.
  intros E. unfold src_base, src_idx. destruct (simd (x_base m)) eqn:Sb.
  - destruct (no_swap E Sb) as (_ & _ & _ & V). rewrite (mr_vsib _ _ _ _ _ M V). reflexivity.
  - rewrite andb_false_r. reflexivity.
Qed.
Lemma idx_num : is16 m = false -> size_error mode m = false ->
  (if has EVEX_VSIB (d_evex d) && (15 <? regno (src_idx m)) then Z.land (regno (src_idx m)) 7 else regno (src_idx m)) = ei d m.
Proof.
  intros H16 E. unfold ei. destruct (src_idx m) as [[k n]|] eqn:Ex.
  - assert (R : regno (@Some V2_Model.reg (k, n)) = n).
    { pose proof (idx_cases H16 E _ _ Ex) as (_ & _ & _ & K). destruct vec_cases as [[k' Ev] | Ev]; rewrite Ev in K.
      - subst k. pose proof (mr_vec _ _ _ _ _ M) as V. rewrite Ev in V. destruct V as [V | [V | [V | V]]]; inversion V; reflexivity.
      - destruct K as ([-> | ->] & _); reflexivity. }
    rewrite R. reflexivity.
  - cbn [regno]. destruct (has EVEX_VSIB (d_evex d)) eqn:Hv; [exfalso|reflexivity].
    destruct vec_cases as [[k Ev] | Ev]; [apply (mk_vec _ _ _ _ O); [rewrite Ev; discriminate|exact Ex]|]. rewrite (mr_nvsib _ _ _ _ _ M Ev) in Hv. discriminate.
Qed.
Lemma ei_range : is16 m = false -> size_error mode m = false -> (0 <= ei d m < 16 /\ (mode = USE32 -> ei d m < 8)) \/ (ei d m = 17 /\ src_idx m = None).
Proof.
  intros H16 E. unfold ei. destruct (src_idx m) as [[k n]|] eqn:Ex; [left|right; auto].
  destruct (idx_cases H16 E _ _ Ex) as (R & U & V & _). cbn [snd]. destruct (has EVEX_VSIB (d_evex d)) eqn:Hv; cbn [andb].
  - destruct (15 <? n) eqn:L; [pose proof (land7 n R)|]; (split; [lia|]); intros E32; [lia|]. destruct (Z_lt_le_dec n 8); [lia|]. rewrite (U ltac:(lia)) in E32. discriminate.
  - specialize (V eq_refl). split; [lia|]. intros E32. destruct (Z_lt_le_dec n 8); [lia|]. rewrite (U ltac:(lia)) in E32. discriminate.
Qed.
Lemma eb_range : is16 m = false -> size_error mode m = false ->
  (exists k, src_base m = Some (k, eb mode m) /\ 0 <= eb mode m < 16 /\ (mode = USE32 -> eb mode m < 8) /\ (k = K32 \/ k = K64)) \/
  (eb mode m = 16 /\ mode = USE64 /\ ((exists n, src_base m = Some (KIP, n)) \/ (src_base m = None /\ label m = true))) \/
  (eb mode m = 17 /\ src_base m = None /\ (mode = USE64 -> label m = false)).
Proof.
  intros H16 E. unfold eb. destruct (src_base m) as [[k n]|] eqn:Eb.
  - destruct (base_cases H16 E _ _ Eb) as (_ & _ & [(-> & R & U) | [(-> & R & U) | (-> & U)]]); cbn [regno].
    + left. exists K32. repeat split; try lia; auto. intros E32. destruct (Z_lt_le_dec n 8); [lia|]. rewrite (U ltac:(lia)) in E32. discriminate.
    + left. exists K64. repeat split; try lia; auto. intros E32. congruence.
    + right. left. repeat split; auto. left. eauto.
  - right. destruct mode eqn:Em.
    + destruct (mr_mode _ _ _ _ _ M) as [X | X]; fold mode in X; congruence.
    + right. repeat split; auto. discriminate.
    + destruct (label m) eqn:L; [left|right]; auto 6.
Qed.

(** ** 32- and 64-bit addresses: the fields *)
Lemma regsize2 r : (mode = USE32 \/ mode = USE64) -> regsize mode r = 2 -> exists n, r = Some (K16, n).
Proof. intros Hm. destruct r as [[k n]|]; [|discriminate]. destruct k; cbn; intros E; try discriminate; eauto; destruct Hm as [-> | ->]; discriminate. Qed.
Lemma tab_eq b x : (mode = USE64 -> 0 <= b < 18) -> (mode = USE32 -> 0 <= b < 8 \/ b = 17) -> (0 <= x < 16 /\ (mode = USE32 -> x < 8)) \/ x = 17 -> tab mode b x = tabf mode b x.
Proof.
  intros A B C. destruct (mr_mode _ _ _ _ _ M) as [X | X]; fold mode in X; rewrite X in *.
  - apply tab32; [auto|]. destruct C as [[C1 C2] | C]; [left|right; exact C]. specialize (C2 eq_refl). lia.
  - apply tab64; [auto|]. destruct C as [[C1 C2] | C]; auto.
Qed.

Definition scbits := scale_bits (x_scale m).
Lemma scbits_range : 0 <= scbits < 4 /\ 2 ^ scbits = src_scale m.
Proof.
  unfold scbits, src_scale, scale_bits. destruct (mk_scale _ _ _ _ O) as [E | [E | [E | [E | E]]]]; rewrite E; cbn; lia.
Qed.

Definition forced (tf : Z) : bool := Z.testbit tf 3.
Lemma mem_fields broad n : is16 m = false -> BuildMemoryEncoding d m c broad = Ok n ->
  size_error mode m = false /\
  exists tm tf ts, tabf mode (eb mode m) (ei d m) = (tm, tf, ts) /\ Z.testbit tf 4 = false /\
  let value := swrap 32 (x_value m) in
  let '(ok, v) := CompDisp value d c broad in
  let dd := if negb (value =? 0) || Z.testbit tf 2 || Z.testbit tf 3 || label m then
              if ok && negb (label m) && negb (Z.testbit tf 3) && (-128 <=? v) && (v <=? 127) then (1%nat, v, 1) else (4%nat, v, if Z.testbit tf 3 then 0 else 2)
            else (0%nat, 0, 0) in
  n_modrm n = Z.lor (if Z.testbit tf 0 then tm else 0) (64 * snd dd) /\ n_dsize n = fst (fst dd) /\ n_disp n = snd (fst dd) /\
  n_needmod n = Z.testbit tf 0 /\ n_needsib n = Z.testbit tf 1 /\ (n_needsib n = true -> n_sib n = Z.lor ts (Z.shiftl scbits 6)) /\
  n_aso n = negb (match x_sym m with Some _ => true | None => false end) && (ofs_eqb mode USE64 && (regsize mode (x_base m) =? 4)) /\
  n_B n = (7 <? eb mode m) && (eb mode m <? 16) /\ n_X n = (7 <? ei d m) && (ei d m <? 16) /\ n_RR n = has EVEX_VSIB (d_evex d) && (15 <? regno (src_idx m)) /\
  n_rex n = Z.lor (if n_B n && match d_vex d with [] => true | _ => false end then 0x41 else 0) (if n_X n && match d_vex d with [] => true | _ => false end then 0x42 else 0).
Proof.
  intros H16 H. destruct (mr_mem _ _ _ _ _ M) as [i Hi]. pose proof (mr_mode _ _ _ _ _ M) as Hm. fold mode in Hm.
  unfold BuildMemoryEncoding in H. rewrite Hi in H. cbn [negb andb] in H. fold mode in H.
  destruct (size_error mode m) eqn:SE.
  { exfalso. unfold size_error in SE. destruct (has VEX_VSIB (d_vex d) && simd (x_base m)); rewrite SE in H; discriminate. }
  split; [reflexivity|].
  rewrite (swap_eq SE) in H. rewrite (idx_num H16 SE) in H.
  pose proof SE as SE'. unfold size_error in SE'. rewrite SE' in H.
  assert (B2 : regsize mode (x_base m) =? 2 = false).
  { apply Z.eqb_neq. intros E. destruct (regsize2 _ Hm E) as [k Ek]. unfold is16 in H16. rewrite Ek in H16. discriminate. }
  rewrite B2 in H. rewrite andb_false_r in H. 
  destruct (((7 <? ei d m) || (7 <? regno (src_base m))) && negb (ofs_eqb mode USE64) && (ei d m <? 16) && (regno (src_base m) <? 16)); [discriminate|].
  assert (Sym : (match x_sym m with Some _ => x_addr m | None => false end) = match x_sym m with Some _ => true | None => false end).
  { destruct (x_sym m) eqn:Es; [|reflexivity]. apply (mk_sym _ _ _ _ O). congruence. }
  rewrite Sym in H.
  assert (Ebq : (if match x_sym m with Some _ => true | None => false end && ofs_eqb mode USE64 && negb (match x_sym m with Some st => st | None => false end) && (regno (src_base m) =? 17) then 16 else regno (src_base m)) = eb mode m).
  { destruct (eb_range H16 SE) as [(k & E1 & R & _ & K) | [(E1 & Em & [(k & E2) | [E2 L]]) | (E1 & E2 & L)]].
    - rewrite E1. cbn [regno]. assert (N : match k with KIP => 16 | _ => eb mode m end = eb mode m) by (destruct K as [-> | ->]; reflexivity). rewrite N. destruct (Z.eqb_spec (eb mode m) 17); [lia|]. rewrite andb_false_r. reflexivity.
    - rewrite E2. cbn [regno Z.eqb]. rewrite andb_false_r. lia.
    - rewrite E1, E2, Em. unfold label in L. destruct (x_sym m) as [[|]|]; try discriminate. reflexivity.
    - rewrite E2, E1. cbn [regno]. unfold label in L. destruct (ofs_eqb mode USE64) eqn:Eo.
      + assert (Em : mode = USE64) by (destruct mode; cbn in Eo; congruence). specialize (L Em). destruct (x_sym m) as [[|]|]; try discriminate; reflexivity.
      + rewrite andb_false_r. reflexivity. }
  rewrite Ebq in H.
  assert (T : tab mode (eb mode m) (ei d m) = tabf mode (eb mode m) (ei d m)).
  { apply tab_eq.
    - intros Em. destruct (eb_range H16 SE) as [(k & E1 & R & _) | [(E1 & _) | (E1 & _)]]; lia.
    - intros Em. destruct (eb_range H16 SE) as [(k & E1 & R & R2 & _) | [(E1 & E2 & _) | (E1 & _)]]; [left; specialize (R2 Em); lia|congruence|right; exact E1].
    - destruct (ei_range H16 SE) as [A | [A _]]; auto. }
  rewrite andb_false_r in H. rewrite T in H. destruct (tabf mode (eb mode m) (ei d m)) as [[tm tf] ts] eqn:Et. exists tm, tf, ts. split; [reflexivity|].
  cbn [negb andb orb] in H. destruct (Z.testbit tf 4) eqn:F4; [discriminate|]. split; [reflexivity|]. cbv zeta.
  destruct (CompDisp (swrap 32 (x_value m)) d c broad) as [ok v] eqn:CD.
  assert (D4 : (match mode with USE16 => 2%nat | _ => 4%nat end) = 4%nat) by (destruct Hm as [-> | ->]; reflexivity). rewrite D4 in H.
  assert (Lb : (match x_sym m with Some st => negb st | None => false end) = label m) by reflexivity. rewrite Lb in H.
  assert (Sb : (1 <? x_scale m) || match x_idx m with Some _ => true | None => false end || Z.testbit tf 1 = Z.testbit tf 1).
  { destruct (Z.testbit tf 1) eqn:F1; [apply orb_true_r|]. rewrite orb_false_r.
    assert (E17 : ei d m = 17).
    { destruct (ei_range H16 SE) as [[A _] | [A _]]; [exfalso|exact A]. unfold tabf in Et. destruct (eb mode m <? 16).
      - destruct (ei d m <? 16) eqn:L; [|lia]. assert (tf = 3 \/ tf = 7) by (destruct (eb mode m mod 8 =? 5); inversion Et; auto). destruct H0; subst tf; discriminate.
      - destruct (eb mode m =? 16).
        + destruct (ei d m <? 16) eqn:L; [|lia]. inversion Et. subst tf. discriminate.
        + destruct (ei d m <? 16) eqn:L; [|lia]. inversion Et. subst tf. discriminate. }
    destruct (ei_range H16 SE) as [[A _] | [_ A]]; [lia|]. pose proof (mk_noidx _ _ _ _ O A) as Sc.
    assert (Xi : x_idx m = None).
    { unfold src_idx in A. destruct (simd (x_base m)) eqn:Sx; [|exact A]. destruct (no_swap SE Sx) as (A1 & _). exact A1. }
    rewrite Xi. destruct (Z.ltb_spec 1 (x_scale m)); [lia|reflexivity]. }
  rewrite Sb in H.
  assert (Aso : ofs_eqb mode USE16 && (regsize mode (x_base m) =? 4) = false) by (destruct Hm as [-> | ->]; reflexivity).
  rewrite Aso, !orb_false_r in H.
  destruct (negb (swrap 32 (x_value m) =? 0) || Z.testbit tf 2 || Z.testbit tf 3 || label m) eqn:Dc.
  - destruct (ok && negb (label m) && negb (Z.testbit tf 3) && (-128 <=? v) && (v <=? 127)) eqn:D1; inversion H; subst n;
      cbn [n_modrm n_dsize n_disp n_needmod n_needsib n_sib n_aso n_B n_X n_RR n_rex fst snd]; change (64 * 1) with 0x40; change (64 * 2) with 0x80; change (64 * 0) with 0.
    + repeat split; try reflexivity; try (rewrite orb_diag; reflexivity). intros F1. rewrite orb_diag in F1. rewrite F1. reflexivity.
    + repeat split; try reflexivity; try (rewrite orb_diag; reflexivity).
      * destruct (Z.testbit tf 3); [rewrite Z.mul_0_r, Z.lor_0_r|]; reflexivity.
      * intros F1. rewrite orb_diag in F1. rewrite F1. reflexivity.
  - inversion H; subst n; cbn [n_modrm n_dsize n_disp n_needmod n_needsib n_sib n_aso n_B n_X n_RR n_rex fst snd].
    repeat split; try reflexivity; try (rewrite orb_diag; reflexivity).
    + rewrite Z.mul_0_r, Z.lor_0_r. reflexivity.
    + intros F1. rewrite orb_diag in F1. rewrite F1. reflexivity.
Qed.

Lemma asize_eq broad n : is16 m = false -> BuildMemoryEncoding d m c broad = Ok n -> addrbits mode (n_aso n) = src_asize mode m /\ src_asize mode m <> 16.
Proof.
  intros H16 H. destruct (mem_fields broad n H16 H) as (SE & tm & tf & ts & Et & F4 & K). cbv zeta in K. destruct (CompDisp (swrap 32 (x_value m)) d c broad) as [ok v].
  destruct K as (_ & _ & _ & _ & _ & _ & Aso & _). rewrite Aso. clear Aso tm tf ts Et F4 ok v.
  pose proof (mk_a32 _ _ _ _ O) as A32. fold mode in A32.
  assert (X : src_asize mode m = match src_base m with Some (k, _) => kbits k | None => match src_idx m with Some (k, _) => if simd (Some (k, 0)) then bits mode else kbits k | None => bits mode end end) by reflexivity.
  rewrite X in *. clear X.
  destruct (mr_mode _ _ _ _ _ M) as [Em | Em]; fold mode in Em.
  - (* 32-bit code *)
    assert (R : addrbits mode (negb (match x_sym m with Some _ => true | None => false end) && (ofs_eqb mode USE64 && (regsize mode (x_base m) =? 4))) = 32) by (rewrite Em; cbn [ofs_eqb andb]; rewrite andb_false_r; reflexivity).
    rewrite R. clear R.
    destruct (src_base m) as [[k b]|] eqn:Eb.
    + destruct (base_cases H16 SE _ _ Eb) as (_ & _ & [(-> & _) | [(-> & _ & U) | (-> & U)]]); [cbn; lia|congruence|congruence].
    + destruct (src_idx m) as [[k x]|] eqn:Ex; [|rewrite Em; cbn; lia].
      destruct (idx_cases H16 SE _ _ Ex) as (_ & U & _ & K). pose proof (mk_idx _ _ _ _ O _ Ex) as I. fold mode in I.
      destruct vec_cases as [[k' Ev] | Ev]; rewrite Ev in K, I.
      * subst k'. pose proof (mr_vec _ _ _ _ _ M) as V. rewrite Ev in V. destruct V as [V | [V | [V | V]]]; inversion V; rewrite Em; cbn; lia.
      * destruct K as ([-> | ->] & _); [cbn; lia|]. destruct I as ((_ & I) & _). congruence.
  - rewrite Em in A32 |- *. cbn [ofs_eqb andb].
    destruct (src_base m) as [[k b]|] eqn:Eb.
    + destruct (base_cases H16 SE _ _ Eb) as (Xb & _ & K). rewrite Xb in *. destruct K as [(-> & _) | [(-> & _ & U) | (-> & U)]]; cbn [kbits regsize Z.eqb].
      * destruct (A32 eq_refl eq_refl) as [_ Sy]. rewrite Sy. cbn. lia.
      * rewrite andb_false_r. cbn. lia.
      * rewrite andb_false_r. cbn. lia.
    + assert (Bs : regsize USE64 (x_base m) =? 4 = false).
      { unfold src_base in Eb. destruct (simd (x_base m)) eqn:Sb; [|rewrite Eb; reflexivity]. destruct (x_base m) as [[k b]|]; [|discriminate]. destruct k; try discriminate; reflexivity. }
      rewrite Bs, andb_false_r.
      destruct (src_idx m) as [[k x]|] eqn:Ex; [|cbn; lia].
      destruct (idx_cases H16 SE _ _ Ex) as (_ & U & _ & K).
      destruct vec_cases as [[k' Ev] | Ev]; rewrite Ev in K.
      * subst k'. pose proof (mr_vec _ _ _ _ _ M) as V. rewrite Ev in V. destruct V as [V | [V | [V | V]]]; inversion V; cbn; lia.
      * destruct K as ([-> | ->] & _ & Xi); [|cbn; lia]. destruct (A32 eq_refl eq_refl) as [Bn _]. exfalso. unfold src_base in Eb.
        destruct (simd (x_base m)) eqn:Sb; [|congruence]. destruct (no_swap SE Sb) as (_ & _ & _ & V). congruence.
Qed.

Definition vecb : bool := match vec with Some _ => true | None => false end.
Definition src_index : option (Z * Z) := match src_idx m with Some r => Some (snd r, src_scale m) | None => None end.
(** the processor's reading of the fields, for the five shapes of the tables *)
Lemma shape_eq b2 x2 tm tf ts md h (dz : nat) : is16 m = false -> size_error mode m = false -> b2 = eb mode m -> x2 = ei d m -> tabf mode b2 x2 = (tm, tf, ts) -> Z.testbit tf 4 = false ->
  0 <= md < 3 -> (Z.testbit tf 3 = true -> md = 0 /\ dz = 4%nat) -> (Z.testbit tf 3 = false -> (md = 0 -> Z.testbit tf 2 = false /\ dz = 0%nat) /\ (md = 1 -> dz = 1%nat) /\ (md = 2 -> dz = 4%nat)) ->
  (b2 < 16 -> h_b h = (7 <? b2)) ->
  (Z.testbit tf 1 = true -> match src_idx m with None => h_x h = false | Some r => h_x h = bt (snd r) 3 /\ (vecb = true -> h_v2 h = bt (snd r) 4) end) ->
  0 <= tm < 8 /\ 0 <= ts < 64 /\ Z.testbit tf 0 = true /\ Z.testbit tf 1 = (tm =? 4) /\ (vecb = true -> tm = 4) /\
  forall sib, (tm = 4 -> sib / 64 = scbits /\ (sib / 8) mod 8 = ts / 8 /\ sib mod 8 = ts mod 8) ->
  (if vecb then shapev md (e8 (h_x h) + e16 (h_v2 h)) (e8 (h_b h)) sib else shape32 mode md tm (e8 (h_x h)) (e8 (h_b h)) sib) = (src_abase mode m, src_index, dz).
Proof.
  intros H16 SE Eb Ex Et F4 Hmd Hf Hn Hb Hx.
  pose proof scbits_range as [Sc1 Sc2].
  assert (Ix : match src_idx m with
               | None => x2 = 17 /\ vecb = false
               | Some r => 0 <= x2 < 16 /\ x2 mod 8 = snd r mod 8 /\ 0 <= snd r < 32 /\ (vecb = false -> snd r < 16 /\ snd r <> 4)
               end).
  { destruct (src_idx m) as [[k n]|] eqn:E.
    - destruct (idx_cases H16 SE _ _ E) as (R & U & V & K). destruct (ei_range H16 SE) as [[A _] | [_ A]]; [|congruence]. subst x2. cbn [snd]. repeat split; try lia.
      + unfold ei. rewrite E. cbn [snd]. destruct (has EVEX_VSIB (d_evex d) && (15 <? n)); [|reflexivity]. pose proof (land7 n R) as [_ L]. rewrite L. apply Zmod_mod.
      + unfold vecb in H. destruct vec_cases as [[k' Ev] | Ev]; rewrite Ev in H; [discriminate|]. apply V. apply (mr_nvsib _ _ _ _ _ M Ev).
      + unfold vecb in H. destruct vec_cases as [[k' Ev] | Ev]; rewrite Ev in H, K; [discriminate|]. tauto.
    - split; [subst x2; unfold ei; rewrite E; reflexivity|]. unfold vecb. destruct vec_cases as [[k' Ev] | Ev]; [|rewrite Ev; reflexivity]. exfalso. apply (mk_vec _ _ _ _ O); [rewrite Ev; discriminate|exact E]. }
  assert (Ixd : forall n, 0 <= n < 32 -> n mod 8 + (e8 (bt n 3) + e16 (bt n 4)) = n).
  { intros n R. pose proof (num3 n R). pose proof (land7 n R). lia. }
  assert (Ixd2 : forall n, 0 <= n < 16 -> n mod 8 + e8 (bt n 3) = n).
  { intros n R. pose proof (Ixd n ltac:(lia)) as Q. rewrite (bt4_lt n R) in Q. cbn [e16] in Q. lia. }
  assert (Bd : forall b, 0 <= b < 16 -> b mod 8 + e8 (7 <? b) = b).
  { intros b R. rewrite <- (bt3_ge b R). apply Ixd2; exact R. }
  destruct (eb_range H16 SE) as [(k & E1 & R & _ & K) | [(E1 & Em & Lb) | (E1 & E2 & L)]]; rewrite <- Eb in *.
  - (* base register *)
    assert (Sab : src_abase mode m = BReg b2) by (unfold src_abase; rewrite E1; destruct K as [-> | ->]; reflexivity).
    unfold tabf in Et. destruct (Z.ltb_spec b2 16) as [L1|]; [|lia].
    specialize (Hb L1). unfold src_index. destruct (src_idx m) as [[kx n]|] eqn:E.
    + (* and index *)
      cbn [snd] in *. destruct Ix as (A1 & A2 & A3 & A4). destruct (Z.ltb_spec x2 16) as [L2|]; [|lia].
      assert (Q : tm = 4 /\ ts = 8 * (x2 mod 8) + b2 mod 8 /\ tf = if b2 mod 8 =? 5 then 7 else 3) by (inversion Et; auto). destruct Q as (-> & -> & ->).
      assert (F1 : Z.testbit (if b2 mod 8 =? 5 then 7 else 3) 1 = true) by (destruct (b2 mod 8 =? 5); reflexivity). specialize (Hx F1).
      assert (F3 : Z.testbit (if b2 mod 8 =? 5 then 7 else 3) 3 = false) by (destruct (b2 mod 8 =? 5); reflexivity). specialize (Hn F3).
      split; [lia|]. split; [lia|]. split; [destruct (b2 mod 8 =? 5); reflexivity|]. split; [exact F1|]. split; [reflexivity|].
      intros sib Hs. destruct (Hs eq_refl) as (S1 & S2 & S3). assert (T1 : (8 * (x2 mod 8) + b2 mod 8) / 8 = n mod 8) by lia. assert (T2 : (8 * (x2 mod 8) + b2 mod 8) mod 8 = b2 mod 8) by lia.
      rewrite T1 in S2. rewrite T2 in S3. destruct Hx as [Hx1 Hx2]. rewrite Sab.
      assert (G : (b2 mod 8 =? 5) && (md =? 0) = false).
      { destruct (Z.eqb_spec (b2 mod 8) 5) as [Q|]; [|reflexivity]. destruct (Z.eqb_spec md 0) as [Q2|]; [|reflexivity]. destruct (proj1 Hn Q2) as [Q3 _]. discriminate. }
      assert (Dz : (if md =? 0 then 0%nat else if md =? 1 then 1%nat else 4%nat) = dz).
      { destruct (Z.eqb_spec md 0) as [Q|]; [symmetry; apply (proj1 Hn Q)|]. destruct (Z.eqb_spec md 1) as [Q|]; [symmetry; apply (proj1 (proj2 Hn) Q)|]. symmetry. apply (proj2 (proj2 Hn)). lia. }
      destruct vecb eqn:Vb.
      * unfold shapev. rewrite S1, S2, S3, Sc2, G, Dz, Hx1, (Hx2 eq_refl), (Ixd n A3), Hb, (Bd b2 R). reflexivity.
      * destruct (A4 eq_refl) as [A5 A6]. unfold shape32. cbn [Z.eqb]. change (4 =? 4) with true. cbv iota. rewrite S1, S2, S3, Sc2, G, Dz, Hx1, (Ixd2 n ltac:(lia)), Hb, (Bd b2 R).
        destruct (Z.eqb_spec n 4); [lia|]. reflexivity.
    + destruct Ix as [-> Vb]. rewrite Vb in *. destruct (Z.ltb_spec 17 16); [lia|]. clear H.
      assert (Dz : Z.testbit tf 3 = false -> (if md =? 0 then 0%nat else if md =? 1 then 1%nat else 4%nat) = dz).
      { intros F3. specialize (Hn F3). destruct (Z.eqb_spec md 0) as [Q|]; [symmetry; apply (proj1 Hn Q)|]. destruct (Z.eqb_spec md 1) as [Q|]; [symmetry; apply (proj1 (proj2 Hn) Q)|]. symmetry. apply (proj2 (proj2 Hn)). lia. }
      destruct (Z.eqb_spec (b2 mod 8) 4) as [B4|B4].
      * assert (Q : tm = 4 /\ ts = 0x24 /\ tf = 3) by (inversion Et; auto). destruct Q as (-> & -> & ->). specialize (Hx eq_refl).
        repeat split; try lia; try reflexivity. intros sib Hs. destruct (Hs eq_refl) as (S1 & S2 & S3). change (0x24 / 8) with 4 in S2. change (0x24 mod 8) with 4 in S3.
        unfold shape32. change (4 =? 4) with true. cbv iota. rewrite S2, S3, Hx, (Dz eq_refl), Sab. cbn [e8]. change (4 =? 5) with false. change (4 + 0 =? 4) with true. cbn [andb]. rewrite Hb, <- B4, (Bd b2 R). reflexivity.
      * assert (Q : tm = b2 mod 8 /\ ts = 0 /\ tf = if b2 mod 8 =? 5 then 5 else 1) by (inversion Et; auto). destruct Q as (-> & -> & ->).
        assert (F3 : Z.testbit (if b2 mod 8 =? 5 then 5 else 1) 3 = false) by (destruct (b2 mod 8 =? 5); reflexivity).
        split; [lia|]. split; [lia|]. split; [destruct (b2 mod 8 =? 5); reflexivity|]. split; [destruct (Z.eqb_spec (b2 mod 8) 5) as [Q|]; [rewrite Q; reflexivity|destruct (Z.eqb_spec (b2 mod 8) 4); [lia|reflexivity]]|]. split; [discriminate|].
        intros sib _. unfold shape32. destruct (Z.eqb_spec (b2 mod 8) 4); [lia|]. rewrite (Dz F3), Sab, Hb, (Bd b2 R).
        destruct (Z.eqb_spec (b2 mod 8) 5) as [Q5|]; [|reflexivity]. destruct (Z.eqb_spec md 0) as [Q|]; [|reflexivity]. exfalso. specialize (Hn F3). destruct (proj1 Hn Q) as [Q2 _]. try rewrite Q5 in Q2. discriminate.
  - (* relative to RIP *)
    unfold tabf in Et. rewrite E1 in Et. change (16 <? 16) with false in Et. change (16 =? 16) with true in Et. cbv iota in Et.
    destruct (Z.ltb_spec x2 16); [inversion Et; subst tf; discriminate|].
    assert (Q : tm = 5 /\ ts = 0 /\ tf = 9) by (inversion Et; auto). destruct Q as (-> & -> & ->).
    destruct (Hf eq_refl) as [-> ->].
    assert (Xn : src_idx m = None) by (destruct (src_idx m); [lia|reflexivity]). rewrite Xn in Ix. destruct Ix as [_ Vb]. rewrite Vb.
    repeat split; try lia; try reflexivity; try discriminate. intros sib _. unfold shape32, src_index. rewrite Xn. change (5 =? 4) with false. change ((5 =? 5) && (0 =? 0)) with true. cbv iota. rewrite Em.
    unfold src_abase. destruct Lb as [[n ->] | [-> ->]]; [reflexivity|]. rewrite Xn. reflexivity.
  - (* no base *)
    unfold tabf in Et. rewrite E1 in Et. change (17 <? 16) with false in Et. change (17 =? 16) with false in Et. cbv iota in Et.
    assert (Sab : src_abase mode m = BNone).
    { unfold src_abase. rewrite E2. destruct mode; try reflexivity. destruct (src_idx m); [reflexivity|]. rewrite (L eq_refl). reflexivity. }
    rewrite Sab. unfold src_index. destruct (src_idx m) as [[kx n]|] eqn:E.
    + cbn [snd] in *. destruct Ix as (A1 & A2 & A3 & A4). destruct (Z.ltb_spec x2 16) as [L2|]; [|lia].
      assert (Q : tm = 4 /\ ts = 8 * (x2 mod 8) + 5 /\ tf = 11) by (inversion Et; auto). destruct Q as (-> & -> & ->).
      specialize (Hx eq_refl). destruct (Hf eq_refl) as [-> ->].
      split; [lia|]. split; [lia|]. split; [reflexivity|]. split; [reflexivity|]. split; [reflexivity|].
      intros sib Hs. destruct (Hs eq_refl) as (S1 & S2 & S3). assert (T1 : (8 * (x2 mod 8) + 5) / 8 = n mod 8) by lia. assert (T2 : (8 * (x2 mod 8) + 5) mod 8 = 5) by lia.
      rewrite T1 in S2. rewrite T2 in S3. destruct Hx as [Hx1 Hx2].
      destruct vecb eqn:Vb.
      * unfold shapev. rewrite S1, S2, S3, Sc2, Hx1, (Hx2 eq_refl), (Ixd n A3). reflexivity.
      * destruct (A4 eq_refl) as [A5 A6]. unfold shape32. change (4 =? 4) with true. cbv iota. rewrite S1, S2, S3, Sc2, Hx1, (Ixd2 n ltac:(lia)).
        destruct (Z.eqb_spec n 4); [lia|]. reflexivity.
    + destruct Ix as [-> Vb]. rewrite Vb in *. destruct (Z.ltb_spec 17 16); [lia|].
      destruct (mr_mode _ _ _ _ _ M) as [Em | Em]; fold mode in Em; rewrite Em in *.
      * assert (Q : tm = 5 /\ ts = 0 /\ tf = 9) by (inversion Et; auto). destruct Q as (-> & -> & ->). destruct (Hf eq_refl) as [-> ->].
        repeat split; try lia; try reflexivity; try discriminate.
      * assert (Q : tm = 4 /\ ts = 0x25 /\ tf = 11) by (inversion Et; auto). destruct Q as (-> & -> & ->). destruct (Hf eq_refl) as [-> ->]. specialize (Hx eq_refl).
        repeat split; try lia; try reflexivity. intros sib Hs. destruct (Hs eq_refl) as (S1 & S2 & S3). change (0x25 / 8) with 4 in S2. change (0x25 mod 8) with 5 in S3.
        unfold shape32. change (4 =? 4) with true. cbv iota. rewrite S2, S3, Hx. reflexivity.
Qed.

(** ** Decoding, with any bytes as displacement *)
Definition h_mem (n : menc) (h : head) : Prop :=
  (eb mode m < 16 -> h_b h = (7 <? eb mode m)) /\
  (n_needsib n = true -> match src_idx m with None => h_x h = false | Some r => h_x h = bt (snd r) 3 /\ (vecb = true -> h_v2 h = bt (snd r) 4) end).
Definition modrm_bytes (n : menc) (rg : Z) : list Z := Z.lor (n_modrm n) (Z.shiftl rg 3) :: (if n_needsib n then [n_sib n] else []).
Definition the_ea (p : pfx) (n : menc) (D : list Z) (N : Z) : ea :=
  {| a_size := src_asize mode m; a_base := src_abase mode m; a_index := src_index; a_disp := sext (n_dsize n) (le_val D) * (if Nat.eqb (n_dsize n) 1 then N else 1);
     a_seg := match qseg p with Some s => s | None => cpu_seg (src_abase mode m) end |}.
Lemma firstn_len {A} (D R : list A) k : length D = k -> firstn k (D ++ R) = D.
Proof. intros <-. rewrite firstn_app, Nat.sub_diag, firstn_all. apply app_nil_r. Qed.
Lemma skipn_len {A} (D R : list A) k : length D = k -> skipn k (D ++ R) = R.
Proof. intros <-. rewrite skipn_app, Nat.sub_diag, skipn_all. reflexivity. Qed.
Lemma zlen_le {A} (D R : list A) k : length D = k -> Z.of_nat k <=? zlen (D ++ R) = true.
Proof. intros <-. apply Z.leb_le. rewrite zlen_app. unfold zlen. lia. Qed.
Lemma mem_decode32 broad n p h rg D rest N : is16 m = false -> BuildMemoryEncoding d m c broad = Ok n -> q67 p = n_aso n -> 0 <= rg < 8 -> length D = n_dsize n -> h_mem n h ->
  n_needmod n = true /\ dec_rm mode p h vecb N (modrm_bytes n rg ++ D ++ rest) = Some (rg, RmMem (the_ea p n D N), rest).
Proof.
  intros H16 H Hp Hr HD [Hb Hx]. pose proof (asize_eq broad n H16 H) as [As A16]. destruct (mem_fields broad n H16 H) as (SE & tm & tf & ts & Et & F4 & K). cbv zeta in K.
  destruct (CompDisp (swrap 32 (x_value m)) d c broad) as [ok v].
  set (dd := if negb (swrap 32 (x_value m) =? 0) || Z.testbit tf 2 || Z.testbit tf 3 || label m then
               if ok && negb (label m) && negb (Z.testbit tf 3) && (-128 <=? v) && (v <=? 127) then (1%nat, v, 1) else (4%nat, v, if Z.testbit tf 3 then 0 else 2) else (0%nat, 0, 0)) in K.
  destruct K as (K1 & K2 & K3 & K4 & K5 & K6 & _).
  assert (Sh : 0 <= snd dd < 3 /\ (Z.testbit tf 3 = true -> snd dd = 0 /\ fst (fst dd) = 4%nat) /\
               (Z.testbit tf 3 = false -> (snd dd = 0 -> Z.testbit tf 2 = false /\ fst (fst dd) = 0%nat) /\ (snd dd = 1 -> fst (fst dd) = 1%nat) /\ (snd dd = 2 -> fst (fst dd) = 4%nat))).
  { subst dd. destruct (negb (swrap 32 (x_value m) =? 0)), (Z.testbit tf 2) eqn:F2, (Z.testbit tf 3) eqn:F3, (label m), ok, (-128 <=? v), (v <=? 127); cbn; repeat split; intros; try lia; try discriminate; reflexivity. }
  destruct Sh as (Sh1 & Sh2 & Sh3).
  destruct (shape_eq _ _ tm tf ts (snd dd) h (fst (fst dd)) H16 SE eq_refl eq_refl Et F4 Sh1 Sh2 Sh3 Hb) as (Tm & Ts & F0 & F1 & Vm & Q).
  { rewrite <- K5. exact Hx. }
  rewrite F0 in K1, K4. split; [exact K4|]. rewrite F1 in K5. rewrite <- K2 in Q.
  destruct (modrm_mem tm (snd dd) rg Tm Sh1 Hr) as (B1 & B2 & B3). rewrite <- K1 in B1, B2, B3.
  unfold modrm_bytes. cbn [app]. unfold dec_rm. rewrite B1, B2, B3. destruct (Z.eqb_spec (snd dd) 3); [lia|].
  rewrite Hp, As. destruct (Z.eqb_spec (src_asize mode m) 16); [contradiction|]. unfold has_sib. destruct (Z.eqb_spec (src_asize mode m) 16); [contradiction|]. cbn [negb andb orb].
  rewrite K5. destruct (Z.eqb_spec tm 4) as [T4 | T4].
  - cbn [app]. rewrite K6 by (rewrite K5; reflexivity). rewrite andb_false_r.
    pose proof scbits_range as [Sc1 Sc2]. pose proof (sib_fields ts scbits Ts Sc1) as Sf. cbv zeta in Sf.
    rewrite (Q _ (fun _ => Sf)). rewrite (zlen_le D rest _ HD), (firstn_len D rest _ HD), (skipn_len D rest _ HD). reflexivity.
  - cbn [app negb]. destruct vecb eqn:Vb; [specialize (Vm eq_refl); contradiction|]. cbn [andb].
    rewrite (Q 0) by (intros; contradiction). rewrite (zlen_le D rest _ HD), (firstn_len D rest _ HD), (skipn_len D rest _ HD). reflexivity.
Qed.

(** ** 16-bit addresses in 32-bit code *)
Lemma mem_fields16 broad n : is16 m = true -> BuildMemoryEncoding d m c broad = Ok n ->
  mode = USE32 /\ vec = None /\ n_needmod n = true /\ n_needsib n = false /\ n_aso n = true /\ n_B n = false /\ n_X n = false /\ n_rex n = 0 /\ n_RR n = false /\
  (n_dsize n = 0%nat /\ n_disp n = 0 /\ n_modrm n = modrm16 m /\ swrap 32 (x_value m) = 0 \/
   exists ok v, CompDisp (swrap 32 (x_value m)) d c broad = (ok, v) /\ swrap 32 (x_value m) <> 0 /\ n_disp n = v /\
     (ok = true /\ -128 <= v <= 127 /\ n_dsize n = 1%nat /\ n_modrm n = Z.lor (modrm16 m) 0x40 \/ ((ok = false \/ ~ -128 <= v <= 127) /\ n_dsize n = 4%nat))).
Proof.
  intros H16 H. destruct (mr_mem _ _ _ _ _ M) as [i Hi].
  unfold is16 in H16. destruct (x_base m) as [[[] b]|] eqn:Eb; try discriminate. clear H16.
  assert (Em : mode = USE32).
  { pose proof (mk_base _ _ _ _ O (K16, b)) as B. unfold src_base in B. rewrite Eb in B. cbn [simd] in B. destruct (B eq_refl) as [_ B2]. exact B2. }
  destruct (mk_a16 _ _ _ _ O b Eb) as (Ev & Sy & Rv & _ & Sc & Xi).
  assert (Bn : b = 3 \/ b = 5 \/ b = 6 \/ b = 7).
  { pose proof (mk_base _ _ _ _ O (K16, b)) as B. unfold src_base in B. rewrite Eb in B. cbn [simd] in B. destruct (B eq_refl) as [B2 _]. exact B2. }
  split; [exact Em|]. split; [exact Ev|].
  unfold BuildMemoryEncoding in H. rewrite Hi, Eb in H. cbn [negb andb simd] in H. rewrite andb_false_r in H. rewrite (mr_nvsib _ _ _ _ _ M Ev) in H.
  cbn [andb] in H. fold mode in H. rewrite Em, Sy in H. remember (regsize USE32 (x_idx m)) as si eqn:Esi. cbn [regno regsize ofs_eqb andb orb negb] in H.
  change (2 =? 2) with true in H. cbn [andb orb negb] in H.
  assert (Ok1 : negb (2 =? si) && (si <? 16) && (0 <? si) && (0 <? 2) = false).
  { subst si. destruct (x_idx m) as [[k x]|]; [destruct Xi as [-> _]|]; reflexivity. }
  rewrite Ok1 in H.
  assert (Ok2 : ((7 <? regno (x_idx m)) || (7 <? b)) && true && (regno (x_idx m) <? 16) && (b <? 16) = false).
  { destruct (x_idx m) as [[k x]|].
    - destruct Xi as (-> & _ & Xi). cbn [regno]. destruct (Z.ltb_spec 7 x); [lia|]. destruct (Z.ltb_spec 7 b); [lia|]. reflexivity.
    - cbn [regno]. rewrite andb_false_r. reflexivity. }
  rewrite Ok2 in H.
  assert (T0 : tab USE32 0 0 = (4, 3, 0)) by (rewrite tab32 by lia; reflexivity). rewrite T0 in H.
  change (Z.testbit 3 2) with false in H. change (Z.testbit 3 3) with false in H. cbn [orb] in H. rewrite ?orb_false_r in H.
  assert (BX : ((7 <? b) && (b <? 16) = false) /\ ((7 <? regno (x_idx m)) && (regno (x_idx m) <? 16) = false)).
  { split; [lia|]. destruct (x_idx m) as [[k x]|]; [|reflexivity]. destruct Xi as (-> & _ & Xi). cbn [regno]. lia. }
  destruct BX as [BX1 BX2]. rewrite BX1, BX2 in H.
  destruct (Z.eqb_spec (swrap 32 (x_value m)) 0) as [V0 | V0]; cbn [negb] in H.
  - inversion H; subst n; cbn [n_modrm n_dsize n_disp n_needmod n_needsib n_sib n_aso n_B n_X n_RR n_rex]. repeat split; try reflexivity. left. auto.
  - destruct (CompDisp (swrap 32 (x_value m)) d c broad) as [ok v] eqn:CD.
    destruct ok; cbn [andb] in H.
    + destruct (Z.leb_spec (-128) v); destruct (Z.leb_spec v 127); cbn [andb] in H; inversion H; subst n; cbn [n_modrm n_dsize n_disp n_needmod n_needsib n_sib n_aso n_B n_X n_RR n_rex];
        repeat split; try reflexivity; right; exists true, v; repeat split; auto; try (right; split; [right; lia|reflexivity]).
    + inversion H; subst n; cbn [n_modrm n_dsize n_disp n_needmod n_needsib n_sib n_aso n_B n_X n_RR n_rex]. repeat split; try reflexivity. right. exists false, v. repeat split; auto.
Qed.

(** ** The displacement *)
Lemma sext4 k : sext 4 (le_val (le_bytes 4 k)) = swrap 32 k.
Proof. rewrite le_val_le_bytes. unfold sext. change (8 * Z.of_nat 4) with 32. pose proof (swrap_mod 32 (k mod 2 ^ 32) ltac:(lia)). pose proof (swrap_mod 32 k ltac:(lia)).
  pose proof (swrap_range 32 (k mod 2 ^ 32) ltac:(lia)). pose proof (swrap_range 32 k ltac:(lia)). rewrite Zmod_mod in H. change (32 - 1) with 31 in *. change (2 ^ 32) with 4294967296 in *. change (2 ^ 31) with 2147483648 in *. lia.
Qed.
Lemma sext1 v : -128 <= v <= 127 -> sext 1 (le_val (le_bytes 1 v)) = v.
Proof. intros R. rewrite le_val_le_bytes. unfold sext. change (8 * Z.of_nat 1) with 8. pose proof (swrap_mod 8 (v mod 2 ^ 8) ltac:(lia)). pose proof (swrap_range 8 (v mod 2 ^ 8) ltac:(lia)).
  rewrite Zmod_mod in H. change (8 - 1) with 7 in *. change (2 ^ 8) with 256 in *. change (2 ^ 7) with 128 in *. lia.
Qed.
Lemma cong32 v a : (a = 32 \/ (a = 64 /\ - 2 ^ 31 <= v < 2 ^ 31)) -> (swrap 32 v - v) mod 2 ^ a = 0.
Proof.
  intros [-> | [-> R]].
  - pose proof (swrap_mod 32 v ltac:(lia)). change (2 ^ 32) with 4294967296 in *. lia.
  - rewrite swrap_small by (change (32 - 1) with 31; lia). rewrite Z.sub_diag. reflexivity.
Qed.
Lemma asize_cases : is16 m = false -> (exists broad n, BuildMemoryEncoding d m c broad = Ok n) -> src_asize mode m = 32 \/ (src_asize mode m = 64 /\ mode = USE64).
Proof.
  intros H16 (broad & n & H). destruct (asize_eq broad n H16 H) as [E _]. rewrite <- E. destruct (mr_mode _ _ _ _ _ M) as [Em | Em]; fold mode in Em; rewrite Em; destruct (n_aso n) eqn:A; cbn; auto.
  exfalso. destruct (mem_fields broad n H16 H) as (_ & tm & tf & ts & _ & _ & K). cbv zeta in K. destruct (CompDisp (swrap 32 (x_value m)) d c broad) as [ok v]. destruct K as (_ & _ & _ & _ & _ & _ & K & _). rewrite A, Em in K. cbn in K. rewrite andb_false_r in K. discriminate.
Qed.
Definition comp_n (broad : Z) : Z := Z.quot (d_size d) (if (broad =? 0) && has EVEX_BRD (d_evex d) then 1 else d_elem d).
Definition disp_ok (broad N : Z) : Prop :=
  (c_evex c = false /\ N = 1) \/ x_value m = 0 \/ (c_evex c = true /\ forced32 m = false /\ N = comp_n broad /\ 0 < N) \/ (c_evex c = false /\ ~ -128 <= swrap 32 (x_value m) <= 127).
Lemma tf3_forced broad n tm tf ts : is16 m = false -> BuildMemoryEncoding d m c broad = Ok n -> tabf mode (eb mode m) (ei d m) = (tm, tf, ts) -> Z.testbit tf 4 = false -> forced32 m = false -> Z.testbit tf 3 = false.
Proof.
  intros H16 H Et F4 Fo. destruct (mem_fields broad n H16 H) as (SE & _). unfold forced32 in Fo.
  destruct (eb_range H16 SE) as [(k & E1 & R & _ & K) | [(E1 & Em & [[k Lb] | [Lb _]]) | (E1 & E2 & L)]].
  - unfold tabf in Et. destruct (Z.ltb_spec (eb mode m) 16); [|lia]. destruct (ei d m <? 16); [destruct (eb mode m mod 8 =? 5); inversion Et; reflexivity|].
    destruct (eb mode m mod 8 =? 4); [inversion Et; reflexivity|]. destruct (eb mode m mod 8 =? 5); inversion Et; reflexivity.
  - rewrite Lb in Fo. destruct (label m); discriminate.
  - rewrite Lb in Fo. destruct (label m); discriminate.
  - rewrite E2 in Fo. destruct (label m); discriminate.
Qed.
Lemma CompDisp_evex v broad : c_evex c = true -> 0 < comp_n broad ->
  (exists w, CompDisp v d c broad = (true, w) /\ -128 <= w <= 127 /\ v = w * comp_n broad) \/ (CompDisp v d c broad = (false, v) /\ ~ (v mod comp_n broad = 0 /\ - (128 * comp_n broad) <= v <= 127 * comp_n broad)).
Proof.
  intros E N0. unfold CompDisp. fold (comp_n broad). rewrite E. set (n := comp_n broad) in *.
  assert (Rm : Z.rem v n = 0 <-> v mod n = 0) by (rewrite Z.rem_divide, Z.mod_divide by lia; reflexivity).
  destruct (Z.leb_spec (- (128 * n)) v); [|right; split; [reflexivity|lia]]. destruct (Z.leb_spec v (127 * n)); [|right; split; [reflexivity|lia]]. cbn [andb].
  destruct (Z.eqb_spec (Z.rem v n) 0) as [R | R]; [left|right; split; [reflexivity|tauto]].
  exists (Z.quot v n). split; [reflexivity|]. assert (Q : v = Z.quot v n * n) by (pose proof (Z.quot_rem' v n); lia). split; [|exact Q]. clear - H H0 Q N0. nia.
Qed.
Lemma CompDisp_zero broad : exists ok, CompDisp 0 d c broad = (ok, 0).
Proof.
  unfold CompDisp. destruct (c_evex c); [|eauto]. destruct (_ && _); [|eauto]. destruct (Z.rem 0 _ =? 0); [|eauto]. eexists. f_equal.
Qed.
Lemma swrap0 : swrap 32 0 = 0.
Proof. reflexivity. Qed.
Lemma disp_decode32 broad n N : is16 m = false -> BuildMemoryEncoding d m c broad = Ok n -> disp_ok broad N ->
  (sext (n_dsize n) (le_val (le_bytes (n_dsize n) (n_disp n))) * (if Nat.eqb (n_dsize n) 1 then N else 1) - x_value m) mod 2 ^ src_asize mode m = 0.
Proof.
  intros H16 H Dk. pose proof (asize_cases H16 (ex_intro _ broad (ex_intro _ n H))) as As.
  pose proof (mk_value _ _ _ _ O) as [_ V64]. fold mode in V64.
  assert (As' : src_asize mode m = 32 \/ (src_asize mode m = 64 /\ - 2 ^ 31 <= x_value m < 2 ^ 31)) by (destruct As as [A | [A B]]; [left; exact A|right; split; [exact A|exact (V64 B)]]).
  destruct (mem_fields broad n H16 H) as (SE & tm & tf & ts & Et & F4 & K). cbv zeta in K.
  destruct (CompDisp (swrap 32 (x_value m)) d c broad) as [ok v] eqn:CD.
  assert (C32 := cong32 (x_value m) _ As').
  assert (G : forall s k, n_dsize n = s -> n_disp n = k -> (s = 0%nat /\ swrap 32 (x_value m) = 0 \/ s = 4%nat /\ k = swrap 32 (x_value m) \/ s = 1%nat /\ -128 <= k <= 127 /\ k * N = swrap 32 (x_value m)) ->
    (sext (n_dsize n) (le_val (le_bytes (n_dsize n) (n_disp n))) * (if Nat.eqb (n_dsize n) 1 then N else 1) - x_value m) mod 2 ^ src_asize mode m = 0).
  { intros s k -> -> [[-> E] | [[-> ->] | (-> & R & E)]].
    - unfold sext. cbn [Nat.eqb]. rewrite E in C32. exact C32.
    - cbn [Nat.eqb]. rewrite sext4, Z.mul_1_r. rewrite (swrap_small 32 (swrap 32 (x_value m))) by (try lia; apply swrap_range; lia). exact C32.
    - cbn [Nat.eqb]. rewrite (sext1 k R), E. exact C32. }
  destruct K as (_ & K2 & K3 & _). apply (G _ _ K2 K3). clear G K2 K3 C32.
  destruct (negb (swrap 32 (x_value m) =? 0) || Z.testbit tf 2 || Z.testbit tf 3 || label m) eqn:Nz.
  2: { left. cbn [fst snd]. split; [reflexivity|]. destruct (Z.eqb_spec (swrap 32 (x_value m)) 0); [assumption|discriminate]. }
  right. destruct (ok && negb (label m) && negb (Z.testbit tf 3) && (-128 <=? v) && (v <=? 127)) eqn:Sm; cbn [fst snd].
  - (* one byte *)
    right. split; [reflexivity|]. repeat (apply andb_prop in Sm as [Sm ?]). split; [lia|]. subst ok.
    destruct Dk as [[E ->] | [E | [(E & Fo & -> & N0) | [E R]]]].
    + unfold CompDisp in CD. rewrite E in CD. inversion CD. lia.
    + rewrite E, swrap0 in *. destruct (CompDisp_zero broad) as [ok' CD']. rewrite CD in CD'. inversion CD'. reflexivity.
    + destruct (CompDisp_evex (swrap 32 (x_value m)) broad E N0) as [(w & CD' & Rw & Ew) | [CD' _]]; rewrite CD in CD'; inversion CD'. subst w. lia.
    + unfold CompDisp in CD. rewrite E in CD. inversion CD. subst v. lia.
  - left. split; [reflexivity|].
    destruct Dk as [[E ->] | [E | [(E & Fo & -> & N0) | [E R]]]].
    + unfold CompDisp in CD. rewrite E in CD. inversion CD. reflexivity.
    + rewrite E, swrap0 in *. destruct (CompDisp_zero broad) as [ok' CD']. rewrite CD in CD'. inversion CD'. reflexivity.
    + pose proof (tf3_forced broad n tm tf ts H16 H Et F4 Fo) as F3. assert (Lb : label m = false) by (unfold forced32 in Fo; destruct (label m); [discriminate|reflexivity]).
      destruct (CompDisp_evex (swrap 32 (x_value m)) broad E N0) as [(w & CD' & Rw & Ew) | [CD' _]]; rewrite CD in CD'; inversion CD'; [|reflexivity]. exfalso. subst ok w. rewrite F3, Lb in Sm. cbn [negb andb] in Sm. lia.
    + unfold CompDisp in CD. rewrite E in CD. inversion CD. reflexivity.
Qed.
Lemma disp_label broad n k N : label m = true -> is16 m = false -> BuildMemoryEncoding d m c broad = Ok n -> (mode = USE64 -> - 2 ^ 31 <= k < 2 ^ 31) ->
  n_dsize n = 4%nat /\ (sext (n_dsize n) (le_val (le_bytes 4 k)) * (if Nat.eqb (n_dsize n) 1 then N else 1) - k) mod 2 ^ src_asize mode m = 0.
Proof.
  intros L H16 H R. pose proof (asize_cases H16 (ex_intro _ broad (ex_intro _ n H))) as As.
  destruct (mem_fields broad n H16 H) as (SE & tm & tf & ts & Et & F4 & K). cbv zeta in K. destruct (CompDisp (swrap 32 (x_value m)) d c broad) as [ok v].
  destruct K as (_ & K2 & _). rewrite L, orb_true_r in K2. cbn [negb] in K2. rewrite !andb_false_r in K2. cbn [andb fst] in K2.
  split; [exact K2|]. rewrite K2. cbn [Nat.eqb]. rewrite sext4, Z.mul_1_r. apply cong32. destruct As as [A | [A B]]; [left; exact A|right; split; [exact A|exact (R B)]].
Qed.

(** 16-bit addresses *)
Lemma mem_decode16 broad n p h rg D rest N : (c_evex c = true -> ev = true) -> is16 m = true -> BuildMemoryEncoding d m c broad = Ok n -> q67 p = n_aso n -> 0 <= rg < 8 -> length D = n_dsize n ->
  n_needmod n = true /\ dec_rm mode p h vecb N (modrm_bytes n rg ++ D ++ rest) = Some (rg, RmMem (the_ea p n D N), rest) /\
  (disp_ok broad N -> (sext (n_dsize n) (le_val (le_bytes (n_dsize n) (n_disp n))) * (if Nat.eqb (n_dsize n) 1 then N else 1) - x_value m) mod 2 ^ src_asize mode m = 0).
Proof.
  intros Hev H16 H Hp Hr HD. destruct (mem_fields16 broad n H16 H) as (Em & Ev & Nm & Ns & Aso & _ & _ & _ & _ & Dc). split; [exact Nm|].
  unfold is16 in H16. destruct (x_base m) as [[[] b]|] eqn:Eb; try discriminate. clear H16.
  destruct (mk_a16 _ _ _ _ O b Eb) as (_ & Sy & Rv & Re & Sc & Xi).
  assert (Bn : b = 3 \/ b = 5 \/ b = 6 \/ b = 7).
  { pose proof (mk_base _ _ _ _ O (K16, b)) as B. unfold src_base in B. rewrite Eb in B. cbn [simd] in B. destruct (B eq_refl) as [B2 _]. exact B2. }
  assert (Sb : src_base m = Some (K16, b)) by (unfold src_base; rewrite Eb; reflexivity).
  assert (Sx : src_idx m = x_idx m) by (unfold src_idx; rewrite Eb; reflexivity).
  assert (As : src_asize mode m = 16) by (unfold src_asize; rewrite Sb; reflexivity).
  assert (Sw : swrap 32 (x_value m) = x_value m) by (apply swrap_small; [lia|]; change (2 ^ (32 - 1)) with 2147483648; lia).
  assert (Scl : src_scale m = 1) by (unfold src_scale; destruct (mk_scale _ _ _ _ O) as [E | [E | [E | [E | E]]]]; rewrite E in *; try reflexivity; lia).
  rewrite Sw in Dc.
  assert (Dc2 : (n_dsize n = 0%nat /\ n_modrm n = modrm16 m /\ x_value m = 0) \/ (n_dsize n = 1%nat /\ n_modrm n = Z.lor (modrm16 m) 0x40 /\ c_evex c = false /\ n_disp n = x_value m)).
  { destruct Dc as [(A & _ & B & E) | (ok & v & CD & Nz & E & Q)]; [left; auto|right].
    destruct (c_evex c) eqn:Ec; [exfalso; apply Nz; auto|]. unfold CompDisp in CD. rewrite Ec in CD. inversion CD. subst ok v. destruct Q as [(_ & R & Q1 & Q2) | ([Q | Q] & _)]; [repeat split; auto|discriminate|lia]. }
  assert (M16 : 0 <= modrm16 m < 8 /\ forall md, 0 <= md <= 1 -> modrm16 m <> 6 /\ shape16 md (modrm16 m) = (src_abase mode m, src_index, if md =? 0 then 0%nat else 1%nat)).
  { unfold src_index, src_abase. rewrite Sb, Sx. unfold modrm16. rewrite Eb. rewrite Scl. destruct (x_idx m) as [[k x]|]; cbn [regis].
    - destruct Xi as (-> & Xb & Xi). destruct Xb as [-> | ->], Xi as [-> | ->]; (split; [cbn; lia|]; intros md Rm; split; [cbn; lia|]; assert (Q : md = 0 \/ md = 1) by lia; destruct Q as [-> | ->]; reflexivity).
    - destruct Bn as [-> | [-> | [-> | ->]]]; try lia; (split; [cbn; lia|]; intros md Rm; split; [cbn; lia|]; assert (Q : md = 0 \/ md = 1) by lia; destruct Q as [-> | ->]; reflexivity). }
  destruct M16 as [M1 M2].
  split.
  - unfold modrm_bytes. rewrite Ns. cbn [app]. unfold dec_rm. rewrite Hp, Aso. assert (Vb : vecb = false) by (unfold vecb; rewrite Ev; reflexivity). rewrite Vb. rewrite Em. cbn [addrbits].
    unfold has_sib. change (16 =? 16) with true. cbn [negb andb orb].
    assert (Q : exists md, (md = 0 \/ md = 1) /\ n_modrm n = Z.lor (modrm16 m) (64 * md) /\ n_dsize n = if md =? 0 then 0%nat else 1%nat).
    { destruct Dc2 as [(A & B & _) | (A & B & _)]; [exists 0|exists 1]; rewrite A, B; repeat split; auto. rewrite Z.mul_0_r, Z.lor_0_r. reflexivity. }
    destruct Q as (md & Rm & Q1 & Q2). destruct (modrm_mem (modrm16 m) md rg M1 ltac:(lia) Hr) as (B1 & B2 & B3). rewrite <- Q1 in B1, B2, B3. rewrite B1, B2, B3.
    destruct (Z.eqb_spec md 3); [lia|]. rewrite (proj2 (M2 md ltac:(lia))). rewrite <- Q2.
    rewrite (zlen_le D rest _ HD), (firstn_len D rest _ HD), (skipn_len D rest _ HD). unfold the_ea. rewrite As, Em. reflexivity.
  - intros Dk. rewrite As. destruct Dc2 as [(A & _ & E) | (A & _ & Ec & E)]; rewrite A.
    + rewrite E. reflexivity.
    + cbn [Nat.eqb]. rewrite E, sext1 by lia. destruct Dk as [[_ ->] | [E2 | [(E2 & _) | [_ E2]]]].
      * rewrite Z.mul_1_r, Z.sub_diag. reflexivity.
      * rewrite E2. reflexivity.
      * congruence.
      * rewrite Sw in E2. lia.
Qed.
End Mem.
