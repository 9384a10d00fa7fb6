(** C39-C42: prefixes and head of a generated instruction have the fields that its operands need. *)
From Coq Require Import String Ascii.
From Verif Require Import Base Mem_Model Mem_Spec V2_Model V2_Table V2_Spec V2Bits_Proofs V2Mem_Proofs V2Row_Proofs V2Head_Proofs V2Type_Proofs V2Gen_Proofs.
Open Scope list_scope.

Local Arguments wrap : simpl never.
Local Arguments swrap : simpl never.
Local Arguments Z.lor : simpl never.
Local Arguments Z.shiftl : simpl never.
Local Arguments Z.land : simpl never.
Local Arguments Z.testbit : simpl never.
Local Arguments tab : simpl never.
Local Arguments CompDisp : simpl never.
Local Opaque tab regs row_entry lookup.

Lemma roles_in {A B} (P : A -> B -> bool) l m : forallb2 P l m = true -> forall a, In a l -> exists b, In b m /\ P a b = true.
Proof.
  revert m. induction l as [|a l IH]; intros [|b m] H; cbn in H; try discriminate; [intros ? []|]. apply andb_prop in H as [H1 H2]. intros x [<- | I]; [exists b; cbn; auto|]. destruct (IH m H2 x I) as (y & Y1 & Y2). exists y. cbn. auto.
Qed.
Lemma firstn_in {A} n (l : list A) x : In x (firstn n l) -> In x l.
Proof. revert l. induction n; intros [|y l]; cbn; auto; try tauto. intros [-> | H]; auto. Qed.
Lemma full_in {A} name (l : list A) x : In x (full name l) -> In x l.
Proof. unfold full. destruct (_ || _); auto. intros H. apply in_app_or in H as [H | H]; auto. apply firstn_in in H. exact H. Qed.

Lemma abs_fields d m c broad n i : d_mem d = MemAbs i -> BuildMemoryEncoding d m c broad = Ok n ->
  n_needmod n = false /\ n_needsib n = false /\ n_rex n = 0 /\ n_B n = false /\ n_X n = false /\ n_aso n = false /\ n_modrm n = 0 /\ n_disp n = x_value m /\
  n_dsize n = match c_mode c with USE16 => 2%nat | USE32 => 4%nat | USE64 => 8%nat end.
Proof.
  intros Hi H. unfold BuildMemoryEncoding in H. rewrite Hi in H. cbn [negb andb] in H.
  change (negb (0 =? 0)) with false in H. cbn [andb] in H. change (0 =? 2) with false in H. rewrite ?andb_false_r in H. change (7 <? 17) with true in H. change (17 <? 16) with false in H. rewrite ?andb_false_r in H.
  change (17 =? 17) with true in H. rewrite ?andb_true_r in H.
  destruct (tab (c_mode c) (if c_stray c && ofs_eqb (c_mode c) USE64 then 16 else 17) 17) as [[tm tf] ts] eqn:Et.
  assert (E : forall a b : menc, Ok a = Ok b -> a = b) by congruence. apply E in H. subst n. cbn [n_needmod n_needsib n_rex n_B n_X n_aso n_modrm n_disp n_dsize].
  assert (B : (7 <? (if c_stray c && ofs_eqb (c_mode c) USE64 then 16 else 17)) && ((if c_stray c && ofs_eqb (c_mode c) USE64 then 16 else 17) <? 16) = false) by (destruct (c_stray c && _); reflexivity).
  rewrite B. cbn [andb]. change (0 =? 4) with false. rewrite ?andb_false_r. repeat split.
Qed.

Lemma reg_of_no mode p h vl cl x kk : reg_of mode p h vl cl x = Some (kk, x) -> regno (Some (kk, x)) = x.
Proof.
  destruct kk; try reflexivity. intros E2. exfalso. unfold reg_of, vkind in E2. destruct cl; repeat (match type of E2 with context [if ?b then _ else _] => destruct b end); try discriminate E2. all: destruct mode; discriminate E2.
Qed.
Lemma reg_eqo_eq o kk x : reg_eqo o (kk, x) = true -> o = Some (kk, x).
Proof. destruct o as [[k1 x1]|]; [|discriminate]. cbn [reg_eqo fst snd]. intros H. apply andb_prop in H as [A B]. apply Z.eqb_eq in B. subst x1. destruct k1, kk; try discriminate; reflexivity. Qed.

Lemma above_reg j kk x : regno (Some (kk, x)) = x -> above j (OReg (kk, x)) = (j <? x).
Proof. intros H. unfold above. cbn [base_reg]. exact (f_equal (fun y => j <? y) H). Qed.
(** the fields of EVEX one by one *)
Section Fields.
Variables (d : row) (l : list opnd) (c : ci) (broad : Z) (nB nX nRR : bool).
Let e := evex_fields d l c broad nB nX nRR.
Let rn i := regno (base_reg (opn l i)).
Let m := opn l (memidx (d_mem d)).
Let vsib j := above j m || match idx_reg m with Some r => j <? regno (Some r) | None => false end.
Ltac go := unfold e, evex_fields; destruct (has VEX_NDS (d_vex d)), (has VEX_DDS (d_vex d)), (d_dir d), (indirect (opn l 0)), (indirect (opn l (d_src d))), (c_sae c =? 0), ((c_sae c =? 0x10) || (c_sae c =? 0x20)), (c_sae c =? 0x40), (c_sae c =? 0x60), (c_sae c =? 0x80); reflexivity.
Lemma fe_r : e_r e = (match d_dir d with REG_DST => if indirect (opn l 0) then false else bit3 (rn 0) | RM_DST => if indirect (opn l (d_src d)) then false else bit3 (rn (d_src d)) | NO_DST => false end) || has VEX_R (d_vex d).
Proof. go. Qed.
Lemma fe_r2 : e_r2 e = if has OPCODE_EXT (d_flags d) then false else match d_dir d with REG_DST => if indirect (opn l 0) then negb nRR else bit4 (rn 0) | RM_DST => if indirect (opn l (d_src d)) then true else bit4 (rn (d_src d)) | NO_DST => true end.
Proof. go. Qed.
Lemma fe_x : e_x e = (let x := if has EVEX_VSIB (d_evex d) then vsib 23 else false in
  match d_dir d with REG_DST => if indirect (opn l (d_src d)) then x else bit4 (nbase (opn l (d_src d))) | RM_DST => if indirect (opn l 0) then x else bit4 (rn 0) | NO_DST => x end) || has VEX_X (d_vex d) || nX.
Proof. go. Qed.
Lemma fe_b : e_b e = (match d_dir d with REG_DST => if indirect (opn l (d_src d)) then false else bit3 (nbase (opn l (d_src d))) | RM_DST => if indirect (opn l 0) then false else bit3 (rn 0) | NO_DST => false end) || has VEX_B (d_vex d) || nB.
Proof. go. Qed.
Lemma fe_v : e_vvvv e = match p_v d HEvex with Some i => rn i | None => 0 end.
Proof. unfold p_v. go. Qed.
Lemma fe_v2 : e_v2 e = if has EVEX_VSIB (d_evex d) then vsib 15 else match p_v d HEvex with Some i => bit4 (rn i) | None => false end.
Proof. unfold p_v. go. Qed.
Lemma fe_ll : In (c_sae c) [0; 0x20; 0x40; 0x60; 0x80] -> e_ll e = if negb (c_sae c =? 0) then c_sae c / 32 - 1 else rll d HEvex.
Proof. cbn [In]. unfold e, evex_fields. destruct (if has VEX_NDS (d_vex d) then _ else _), (match d_dir d with NO_DST => _ | _ => _ end), (match d_dir d with NO_DST => _ | _ => _ end). intros [<- | [<- | [<- | [<- | [<- | []]]]]]; reflexivity. Qed.
Lemma fe_bc : In (c_sae c) [0; 0x20; 0x40; 0x60; 0x80] -> e_bc e = negb (c_sae c =? 0) || negb (broad =? 0).
Proof. cbn [In]. unfold e, evex_fields. destruct (if has VEX_NDS (d_vex d) then _ else _), (match d_dir d with NO_DST => _ | _ => _ end), (match d_dir d with NO_DST => _ | _ => _ end). intros [<- | [<- | [<- | [<- | [<- | []]]]]]; reflexivity. Qed.
Lemma fe_rest : e_w e = negb (has EVEX_W0 (d_evex d)) && has EVEX_W1 (d_evex d) /\ e_pp e = pp_of (d_vex d) /\ e_map e = map_of (d_vex d) /\ e_z e = Z.testbit (c_deco c) 7 /\ e_aaa e = Z.land (c_deco c) 7.
Proof. unfold e, evex_fields. destruct (if has VEX_NDS (d_vex d) then _ else _), (match d_dir d with NO_DST => _ | _ => _ end), (match d_dir d with NO_DST => _ | _ => _ end), (if c_sae c =? 0 then _ else _). auto. Qed.
End Fields.
Lemma pp_of_range f : 0 <= pp_of f < 4.
Proof. unfold pp_of. destruct (has VEX_66 f), (has VEX_F3 f), (has VEX_F2 f); lia. Qed.
Lemma map_of_range f : 0 <= map_of f < 4.
Proof. unfold map_of. destruct (has VEX_0F f), (has VEX_0F38 f), (has VEX_0F3A f); lia. Qed.
Lemma x_bits ni : 0 <= ni < 32 -> (23 <? ni) || (if 15 <? ni then false else 7 <? ni) = bt ni 3.
Proof. intros H. pose proof (all_lt 32 (fun n => Bool.eqb ((23 <? n) || (if 15 <? n then false else 7 <? n)) (bt n 3)) eq_refl ni H) as E. apply Bool.eqb_prop in E. exact E. Qed.

Lemma tabf_rip x tm tf ts : 0 <= x < 16 -> tabf USE64 16 x = (tm, tf, ts) -> Z.testbit tf 4 = true.
Proof. intros H E. unfold tabf in E. replace (x <? 16) with true in E by lia. cbn in E. inversion E. reflexivity. Qed.
Section Hd.
Variables (d : row) (c : ci) (l : list opnd) (o : out) (n : menc) (mp op : Z) (e : man).
Let mode := c_mode c.
Let ev := c_evex c.
Let k := rkind d ev.
Let broad := PromoteBroadcast d (c_broad c).
Definition the_q (d : row) (l : list opnd) : bool := has REXP_MEM (d_flags d) && match opn l (memidx (d_mem d)) with OMem m => x_q m | _ => false end.
Let q := the_q d l.
Let r := the_r d l.
Let f := d_flags d.
Hypothesis WO : written_ok d c l.
Hypothesis NE : l <> [].
Hypothesis GF : gen_facts d mode ev.
Hypothesis MD : made d c l o n.
Hypothesis AT : at_facts d mode ev q r mp op e.
Let EF := row_entry_facts _ _ _ _ _ _ (af_entry _ _ _ _ _ _ _ _ AT).

Lemma hmode : mode = USE32 \/ mode = USE64.
Proof. apply (wo_mode _ _ _ WO). Qed.
Lemma is64_32 : mode = USE32 -> is64 mode = false.
Proof. intros ->. reflexivity. Qed.
Lemma is64_cases : is64 mode = true /\ mode = USE64 \/ is64 mode = false /\ mode = USE32.
Proof. destruct hmode as [-> | ->]; [right|left]; split; reflexivity. Qed.
Lemma evex_used_kind : evex_used d c = hkind_eqb k HEvex.
Proof.
  unfold evex_used, k, ev, rkind. destruct (has VEX (d_vex d)), (has EVEX_ONLY (d_evex d)), (c_evex c), (has EVEX (d_vex d)); reflexivity.
Qed.
Lemma not_evex : k <> HEvex -> c_evex c = false.
Proof.
  intros K. pose proof (gf_kind _ _ _ GF) as G. fold k in G. destruct (c_evex c) eqn:E; [|reflexivity]. exfalso. destruct k eqn:Ek.
  - destruct G as [_ G]. apply (md_ev _ _ _ _ _ MD E), G.
  - unfold k, ev, rkind in Ek. rewrite ?E in Ek. cbn [negb] in Ek. rewrite andb_false_r in Ek. destruct (_ || _); discriminate.
  - congruence.
Qed.
Lemma role_index s cl j : role_fit d mode ev k (rw d mode k q) (veclen (rll d k) false) (s, cl) j = true -> In j (full (d_name d) (seq 0 (length (d_types d)))) -> (j < length l)%nat.
Proof. intros _ I. apply full_in, in_seq in I. rewrite (len_types _ _ _ WO) in I. lia. Qed.
Lemma mem_role i : d_mem d = MemOpnd i -> (i < length l)%nat /\ mem_type (nth i (d_types d) T_R_RIP) = true /\ (i < 3)%nat /\ has F_MODRM_RM f = false /\ d_modrm d = 0 /\ has F_MODRM f = true /\
  (d_dir d = RM_DST -> i = 0%nat) /\ has REXB f = false /\ (has EREX f = true -> d_dir d = REG_DST -> d_src d = i) /\ (d_src d = i \/ d_dir d = RM_DST \/ k = HLegacy \/ (k = HVex /\ gather d = true /\ d_src d = 2%nat /\ p_v d k = Some 2%nat)).
Proof.
  intros Hi. pose proof (gf_nomod _ _ _ GF) as G. rewrite Hi in G. destruct (has F_MODRM (d_flags d)) eqn:Fm; [|discriminate].
  pose proof (ef_orm _ _ _ _ _ EF) as U. rewrite Fm in U. apply existsb_exists in U as ((s, cl) & U1 & U2). cbn [fst] in U2. destruct s; try discriminate.
  destruct (roles_in _ _ _ (ef_roles _ _ _ _ _ EF) _ U1) as (j & J1 & J2). pose proof (role_index _ _ _ J2 J1) as Lj. cbn [role_fit] in J2. rewrite Hi in J2.
  destruct (mem_type (nth j (d_types d) T_R_RIP)) eqn:Mt.
  - apply andb_prop in J2 as [J2 _]. apply andb_prop in J2 as [J2 J3]. repeat (apply andb_prop in J2 as [J2 ?]). apply Nat.eqb_eq in J2. subst j.
    split; [exact Lj|]. split; [exact Mt|]. split; [apply Nat.ltb_lt; assumption|]. split; [apply negb_true_iff; assumption|]. split; [lia|]. split; [exact Fm|]. split.
    + intros D. match goal with X : imp ?A (Nat.eqb _ 0) = true |- _ => rewrite D in X; apply Nat.eqb_eq in X; exact X end.
    + split; [apply negb_true_iff; assumption|]. split; [intros X1 X2; match goal with X : imp (has EREX _) _ = true |- _ => pose proof (imp_true _ _ X X1) as X3 end; rewrite X2 in X3; apply Nat.eqb_eq; exact X3|]. apply orb_prop in J3 as [J3 | J3]; [apply orb_prop in J3 as [J3 | J3]; [apply orb_prop in J3 as [J3 | J3]|]|].
      * left. apply Nat.eqb_eq. exact J3.
      * right. left. destruct (d_dir d); try discriminate. reflexivity.
      * right. right. left. unfold k. destruct (rkind d ev); try discriminate. reflexivity.
      * right. right. right. apply andb_prop in J3 as [J3 J6]. apply andb_prop in J3 as [J3 J5]. apply andb_prop in J3 as [J3 J4]. apply Nat.eqb_eq in J5. assert (J7 : p_v d k = Some 2%nat) by (unfold k; destruct (p_v d (rkind d ev)); [apply Nat.eqb_eq in J6; subst; reflexivity|discriminate]). unfold k in *. destruct (rkind d ev); try discriminate. auto.
  - rewrite !andb_false_r in J2. cbn [andb] in J2. discriminate.
Qed.
Lemma mem_here i : d_mem d = MemOpnd i -> exists m, opn l i = OMem m /\ the_mem d l = m /\ In (OMem m) l /\ opnd_ok d c (OMem m) /\ mrow d c (evex_used d c) (row_vec d) m.
Proof.
  intros Hi. destruct (mem_role i Hi) as (Li & Mt & _). destruct (typed_mem _ _ _ WO i Li Mt) as (m & Em & K & N). exists m. split; [exact Em|]. split; [unfold the_mem; rewrite Hi; cbn [memidx]; rewrite Em; reflexivity|]. split; [exact N|]. split; [exact K|].
  cbn [opnd_ok] in K. destruct K as [K K2]. pose proof (ef_vec _ _ _ _ _ EF) as V. fold k in V.
  assert (Rv : row_vec d = None \/ row_vec d = Some KX \/ row_vec d = Some KY \/ row_vec d = Some KZ).
  { unfold row_vec. destruct (gather d); [|auto]. destruct (d_types d) as [|[] ?]; auto. }
  constructor; auto.
  - apply hmode.
  - intros Nn. destruct (row_vec d); [|congruence]. repeat (apply andb_prop in V as [V ?]). assumption.
  - intros Nn. rewrite Nn in V. repeat (apply andb_prop in V as [V ?]). apply negb_true_iff. assumption.
  - intros rr Er Hv. pose proof (mk_idx _ _ _ _ K rr Er) as X. destruct (row_vec d) as [kd|].
    + destruct X as (_ & X1 & _ & X2). repeat (apply andb_prop in V as [V ?]). rewrite Hv, orb_false_r in *. destruct (Z_lt_le_dec (snd rr) 16); [assumption|]. exfalso. specialize (X2 l0). rewrite evex_used_kind in X2. destruct k; discriminate.
    + destruct X as (X & X1 & _). destruct rr as [[] x]; cbn in X, X1 |- *; try tauto; lia.
  - eauto.
Qed.
Lemma menc_facts : n_rex n = Z.lor (if n_B n && match d_vex d with [] => true | _ => false end then 0x41 else 0) (if n_X n && match d_vex d with [] => true | _ => false end then 0x42 else 0) /\ (mode = USE32 -> n_B n = false /\ n_X n = false).
Proof.
  pose proof (md_n _ _ _ _ _ MD) as N. destruct (d_mem d) as [|i|i] eqn:Ei.
  - subst n. split; [reflexivity|auto].
  - destruct (mem_here i Ei) as (m & _ & Et & _ & _ & M). rewrite Et in N. destruct (is16 m) eqn:E16.
    + destruct (mem_fields16 _ _ _ _ _ M _ _ E16 N) as (_ & _ & _ & _ & _ & B & X & R & _). rewrite B, X, R. split; [reflexivity|auto].
    + destruct (mem_fields _ _ _ _ _ M _ _ E16 N) as (SE & tm & tf & ts & _ & _ & K). cbv zeta in K. destruct (CompDisp _ d c _) as [ok v]. destruct K as (_ & _ & _ & _ & _ & _ & _ & B & X & _ & R).
      split; [exact R|]. intros E32. rewrite B, X. pose proof (eb_range _ _ _ _ _ M E16 SE) as Rb. pose proof (ei_range _ _ _ _ _ M E16 SE) as Ri. fold mode in Rb, Ri |- *. rewrite E32 in Rb, Ri |- *.
      split; [destruct Rb as [(? & _ & _ & Rb & _) | [(_ & Rb & _) | (Rb & _)]]; [specialize (Rb eq_refl); lia|discriminate|rewrite Rb; reflexivity]|].
      destruct Ri as [[_ Ri] | [Ri _]]; [specialize (Ri eq_refl); lia|rewrite Ri; reflexivity].
  - destruct (abs_fields _ _ _ _ _ _ Ei N) as (_ & _ & R & B & X & _). rewrite R, B, X. split; [reflexivity|auto].
Qed.

Definition rc : bool := negb (c_sae c =? 0).
Record hd_ok (h : head) (p : pfx) : Prop := {
  hd_kind : h_kind h = k; hd_w : h_w h = rw d mode k q; hd_66 : q66 p = rq66 d mode; hd_67 : q67 p = n_aso n; hd_seg : qseg p = c_seg c; hd_pp : h_pp h = rpp d mode k; hd_map : h_map h = mp;
  hd_rex1 : is64 mode && has REX f = true -> h_rex h = true;
  hd_rex2 : h_rex h = true -> is64 mode && has REX f = false -> existsb high_byte l = true -> has EREX f = true \/ has REXP_MEM f = true;
  hd_reg : forall kk x, opn l (p_reg d) = OReg (kk, x) -> 0 <= x < 32 -> regno (Some (kk, x)) = x -> has F_MODRM_REG f = true -> ext_fit d mode k (p_reg d) (has REXR f) true x = true ->
             (d_dir d = REG_DST \/ d_src d = p_reg d \/ (k = HLegacy /\ has EREX f = false)) -> Z.land x 7 + e8 (h_r h) + e16 (h_r2 h) = x;
  hd_rm : forall kk x, opn l (p_rm d) = OReg (kk, x) -> 0 <= x < 32 -> regno (Some (kk, x)) = x -> d_mem d = NoMem -> ext_fit d mode k (p_rm d) (has REXB f) true x = true ->
             (d_dir d = RM_DST \/ d_src d = p_rm d \/ (k = HLegacy /\ has EREX f = false)) -> Z.land x 7 + e8 (h_b h) + (if hkind_eqb k HEvex then e16 (h_x h) else 0) = x;
  hd_opc : forall kk x, opn l 0 = OReg (kk, x) -> 0 <= x < 32 -> d_mem d = NoMem -> has F_OPCODE_REG f = true -> ext_fit d mode k 0 (has REXB f) false x = true -> Z.land x 7 + e8 (h_b h) = x;
  hd_v : match p_v d k with
         | Some i => forall kk x, opn l i = OReg (kk, x) -> 0 <= x < 32 -> regno (Some (kk, x)) = x -> (k <> HEvex -> x < 16) -> h_vvvv h + e16 (h_v2 h) = x
         | None => h_vvvv h = 0 /\ (m_vsib e = true \/ h_v2 h = false)
         end;
  hd_mem : forall i, d_mem d = MemOpnd i -> is16 (the_mem d l) = false -> h_mem c (row_vec d) (the_mem d l) n h;
  hd_ll : h_ll h = if rc then c_sae c / 32 - 1 else rll d k;
  hd_bc : h_bc h = rc || negb (broad =? 0);
  hd_z : h_z h = Z.testbit (c_deco c) 7;
  hd_aaa : h_aaa h = c_deco c mod 8 }.

(** ** The operands of the roles *)
Lemma fit_facts w vl cl num i : fit d mode ev k w vl cl (nth i (d_types d) T_R_RIP) num = true -> (i < length l)%nat -> is_reg_type (nth i (d_types d) T_R_RIP) = true ->
  exists kk x, opn l i = OReg (kk, x) /\ 0 <= x < 32 /\ regno (Some (kk, x)) = x /\ num x = true /\
    reg_of mode (mkp (rq66 d mode)) (mkh k (is64 mode && has REX f) w) vl cl x = Some (kk, x) /\ (kk = K8H -> has EREX f = false /\ has REXP_MEM f = false) /\ In (OReg (kk, x)) l.
Proof.
  intros F Hi Ht. destruct (typed_reg _ _ _ WO i Hi Ht) as (kk & x & E & K & R & N). exists kk, x. split; [exact E|]. split; [apply (reg_ok_b _ _ _ K (wo_mode _ _ _ WO))|].
  unfold fit in F. apply andb_prop in F as [_ F]. rewrite forallb_forall in F. specialize (F _ R). cbn [fst snd] in F. apply andb_prop in F as [F F3]. apply andb_prop in F as [F1 F2].
  pose proof (reg_eqo_eq _ _ _ F2) as E2.
  split; [|split; [exact F1|split; [exact E2|split; [|exact N]]]].
  - apply (reg_of_no _ _ _ _ _ _ _ E2).
  - intros ->. apply andb_prop in F3 as [A B]. apply negb_true_iff in A, B. auto.
Qed.
Lemma role_of s : uses s e = true -> exists cl i, In (s, cl) (m_ops e) /\ (i < length l)%nat /\ role_fit d mode ev k (rw d mode k q) (veclen (rll d k) false) (s, cl) i = true.
Proof.
  intros U. apply existsb_exists in U as ((s1, cl) & U1 & U2). cbn [fst] in U2. assert (s1 = s) by (destruct s1, s; try discriminate; reflexivity). subst s1.
  destruct (roles_in _ _ _ (ef_roles _ _ _ _ _ EF) _ U1) as (j & J1 & J2). exists cl, j. split; [exact U1|]. split; [apply (role_index _ _ _ J2 J1)|exact J2].
Qed.
Lemma reg_role : has F_MODRM_REG f = true -> exists kk x, opn l (p_reg d) = OReg (kk, x) /\ 0 <= x < 32 /\ regno (Some (kk, x)) = x /\ ext_fit d mode k (p_reg d) (has REXR f) true x = true /\
  (d_dir d = REG_DST \/ d_src d = p_reg d \/ (k = HLegacy /\ has EREX f = false)).
Proof.
  intros Fr. pose proof (ef_oreg _ _ _ _ _ EF) as U. fold f in U. rewrite Fr in U. destruct (role_of _ U) as (cl & i & _ & Hi & R). cbn [role_fit] in R.
  apply andb_prop in R as [R R6]. apply andb_prop in R as [R R5]. apply andb_prop in R as [R R4]. apply andb_prop in R as [R R3]. apply andb_prop in R as [R1 R2]. apply Nat.eqb_eq in R2. subst i.
  destruct (fit_facts _ _ _ _ _ R4 Hi R3) as (kk & x & E & X & N & F & _). exists kk, x. repeat split; try assumption; try lia. apply orb_prop in R6 as [R6 | R6].
  - unfold k in *. destruct (rkind d ev); try discriminate. cbn [hkind_eqb andb] in R5. fold f in R5. destruct (has EREX f); [|auto]. destruct (d_dir d); auto; cbn in R5; right; left; apply Nat.eqb_eq; apply negb_true_iff, negb_false_iff in R5; exact R5.
  - destruct (d_dir d); auto; right; left; apply Nat.eqb_eq; exact R6.
Qed.
Lemma rm_role : has F_MODRM f = true -> d_mem d = NoMem -> exists kk x, opn l (p_rm d) = OReg (kk, x) /\ 0 <= x < 32 /\ regno (Some (kk, x)) = x /\ ext_fit d mode k (p_rm d) (has REXB f) true x = true /\
  (d_dir d = RM_DST \/ d_src d = p_rm d \/ (k = HLegacy /\ has EREX f = false)) /\ has F_MODRM_RM f = true /\ d_modrm d = 0xC0.
Proof.
  intros Fr Nm. pose proof (ef_orm _ _ _ _ _ EF) as U. fold f in U. rewrite Fr in U. destruct (role_of _ U) as (cl & i & _ & Hi & R). cbn [role_fit] in R. rewrite Nm in R.
  destruct (mem_type (nth i (d_types d) T_R_RIP)); [discriminate|].
  apply andb_prop in R as [R R8]. apply andb_prop in R as [R R7]. apply andb_prop in R as [R R6]. apply andb_prop in R as [R R5]. apply andb_prop in R as [R R4]. apply andb_prop in R as [R R3]. apply andb_prop in R as [R1 R2]. apply Nat.eqb_eq in R2. subst i.
  destruct (fit_facts _ _ _ _ _ R6 Hi R1) as (kk & x & E & X & N & F & _). exists kk, x. repeat split; try assumption; try lia.
  destruct (d_dir d); auto; right; (apply orb_prop in R7 as [R7 | R7]; [left; apply Nat.eqb_eq; exact R7|right; apply andb_prop in R7 as [A B]; apply negb_true_iff in B; unfold k; destruct (rkind d ev); try discriminate; auto]).
Qed.
Lemma v_role i : p_v d k = Some i -> exists kk x, opn l i = OReg (kk, x) /\ 0 <= x < 32 /\ regno (Some (kk, x)) = x /\ (k <> HEvex -> x < 16) /\ (mode = USE32 -> x < 8).
Proof.
  intros Hv. pose proof (ef_ov _ _ _ _ _ EF) as U. fold k in U. rewrite Hv in U. destruct (role_of _ U) as (cl & j & _ & Hj & R). cbn [role_fit] in R. rewrite Hv in R. cbn [nat_eqo] in R.
  apply andb_prop in R as [R R3]. apply andb_prop in R as [R1 R2]. apply Nat.eqb_eq in R2. subst j. destruct (fit_facts _ _ _ _ _ R3 Hj R1) as (kk & x & E & X & N & F & _). exists kk, x. repeat split; try assumption; try lia.
  - intros Kn. apply andb_prop in F as [F _]. destruct k; [lia|lia|congruence].
  - intros E32. apply andb_prop in F as [_ F]. rewrite (is64_32 E32), orb_false_r in F. lia.
Qed.

(** ** Memory operands *)
Lemma mem_B i : d_mem d = MemOpnd i -> is16 (the_mem d l) = false ->
  (eb mode (the_mem d l) < 16 -> n_B n = (7 <? eb mode (the_mem d l))) /\
  (n_B n = true -> rex_mem (the_mem d l) = true) /\ (n_X n = true -> rex_mem (the_mem d l) = true) /\
  n_X n = match src_idx (the_mem d l) with None => false | Some r => if has EVEX_VSIB (d_evex d) && (15 <? snd r) then false else 7 <? snd r end.
Proof.
  intros Hi H16. destruct (mem_here i Hi) as (m & _ & Et & _ & _ & M). rewrite Et in *. pose proof (md_n _ _ _ _ _ MD) as N. rewrite Hi, Et in N.
  destruct (mem_fields _ _ _ _ _ M _ _ H16 N) as (SE & tm & tf & ts & _ & _ & K). cbv zeta in K. destruct (CompDisp _ d c _) as [ok v]. destruct K as (_ & _ & _ & _ & _ & _ & _ & B & X & _).
  fold mode in B, SE. pose proof (eb_range _ _ _ _ _ M H16 SE) as Rb. pose proof (ei_range _ _ _ _ _ M H16 SE) as Ri. fold mode in Rb, Ri. rewrite B, X.
  split; [|split; [|split]].
  - intros E. destruct Rb as [(? & _ & R & _) | [(R & _) | (R & _)]]; lia.
  - intros E. destruct Rb as [(kb & Sb & R & _) | [(R & _) | (R & _)]]; [|lia|lia]. unfold src_base in Sb. unfold rex_mem. destruct (simd (x_base m)); rewrite Sb; replace (8 <=? eb mode m) with true by lia; rewrite ?orb_true_r; reflexivity.
  - intros E. unfold ei in *. destruct (src_idx m) as [[ki ni]|] eqn:Si; [|discriminate]. cbn [snd] in *.
    assert (8 <= ni).
    { destruct (has EVEX_VSIB (d_evex d) && (15 <? ni)) eqn:A; [|lia]. apply andb_prop in A as [_ A]. lia. }
    unfold src_idx in Si. unfold rex_mem. destruct (simd (x_base m)); rewrite Si; replace (8 <=? ni) with true by lia; rewrite ?orb_true_r; reflexivity.
  - unfold ei in *. destruct (src_idx m) as [[ki ni]|] eqn:Si; [|reflexivity]. cbn [snd] in *. destruct (has EVEX_VSIB (d_evex d) && (15 <? ni)) eqn:A.
    + destruct (idx_cases _ _ _ _ _ M H16 SE _ _ Si) as (R & _). pose proof (land7 ni R). lia.
    + destruct Ri as [[Ri _] | [_ Ri]]; [lia|discriminate].
Qed.

(** ** The three kinds of heads *)
Definition MRb : list Z := (if n_needmod n || snd (BuildModRM d l) then [Z.lor (n_modrm n) (fst (BuildModRM d l))] else []) ++ (if n_needsib n then [n_sib n] else []).
Definition thep : pfx := the_pfx (n_aso n) (use_oso d mode) (c_seg c) (mand1 (d_pfx d)).
Definition header_ok (h : head) (H : list Z) : Prop :=
  hd_ok h thep /\ front d c l n = PF (n_aso n) (use_oso d mode) (seg_list (c_seg c)) (mand1 (d_pfx d)) ++ H ++ MRb /\ (exists b t, H = b :: t /\ prefix_byte b = false) /\
  forall X, dec_head mode thep (H ++ X) = Some (h, op :: X).

Lemma pp_legacy : pp_bits thep = rpp d mode HLegacy.
Proof. unfold pp_bits, thep, the_pfx, rpp, rq66. cbn [qrep q66]. destruct (d_pfx d); cbn; reflexivity. Qed.
Lemma not_ev_deco : k <> HEvex -> c_deco c = 0 /\ broad = 0 /\ c_sae c = 0.
Proof.
  intros K. destruct (wo_plain _ _ _ WO (not_evex K)) as (A & B & C). split; [exact A|]. split; [|exact C]. unfold broad. rewrite B. unfold PromoteBroadcast. destruct (same_name _ _); reflexivity.
Qed.
Lemma header_legacy : k = HLegacy -> exists h H, header_ok h H.
Proof.
  intros Ek. pose proof (gf_kind _ _ _ GF) as G. fold k in G. rewrite Ek in G. destruct G as [Gv Ge].
  destruct menc_facts as [Nr N32]. rewrite Gv in Nr. rewrite !andb_true_r in Nr.
  set (dst := match d_dir d with REG_DST => true | _ => false end). set (a0 := above 7 (opn l 0)). set (as_ := above 7 (opn l (d_src d))). set (z := is64 mode).
  set (fW := z && (has REX f && has REXW f || q)). set (fr := z && (has REX f && has REXR f || has EREX f && (if dst then a0 else as_))). set (fx := n_X n).
  set (fb := z && (has REX f && has REXB f || has EREX f && (if dst then as_ else a0)) || n_B n). set (any := z && (has REX f || has EREX f && (a0 || as_) || q) || n_B n || n_X n).
  assert (Rz : rexz d c l n = rexf fW fr fx fb any).
  { unfold rexz. fold mode. fold z. pose proof (negb_true_iff (has REXX (d_flags d))) as Rx. destruct Rx as [Rx _]. specialize (Rx (gf_rexx _ _ _ GF)). destruct z eqn:Ez.
    - rewrite Nr, BuildREX_eq, Rx, REXb_ok. unfold REXbits. fold f dst a0 as_. change (has REXP_MEM f && match opn l (memidx (d_mem d)) with OMem m => x_q m | _ => false end) with q.
      subst fW fr fx fb any. cbn [andb]. reflexivity.
    - assert (E32 : mode = USE32) by (destruct is64_cases as [[A _] | [_ A]]; [unfold z in Ez; congruence|exact A]). destruct (N32 E32) as [NB NX]. rewrite Nr. subst fW fr fx fb any. rewrite NB, NX. reflexivity. }
  exists (legh mp (pp_bits thep) any fW fr fx fb), ((if rexf fW fr fx fb any =? 0 then [] else [rexf fW fr fx fb any]) ++ mand2 (d_pfx d) ++ ropc d r).
  pose proof (af_first _ _ _ _ _ _ _ _ AT Ek) as Af. pose proof (af_map _ _ _ _ _ _ _ _ AT) as Am. fold k in Am. rewrite Ek in Am. cbn [rmap] in Am.
  destruct (not_ev_deco ltac:(congruence)) as (D1 & D2 & D3).
  assert (Any0 : any = false -> fW = false /\ fr = false /\ fx = false /\ fb = false).
  { subst any fW fr fx fb. intros A. apply orb_false_iff in A as [A A3]. apply orb_false_iff in A as [A A2]. rewrite A2, A3. clearbody z. destruct z; [|auto]. cbn [andb] in *. apply orb_false_iff in A as [A A5]. apply orb_false_iff in A as [A A4]. rewrite A, A5. cbn [andb orb].
    destruct (has EREX f); [|auto]. cbn [andb] in *. apply orb_false_iff in A4 as [-> ->]. destruct dst; auto. }
  assert (Any64 : any = true -> mode = USE64).
  { intros A. destruct is64_cases as [[_ Em] | [Ez Em]]; [exact Em|]. exfalso. subst any. fold z in Ez. rewrite Ez in A. destruct (N32 Em) as [NB NX]. rewrite NB, NX in A. discriminate. }
  split; [|split; [|split]].
  - assert (B0 : d_mem d = NoMem -> n_B n = false).
    { intros E. pose proof (md_n _ _ _ _ _ MD) as N. rewrite E in N. rewrite N. reflexivity. }
    assert (Bm : forall i, d_mem d = MemOpnd i -> is16 (the_mem d l) = false -> eb mode (the_mem d l) < 16 -> fb = (7 <? eb mode (the_mem d l))).
    { intros i Hi H16 Hb. destruct (mem_B i Hi H16) as (Bb & _). specialize (Bb Hb). destruct (mem_role i Hi) as (_ & _ & _ & _ & _ & _ & Rd & Fb & Rs & _). subst fb. rewrite Fb, andb_false_r. cbn [orb].
      rewrite <- Bb. destruct (n_B n) eqn:EB; [apply orb_true_r|]. rewrite orb_false_r. destruct (has EREX f) eqn:Ee; [|apply andb_false_r]. specialize (Rs eq_refl).
      destruct (mem_here i Hi) as (m & Em & Et & _ & _ & M). rewrite Et in *.
      assert (A : (if dst then as_ else a0) = true -> above 7 (OMem m) = true \/ d_dir d = NO_DST).
      { subst dst a0 as_. destruct (d_dir d) eqn:Ed; auto; [rewrite (Rs eq_refl), Em; auto|]. specialize (Rd eq_refl). subst i. rewrite Em. auto. }
      destruct (if dst then as_ else a0); [|apply andb_false_r]. exfalso. destruct (A eq_refl) as [A1 | A1].
      - unfold above in A1. cbn [base_reg] in A1. unfold eb in Hb, Bb. pose proof (md_n _ _ _ _ _ MD) as N. rewrite Hi, Et in N. destruct (mem_fields _ _ _ _ _ M _ _ H16 N) as (SE & _). destruct (x_base m) as [[kx nx]|] eqn:Ex; [|discriminate].
        destruct (simd (x_base m)) eqn:Sx.
        + destruct (no_swap _ _ _ _ _ M SE Sx) as (_ & _ & _ & V). pose proof (ef_vec _ _ _ _ _ EF) as Vv. destruct (row_vec d); [|congruence]. rewrite Gv in Vv. rewrite andb_false_r in Vv. discriminate.
        + unfold src_base in Hb, Bb. rewrite Sx, Ex in Hb, Bb. rewrite A1 in Bb. discriminate.
      - pose proof (gf_dir _ _ _ GF) as Gd. destruct (mem_role i Hi) as (_ & _ & _ & _ & _ & Fm & _). fold f in Gd. rewrite Fm, A1 in Gd. discriminate. }
    constructor; unfold legh; cbn [h_kind h_rex h_w h_r h_x h_b h_r2 h_v2 h_vvvv h_ll h_pp h_map h_z h_bc h_aaa].
    + congruence.
    + rewrite Ek. unfold rw. fold f z. subst fW. unfold q, the_q. fold f. destruct z, (has REX f), (has REXW f), (has REXP_MEM f); reflexivity.
    + reflexivity.
    + reflexivity.
    + reflexivity.
    + rewrite Ek. apply pp_legacy.
    + reflexivity.
    + intros A. fold z in A. subst any. apply andb_prop in A as [A1 A2]. rewrite A1, A2. reflexivity.
    + intros A B Hh. fold z in B. destruct (has EREX f) eqn:Ee; [auto|]. destruct (has REXP_MEM f) eqn:Ep; [auto|]. exfalso. subst any. cbn [andb] in A. assert (q = false) by (unfold q, the_q; fold f; rewrite Ep; reflexivity). rewrite H in A.
      rewrite !orb_false_r in A. rewrite B in A. cbn [orb] in A.
      destruct (d_mem d) as [|i|i] eqn:Ei.
      * pose proof (md_n _ _ _ _ _ MD) as N. rewrite Ei in N. rewrite N in A. discriminate.
      * pose proof (md_n _ _ _ _ _ MD) as N. rewrite Ei in N. destruct (mem_here i Ei) as (m & _ & Et & Im & _ & M). destruct (is16 m) eqn:E16.
        -- rewrite Et in N. destruct (mem_fields16 _ _ _ _ _ M _ _ E16 N) as (_ & _ & _ & _ & _ & NB & NX & _). rewrite NB, NX in A. discriminate.
        -- rewrite <- Et in E16. destruct (mem_B i Ei E16) as (_ & X1 & X2 & _). pose proof (wo_high _ _ _ WO m Hh Im) as X3. rewrite Et in X1, X2. apply orb_prop in A as [A | A]; [specialize (X1 A)|specialize (X2 A)]; congruence.
      * pose proof (md_n _ _ _ _ _ MD) as N. rewrite Ei in N. destruct (abs_fields _ _ _ _ _ _ Ei N) as (_ & _ & _ & NB & NX & _). rewrite NB, NX in A. discriminate.
    + intros kk x Eo Rx Nx Fr Ex Cd. rewrite Ek in Ex. cbn [ext_fit] in Ex. fold f in Ex. rewrite andb_true_r in Ex. fold z in Ex.
      assert (A : has EREX f = true -> (if dst then a0 else as_) = (7 <? x)).
      { intros Ee. subst dst a0 as_. unfold p_reg in Eo, Cd. destruct (d_dir d) eqn:Ed.
        - destruct Cd as [Cd | [Cd | [_ Cd]]]; [discriminate| |congruence]. rewrite Cd, Eo. apply (above_reg 7 _ _ Nx).
        - rewrite Eo. apply (above_reg 7 _ _ Nx).
        - destruct Cd as [Cd | [Cd | [_ Cd]]]; [discriminate| |congruence]. rewrite Cd, Eo. apply (above_reg 7 _ _ Nx). }
      assert (Fr2 : fr = bt x 3 /\ x < 16).
      { subst fr. destruct (has EREX f).
        - apply andb_prop in Ex as [Ex E3]. apply andb_prop in Ex as [E1 E2]. apply negb_true_iff in E1. rewrite E1, (A eq_refl), andb_false_r. cbn [orb andb]. rewrite bt3_ge by lia. split; [|lia]. apply orb_prop in E3 as [E3 | E3]; [|rewrite E3; reflexivity]. replace (7 <? x) with false by lia. apply andb_false_r.
        - apply andb_prop in Ex as [Ex _]. apply andb_prop in Ex as [E1 E2]. apply Bool.eqb_prop in E2. rewrite E2. cbn [andb]. rewrite orb_false_r, andb_assoc. split; [reflexivity|lia]. }
      destruct Fr2 as [-> Hx]. pose proof (num3 x Rx) as X. rewrite (bt4_lt x ltac:(lia)) in X. exact X.
    + intros kk x Eo Rx Nx Nm Ex Cd. rewrite Ek in Ex |- *. cbn [hkind_eqb]. cbn [ext_fit] in Ex. fold f in Ex. rewrite andb_true_r in Ex. fold z in Ex.
      assert (A : has EREX f = true -> (if dst then as_ else a0) = (7 <? x)).
      { intros Ee. subst dst a0 as_. unfold p_rm in Eo, Cd. destruct (d_dir d) eqn:Ed.
        - rewrite Eo. apply (above_reg 7 _ _ Nx).
        - destruct Cd as [Cd | [Cd | [_ Cd]]]; [discriminate| |congruence]. rewrite Cd, Eo. apply (above_reg 7 _ _ Nx).
        - rewrite Eo. apply (above_reg 7 _ _ Nx). }
      assert (Fr2 : fb = bt x 3 /\ x < 16).
      { subst fb. rewrite (B0 Nm), orb_false_r. destruct (has EREX f).
        - apply andb_prop in Ex as [Ex E3]. apply andb_prop in Ex as [E1 E2]. apply negb_true_iff in E1. rewrite E1, (A eq_refl), andb_false_r. cbn [orb andb]. rewrite bt3_ge by lia. split; [|lia]. apply orb_prop in E3 as [E3 | E3]; [|rewrite E3; reflexivity]. replace (7 <? x) with false by lia. apply andb_false_r.
        - apply andb_prop in Ex as [Ex _]. apply andb_prop in Ex as [E1 E2]. apply Bool.eqb_prop in E2. rewrite E2. cbn [andb]. rewrite orb_false_r, andb_assoc. split; [reflexivity|lia]. }
      destruct Fr2 as [-> Hx]. pose proof (num3 x Rx) as X. rewrite (bt4_lt x ltac:(lia)) in X. exact X.
    + intros kk x Eo Rx Nm Fo Ex. rewrite Ek in Ex. cbn [ext_fit] in Ex. fold f in Ex. rewrite andb_false_r in Ex. fold z in Ex. apply andb_prop in Ex as [Ex E3]. apply andb_prop in Ex as [E1 E2]. apply Bool.eqb_prop in E2. apply negb_true_iff in E3.
      assert (Fb2 : fb = bt x 3) by (subst fb; rewrite (B0 Nm), E3, E2; cbn [andb]; rewrite !orb_false_r, andb_assoc; reflexivity).
      rewrite Fb2. pose proof (num3 x Rx) as X. rewrite (bt4_lt x ltac:(lia)) in X. cbn [e16] in X. lia.
    + rewrite Ek. cbn [p_v]. auto.
    + intros i Hi H16. destruct (mem_B i Hi H16) as (_ & _ & _ & Bx). split; cbn [h_b h_x h_v2].
      * apply (Bm i Hi H16).
      * intros _. subst fx. rewrite Bx, Ge. cbn [has existsb andb]. destruct (mem_here i Hi) as (m & Em & Et & _ & _ & M). rewrite Et in *. destruct (src_idx m) as [[ki ni]|] eqn:Si; [|reflexivity]. cbn [snd].
        pose proof (md_n _ _ _ _ _ MD) as N. rewrite Hi, Et in N. destruct (mem_fields _ _ _ _ _ M _ _ H16 N) as (SE & _). destruct (idx_cases _ _ _ _ _ M H16 SE _ _ Si) as (R1 & _ & R2 & _). rewrite Ge in R2. specialize (R2 eq_refl). split.
        -- symmetry. apply bt3_ge. lia.
        -- unfold vecb. pose proof (ef_vec _ _ _ _ _ EF) as Vv. destruct (row_vec d); [|discriminate]. rewrite Gv in Vv. rewrite andb_false_r in Vv. discriminate.
    + unfold rc. rewrite D3, Ek. reflexivity.
    + unfold rc. rewrite D3, D2. reflexivity.
    + rewrite D1. reflexivity.
    + rewrite D1. reflexivity.
  - unfold front, PF, MRb. fold mode r. rewrite Rz. unfold vexb. fold ev k. rewrite Ek. cbn [app]. rewrite <- !app_assoc. reflexivity.
  - destruct (Z.eqb_spec (rexf fW fr fx fb any) 0) as [E0 | E0].
    + cbn [app]. destruct (mand2 (d_pfx d) ++ ropc d r) as [|b t]; [discriminate Am|]. exists b, t. split; [reflexivity|]. cbn [nth] in Af. unfold opclass in Af. repeat (apply andb_prop in Af as [Af ?]). apply negb_true_iff. exact Af.
    + cbn [app]. eexists _, _. split; [reflexivity|]. unfold rexf in E0 |- *. destruct any; [|congruence]. destruct fW, fr, fx, fb; reflexivity.
  - intros X. rewrite <- app_assoc. apply dec_head_legacy; auto using hmode.
Qed.

Lemma rexz_0 : k <> HLegacy -> rexz d c l n = 0.
Proof.
  intros Kn. destruct menc_facts as [Nr _]. pose proof (gf_kind _ _ _ GF) as G. fold k in G.
  assert (G2 : has REX f = false /\ has EREX f = false /\ has REXP_MEM f = false /\ d_vex d <> []) by (unfold f; destruct k eqn:Ekk; [congruence|destruct G as (_ & _ & A1 & A2 & A3 & _ & _ & _ & _ & _ & _ & _ & _ & A4 & _); auto..]). destruct G2 as (G3 & G4 & G5 & G6).
  assert (N0 : n_rex n = 0) by (rewrite Nr; destruct (d_vex d); [congruence|]; rewrite !andb_false_r; reflexivity).
  unfold rexz. rewrite N0. unfold BuildREX. fold f. rewrite G3, G4, G5. destruct (is64 _); reflexivity.
Qed.
Lemma front_vex : k <> HLegacy -> d_pfx d = NO_PFX -> use_oso d mode = false -> has F_OPCODE_REG f = false -> front d c l n = PF (n_aso n) (use_oso d mode) (seg_list (c_seg c)) (mand1 (d_pfx d)) ++ (vexb d c l n ++ [op]) ++ MRb.
Proof.
  intros Kn Gp Go Gr. unfold front, PF, MRb. fold mode. rewrite (rexz_0 Kn). rewrite Gp, Go. cbn [mand1 mand2 Z.eqb app]. pose proof (af_map _ _ _ _ _ _ _ _ AT) as Am. fold k r in Am |- *.
  assert (Ro : ropc d r = [op]) by (unfold rmap in Am; destruct k; [congruence|..]; apply pair_equal_spec in Am as [_ Am]; exact Am). rewrite Ro. rewrite ?app_nil_r, <- !app_assoc. cbn [app]. reflexivity.
Qed.
Lemma header_vex : k = HVex -> exists h H, header_ok h H.
Proof.
  intros Ek. pose proof (gf_kind _ _ _ GF) as G. fold k in G. rewrite Ek in G. destruct G as (Go & Gp & G3 & G4 & G5 & Gr & Gx & Gb & Gf & Ge & Gm & Gw & Gmap & Gv & _ & _). fold f in G3, G4, G5, Gf, Ge, Gm.
  destruct menc_facts as [_ N32]. destruct (not_ev_deco ltac:(congruence)) as (D1 & D2 & D3).
  set (v := vex_fields d l (n_B n) (n_X n)). exists (vexh v), (vexb d c l n ++ [op]).
  pose proof (af_map _ _ _ _ _ _ _ _ AT) as Am. fold k in Am. rewrite Ek in Am. cbn [rmap] in Am. apply pair_equal_spec in Am as [Am _].
  destruct (reg_role Gm) as (kr & xr & Er & Rr & Nr & Fr & Cr). rewrite Ek in Fr. cbn [ext_fit] in Fr. apply andb_prop in Fr as [Fr1 Fr2].
  assert (Dr : d_dir d <> NO_DST).
  { intros E. pose proof (gf_dir _ _ _ GF) as Gd. fold f in Gd. rewrite E in Gd. pose proof (ef_uses _ _ _ _ _ EF) as U. fold f in U. pose proof (ef_oreg _ _ _ _ _ EF) as U2. fold f in U2. rewrite Gm in U2. rewrite U2 in U. cbn [orb] in U. rewrite <- U in Gd. discriminate. }
  assert (Vr : v_r v = (7 <? xr)).
  { unfold v, vex_fields. cbn [v_r]. rewrite Gr. cbn [orb]. unfold p_reg in Er, Cr. destruct (d_dir d) eqn:Ed; [congruence| |].
    - rewrite Er. apply (above_reg 7 _ _ Nr).
    - destruct Cr as [Cr | [Cr | [Cr _]]]; [discriminate| |congruence]. rewrite Cr, Er. apply (above_reg 7 _ _ Nr). }
  assert (Vx : v_x v = n_X n) by (unfold v, vex_fields; cbn [v_x]; rewrite Gx; reflexivity).
  assert (Vv : v_vvvv v = match p_v d HVex with Some i => regno (base_reg (opn l i)) | None => 0 end).
  { unfold v, vex_fields, p_v. cbn [v_vvvv]. destruct (has VEX_DUP_NDS (d_vex d)), (has VEX_3RD_OP (d_vex d)), (has VEX_NDS (d_vex d)), (has VEX_DDS (d_vex d)); reflexivity. }
  assert (Vrange : 0 <= v_vvvv v < 16 /\ (mode = USE32 -> v_vvvv v < 8)).
  { rewrite Vv. destruct (p_v d HVex) as [i|] eqn:Ev; [|split; lia]. rewrite <- Ek in Ev. destruct (v_role i Ev) as (kk & x & E & R & N & B & C). rewrite E. cbn [base_reg]. change (0 <= regno (Some (kk, x)) < 16 /\ (mode = USE32 -> regno (Some (kk, x)) < 8)). rewrite N. specialize (B ltac:(congruence)). split; [lia|exact C]. }
  assert (Pl : plain_pfx thep = true) by (unfold plain_pfx, thep, the_pfx; cbn [q66 qrep]; rewrite Gp, Go; reflexivity).
  split; [|split; [|split]].
  - constructor; unfold vexh; cbn [h_kind h_rex h_w h_r h_x h_b h_r2 h_v2 h_vvvv h_ll h_pp h_map h_z h_bc h_aaa].
    + congruence.
    + rewrite Ek. reflexivity.
    + reflexivity.
    + reflexivity.
    + reflexivity.
    + rewrite Ek. reflexivity.
    + rewrite <- Am. reflexivity.
    + rewrite G3, andb_false_r. discriminate.
    + discriminate.
    + intros kk x Eo Rx Nx _ Ex _. rewrite Er in Eo. inversion Eo. subst kk x. rewrite Vr. pose proof (num3 xr Rx) as X. rewrite (bt4_lt xr ltac:(lia)), (bt3_ge xr ltac:(lia)) in X. exact X.
    + intros kk x Eo Rx Nx Nm Ex Cd. rewrite Ek in Ex |- *. cbn [hkind_eqb]. cbn [ext_fit] in Ex. apply andb_prop in Ex as [E1 _].
      assert (NB : n_B n = false) by (pose proof (md_n _ _ _ _ _ MD) as N; rewrite Nm in N; rewrite N; reflexivity).
      assert (Vb : v_b v = (7 <? x)).
      { unfold v, vex_fields. cbn [v_b]. rewrite Gb, NB. cbn [orb]. unfold p_rm in Eo, Cd. destruct (d_dir d) eqn:Ed; [congruence| |].
        - destruct Cd as [Cd | [Cd | [Cd _]]]; [discriminate| |congruence]. rewrite Cd, Eo. cbn [indirect negb andb]. apply (above_reg 7 _ _ Nx).
        - rewrite Eo. cbn [indirect negb andb]. apply (above_reg 7 _ _ Nx). }
      rewrite Vb. pose proof (num3 x Rx) as X. rewrite (bt4_lt x ltac:(lia)), (bt3_ge x ltac:(lia)) in X. exact X.
    + intros kk x _ _ _ Fo. rewrite Gf in Fo. discriminate.
    + rewrite Ek, Vv. destruct (p_v d HVex) as [i|]; [|auto]. intros kk x Eo Rx Nx Hx. rewrite Eo. cbn [base_reg e16]. rewrite Z.add_0_r. exact Nx.
    + intros i Hi H16. destruct (mem_B i Hi H16) as (Bb & _ & _ & Bx). destruct (mem_here i Hi) as (m & Em & Et & Im & Ko & M). destruct (mem_role i Hi) as (_ & _ & _ & _ & _ & _ & Rd & _ & _ & Rs). rewrite Et in *.
      pose proof (md_n _ _ _ _ _ MD) as N. rewrite Hi, Et in N. destruct (mem_fields _ _ _ _ _ M _ _ H16 N) as (SE & _).
      unfold h_mem. fold mode. split; cbn [h_b h_x h_v2].
      * intros Hb. rewrite <- (Bb Hb). unfold v, vex_fields. cbn [v_b]. rewrite Gb. cbn [orb].
        assert (A : (match d_dir d with REG_DST => negb (indirect (opn l (d_src d))) && above 7 (opn l (d_src d)) | RM_DST => negb (indirect (opn l 0)) && above 7 (opn l 0) | NO_DST => false end) = false).
        { assert (Mm : negb (indirect (OMem m)) && above 7 (OMem m) = false).
          { cbn [indirect]. destruct (x_indirect m) eqn:Xi; [reflexivity|]. destruct (mk_ind _ _ _ _ (mr_ok _ _ _ _ _ M) Xi) as [Xb _]. unfold above. cbn [base_reg]. rewrite Xb. reflexivity. }
          destruct (d_dir d) eqn:Ed; [reflexivity| |].
          - destruct Rs as [Rs | [Rs | [Rs | (_ & Rs & Rs2 & Rs3)]]]; [|discriminate|congruence|].
            + rewrite Rs, Em. exact Mm.
            + destruct (v_role _ Rs3) as (kg & ng & Eg & Rg & Ng & _). rewrite Rs2, Eg. pose proof (wo_gather _ _ _ WO Rs kg ng Eg) as X. cbn [indirect negb andb]. rewrite (above_reg 7 _ _ Ng). lia.
          - rewrite <- (Rd eq_refl), Em. exact Mm. }
        rewrite A. rewrite orb_false_r. reflexivity.
      * intros _. rewrite Vx, Bx. destruct (src_idx m) as [[ki ni]|] eqn:Si; [|reflexivity]. cbn [snd]. destruct (idx_cases _ _ _ _ _ M H16 SE _ _ Si) as (R1 & _ & R2 & _).
        assert (Hn : ni < 16).
        { pose proof (mk_idx _ _ _ _ (mr_ok _ _ _ _ _ M) _ Si) as X. destruct (row_vec d) as [kd|] eqn:Rv.
          - destruct X as (_ & _ & _ & X). destruct (Z_lt_le_dec ni 16); [assumption|]. specialize (X l0). rewrite evex_used_kind, Ek in X. discriminate.
          - apply R2. apply (mr_nvsib _ _ _ _ _ M eq_refl). }
        replace (15 <? ni) with false by lia. rewrite andb_false_r. split; [symmetry; apply bt3_ge; lia|]. intros _. symmetry. apply bt4_lt. lia.
    + unfold rc. rewrite D3, Ek. reflexivity.
    + unfold rc. rewrite D3, D2. reflexivity.
    + rewrite D1. reflexivity.
    + rewrite D1. reflexivity.
  - apply front_vex; try assumption. congruence.
  - unfold vexb. fold ev k. rewrite Ek. unfold BuildVEX, pack_vex. cbv zeta. destruct (vex_three d _); cbn [app]; eexists _, _; (split; [reflexivity|reflexivity]).
  - intros X. rewrite <- app_assoc. unfold vexb. fold ev k. rewrite Ek. unfold BuildVEX. cbv zeta. fold v. cbn [app]. apply dec_head_vex; auto using hmode.
    + apply Vrange.
    + unfold v, vex_fields. cbn [v_l]. destruct (d_size d =? 32); lia.
    + intros E32. rewrite Vr, Vx. destruct (N32 E32) as [_ ->]. rewrite (is64_32 E32), orb_false_r in Fr2. split; [lia|]. split; [reflexivity|]. apply Vrange, E32.
Qed.

Lemma header_evex : k = HEvex -> exists h H, header_ok h H.
Proof.
  intros Ek. pose proof (gf_kind _ _ _ GF) as G. fold k in G. rewrite Ek in G. destruct G as (Go & Gp & G3 & G4 & G5 & Gr & Gx & Gb & Gf & Ge & Gm & _ & Gmap & Gv & Gs & Grn). fold f in G3, G4, G5, Gf, Ge, Gm. specialize (Gs eq_refl). destruct Gs as [Gs1 Gs].
  destruct menc_facts as [_ N32].
  set (v := evex_fields d l c broad (n_B n) (n_X n) (n_RR n)). exists (evexh v), (vexb d c l n ++ [op]).
  pose proof (af_map _ _ _ _ _ _ _ _ AT) as Am. fold k in Am. rewrite Ek in Am. cbn [rmap] in Am. apply pair_equal_spec in Am as [Am _].
  destruct (reg_role Gm) as (kr & xr & Er & Rr & Nr & Fr & Cr). rewrite Ek in Fr. cbn [ext_fit] in Fr.
  assert (Fm : has F_MODRM f = true) by (pose proof (ef_uses _ _ _ _ _ EF) as U; fold f in U; pose proof (ef_oreg _ _ _ _ _ EF) as U2; fold f in U2; rewrite Gm in U2; rewrite U2 in U; cbn [orb] in U; symmetry; exact U).
  assert (Dr : d_dir d <> NO_DST).
  { intros E. pose proof (gf_dir _ _ _ GF) as Gd. fold f in Gd. rewrite E, Fm in Gd. discriminate. }
  assert (Rg : forall kk x, regno (Some (kk, x)) = x -> regno (base_reg (OReg (kk, x))) = x) by auto.
  assert (Vr : e_r v = bt xr 3 /\ e_r2 v = bt xr 4).
  { unfold v. rewrite fe_r, fe_r2. fold f. rewrite Gr, Ge, orb_false_r. rewrite <- bit3_bt, <- bit4_bt by exact Rr. unfold p_reg in Er, Cr. destruct (d_dir d) eqn:Ed; [congruence| |].
    - rewrite Er. cbn [indirect]. rewrite (Rg _ _ Nr). auto.
    - destruct Cr as [Cr | [Cr | [Cr _]]]; [discriminate| |congruence]. rewrite Cr, Er. cbn [indirect]. rewrite (Rg _ _ Nr). auto. }
  destruct Vr as [Vr Vr2].
  assert (Vv : 0 <= e_vvvv v < 32).
  { unfold v. rewrite fe_v. destruct (p_v d HEvex) as [i|] eqn:Ev; [|lia]. rewrite <- Ek in Ev. destruct (v_role i Ev) as (kk & x & E & R & N & _). rewrite E, (Rg _ _ N). exact R. }
  assert (Pl : plain_pfx thep = true) by (unfold plain_pfx, thep, the_pfx; cbn [q66 qrep]; rewrite Gp, Go; reflexivity).
  destruct (fe_rest d l c broad (n_B n) (n_X n) (n_RR n)) as (Fw & Fpp & Fmap & Fz & Fa). fold v in Fw, Fpp, Fmap, Fz, Fa.
  pose proof (fe_ll d l c broad (n_B n) (n_X n) (n_RR n) (wo_sae _ _ _ WO)) as Fl. pose proof (fe_bc d l c broad (n_B n) (n_X n) (n_RR n) (wo_sae _ _ _ WO)) as Fb. fold v in Fl, Fb.
  assert (Faaa : e_aaa v = c_deco c mod 8) by (rewrite Fa; change 7 with (Z.ones 3); rewrite Z.land_ones by lia; reflexivity).
  (* a memory operand *)
  assert (Mem : forall i, d_mem d = MemOpnd i -> is16 (the_mem d l) = false ->
            e_b v = n_B n /\ (has EVEX_VSIB (d_evex d) = false -> x_indirect (the_mem d l) = true -> e_x v = n_X n) /\ (mode = USE32 -> e_x v = false) /\
            (n_needsib n = true -> match src_idx (the_mem d l) with None => e_x v = false | Some rr => e_x v = bt (snd rr) 3 /\ (row_vec d <> None -> e_v2 v = bt (snd rr) 4) end)).
  { intros i Hi H16. destruct (mem_B i Hi H16) as (_ & _ & _ & Bx). destruct (mem_here i Hi) as (m & Em & Et & Im & Ko & M). destruct (mem_role i Hi) as (_ & _ & _ & _ & _ & _ & Rd & _ & _ & Rs). rewrite Et in *.
    pose proof (md_n _ _ _ _ _ MD) as N. rewrite Hi, Et in N. destruct (mem_fields _ _ _ _ _ M _ _ H16 N) as (SE & tm & tf & ts & Et3 & F4 & K). cbv zeta in K. destruct (CompDisp _ d c _) as [ok vv]. destruct K as (_ & _ & _ & _ & Ks & _).
    pose proof (mr_ok _ _ _ _ _ M) as Ok. fold mode in SE, Et3, Ok.
    assert (Rs' : d_dir d = REG_DST -> d_src d = i) by (intros E; rewrite E in Rs; destruct Rs as [Rs | [Rs | [Rs | (Rs & _)]]]; [exact Rs|discriminate|congruence|congruence]).
    set (xs := if has EVEX_VSIB (d_evex d) then above 23 (OMem m) || match idx_reg (OMem m) with Some rr => 23 <? regno (Some rr) | None => false end else false).
    assert (Ex : e_x v = (if x_indirect m then xs else match d_dir d with RM_DST => true | _ => false end) || n_X n).
    { unfold v. rewrite fe_x, Gx, orb_false_r. cbv zeta. rewrite Hi. cbn [memidx]. rewrite Em. fold xs. destruct (d_dir d) eqn:Ed; [congruence| |].
      - rewrite (Rs' eq_refl), Em. cbn [indirect]. destruct (x_indirect m) eqn:Xi; [reflexivity|]. destruct (mk_ind _ _ _ _ Ok Xi) as [Xb _]. unfold nbase. cbn [base_reg]. rewrite Xb. reflexivity.
      - specialize (Rd eq_refl). subst i. rewrite Em. cbn [indirect]. destruct (x_indirect m) eqn:Xi; [reflexivity|]. destruct (mk_ind _ _ _ _ Ok Xi) as [Xb _]. cbn [base_reg]. rewrite Xb. reflexivity. }
    assert (Dind : x_indirect m = false -> d_dir d = RM_DST -> mode = USE64 /\ label m = true).
    { intros Xi Ed. destruct Ko as [_ Ko]. rewrite evex_used_kind, Ek in Ko. destruct (Ko eq_refl Ed) as [A | A]; [congruence|exact A]. }
    assert (Xs : has EVEX_VSIB (d_evex d) = true -> exists rr, src_idx m = Some rr /\ xs = (23 <? snd rr) /\ 0 <= snd rr < 32 /\ (8 <= snd rr -> mode = USE64) /\ e_v2 v = (15 <? snd rr) /\ x_indirect m = true).
    { intros Vs. destruct (Gs Vs) as [Gg Gpv].
      assert (Rv : row_vec d <> None) by (unfold row_vec; rewrite Gg; destruct (d_types d) as [|[] ?]; discriminate).
      pose proof (mk_vec _ _ _ _ Ok Rv) as Si. destruct (src_idx m) as [rr|] eqn:Es; [|congruence]. exists rr. split; [reflexivity|]. destruct rr as [ki ni]. destruct (idx_cases _ _ _ _ _ M H16 SE _ _ Es) as (R1 & R2 & _ & R3).
      assert (Hs : simd (Some (ki, ni)) = true).
      { destruct (row_vec d) as [kd|] eqn:Rvd; [|congruence]. subst ki. pose proof (mr_vec _ _ _ _ _ M) as V. destruct V as [V | [V | [V | V]]]; inversion V; reflexivity. }
      assert (Hn : regno (@Some V2_Model.reg (ki, ni)) = ni) by (destruct ki; try discriminate Hs; reflexivity).
      assert (Ab : forall j, 15 <= j -> above j (OMem m) || match idx_reg (OMem m) with Some rr => j <? regno (Some rr) | None => false end = (j <? ni)).
      { intros j Hj. unfold above. cbn [base_reg idx_reg]. destruct (simd (x_base m)) eqn:Sb.
        - destruct (no_swap _ _ _ _ _ M SE Sb) as (A1 & _ & A3 & _). rewrite Es in A3. rewrite A1, <- A3. change (regno (Some (ki, ni))) with (regno (@Some V2_Model.reg (ki, ni))). rewrite Hn. apply orb_false_r.
        - unfold src_idx in Es. rewrite Sb in Es. rewrite Es. change (regno (Some (ki, ni))) with (regno (@Some V2_Model.reg (ki, ni))). rewrite Hn. destruct (x_base m) as [[kb nb]|] eqn:Eb; [|reflexivity].
          assert (Sbb : src_base m = Some (kb, nb)) by (unfold src_base; rewrite Eb; rewrite Sb; reflexivity). destruct (base_cases _ _ _ _ _ M H16 SE _ _ Sbb) as (_ & _ & [(-> & R & _) | [(-> & R & _) | (-> & U)]]); cbn [regno].
          + replace (j <? nb) with false by lia. reflexivity.
          + replace (j <? nb) with false by lia. reflexivity.
          + exfalso. unfold eb, ei in Et3. rewrite Sbb in Et3. cbn [regno] in Et3. unfold src_idx in Et3. rewrite Eb, Sb, Es in Et3. cbn [snd] in Et3.
            assert (R16 : 0 <= (if has EVEX_VSIB (d_evex d) && (15 <? ni) then Z.land ni 7 else ni) < 16) by (rewrite Vs; cbn [andb]; pose proof (land7 ni R1); destruct (15 <? ni) eqn:E15; lia).
            fold mode in U. rewrite U in Et3. rewrite (tabf_rip _ _ _ _ R16 Et3) in F4. discriminate. }
      split; [unfold xs; rewrite Vs, (Ab 23 ltac:(lia)); reflexivity|]. split; [exact R1|]. split; [exact R2|]. split.
      - unfold v. rewrite fe_v2, Vs, Hi. cbn [memidx]. rewrite Em. exact (Ab 15 ltac:(lia)).
      - destruct (x_indirect m) eqn:Xi; [reflexivity|]. destruct (mk_ind _ _ _ _ Ok Xi) as [X1 X2]. unfold src_idx in Es. rewrite X1, X2 in Es. discriminate. }
    assert (X0 : has EVEX_VSIB (d_evex d) = false -> xs = false) by (intros Vs; unfold xs; rewrite Vs; reflexivity).
    split; [|split; [|split]].
    - unfold v. rewrite fe_b, Gb, orb_false_r. destruct (d_dir d) eqn:Ed; [congruence| |].
      + rewrite (Rs' eq_refl), Em. cbn [indirect]. destruct (x_indirect m) eqn:Xi; [reflexivity|]. destruct (mk_ind _ _ _ _ Ok Xi) as [Xb _]. unfold nbase. cbn [base_reg]. rewrite Xb. reflexivity.
      + specialize (Rd eq_refl). subst i. rewrite Em. cbn [indirect]. destruct (x_indirect m) eqn:Xi; [reflexivity|]. destruct (mk_ind _ _ _ _ Ok Xi) as [Xb _]. cbn [base_reg]. rewrite Xb. reflexivity.
    - intros Vs Xi. rewrite Ex, Xi, (X0 Vs). reflexivity.
    - intros E32. rewrite Ex. destruct (N32 E32) as [_ ->]. rewrite orb_false_r. destruct (x_indirect m) eqn:Xi.
      + destruct (has EVEX_VSIB (d_evex d)) eqn:Vs; [|apply X0; reflexivity]. destruct (Xs eq_refl) as (rr & _ & -> & R & R2 & _). destruct (Z_lt_le_dec (snd rr) 8); [lia|]. rewrite (R2 l0) in E32. discriminate.
      + destruct (d_dir d) eqn:Ed; try reflexivity. destruct (Dind eq_refl eq_refl) as [A _]. congruence.
    - intros Nsib. destruct (src_idx m) as [[ki ni]|] eqn:Es.
      + cbn [snd] in *. destruct (idx_cases _ _ _ _ _ M H16 SE _ _ Es) as (R1 & _ & R2 & _). destruct (has EVEX_VSIB (d_evex d)) eqn:Vs.
        * destruct (Xs eq_refl) as (rr & Er2 & Xe & R & _ & Xv & Xi). inversion Er2. subst rr. cbn [snd] in *. rewrite Ex, Xi, Xe, Bx. cbn [andb]. split; [apply x_bits; exact R|]. intros _. rewrite Xv. rewrite <- bit4_bt by exact R. reflexivity.
        * specialize (R2 eq_refl). cbn [andb] in Bx. assert (Xi : x_indirect m = true).
          { destruct (x_indirect m) eqn:Xi; [reflexivity|]. destruct (mk_ind _ _ _ _ Ok Xi) as [X1 X2]. unfold src_idx in Es. rewrite X1, X2 in Es. discriminate. }
          rewrite Ex, Xi, (X0 eq_refl), Bx. cbn [orb]. split; [symmetry; apply bt3_ge; lia|]. intros Rv. exfalso. pose proof (ef_vec _ _ _ _ _ EF) as Vv2. fold k in Vv2. rewrite Ek in Vv2. destruct (row_vec d); [|congruence]. rewrite Vs in Vv2. cbn [hkind_eqb orb] in Vv2. rewrite andb_false_r in Vv2. discriminate.
      + rewrite Ex, Bx, orb_false_r. destruct (x_indirect m) eqn:Xi.
        * destruct (has EVEX_VSIB (d_evex d)) eqn:Vs; [|apply X0; reflexivity]. destruct (Xs eq_refl) as (rr & A & _). discriminate.
        * destruct (d_dir d) eqn:Ed; try reflexivity. exfalso. destruct (Dind eq_refl eq_refl) as [A1 A2]. destruct (mk_ind _ _ _ _ Ok Xi) as [X1 X2]. unfold eb, ei, src_base, src_idx in Et3. rewrite X1, X2, A1, A2 in Et3. change (tabf USE64 16 17) with (5, 9, 0) in Et3. inversion Et3. subst tm tf ts. rewrite Ks in Nsib. discriminate. }
  split; [|split; [|split]].
  - constructor; unfold evexh; cbn [h_kind h_rex h_w h_r h_x h_b h_r2 h_v2 h_vvvv h_ll h_pp h_map h_z h_bc h_aaa].
    + congruence.
    + rewrite Ek. exact Fw.
    + reflexivity.
    + reflexivity.
    + reflexivity.
    + rewrite Ek. exact Fpp.
    + rewrite <- Am. exact Fmap.
    + rewrite G3, andb_false_r. discriminate.
    + discriminate.
    + intros kk x Eo Rx Nx _ Ex _. rewrite Er in Eo. inversion Eo. subst kk x. rewrite Vr, Vr2. apply num3. exact Rr.
    + intros kk x Eo Rx Nx Nm Ex Cd. rewrite Ek. cbn [hkind_eqb].
      assert (NB : n_B n = false /\ n_X n = false) by (pose proof (md_n _ _ _ _ _ MD) as N; rewrite Nm in N; rewrite N; auto). destruct NB as [NB NX].
      assert (Vb : e_b v = bt x 3 /\ e_x v = bt x 4).
      { unfold v. rewrite fe_b, fe_x, Gb, Gx, NB, NX, !orb_false_r. cbv zeta. rewrite <- bit3_bt, <- bit4_bt by exact Rx. unfold p_rm in Eo, Cd. destruct (d_dir d) eqn:Ed; [congruence| |].
        - destruct Cd as [Cd | [Cd | [Cd _]]]; [discriminate| |congruence]. rewrite Cd, Eo. cbn [indirect]. unfold nbase. cbn [base_reg]. change (regno (Some (kk, x))) with (regno (base_reg (OReg (kk, x)))). rewrite (Rg _ _ Nx). auto.
        - rewrite Eo. cbn [indirect]. rewrite (Rg _ _ Nx). auto. }
      destruct Vb as [-> ->]. apply num3. exact Rx.
    + intros kk x _ _ _ Fo. rewrite Gf in Fo. discriminate.
    + rewrite Ek. unfold v. rewrite fe_v, fe_v2. destruct (p_v d HEvex) as [i|] eqn:Pv.
      * intros kk x Eo Rx Nx _. rewrite Eo, (Rg _ _ Nx). destruct (has EVEX_VSIB (d_evex d)) eqn:Vs; [destruct (Gs eq_refl) as [_ A]; discriminate|]. rewrite bit4_bt by exact Rx. pose proof (num3 x Rx) as X. pose proof (land7 x Rx) as [X2 X3].
        destruct (Z_lt_le_dec x 16); [rewrite (bt4_lt x) by lia; cbn [e16]; lia|rewrite (bt4_ge x) by lia; cbn [e16]; lia].
      * split; [reflexivity|]. destruct (has EVEX_VSIB (d_evex d)) eqn:Vs; [left|auto]. pose proof (ef_vec _ _ _ _ _ EF) as Vv2. destruct (row_vec d); [repeat (apply andb_prop in Vv2 as [Vv2 ?]); exact Vv2|]. rewrite Vs in Vv2. rewrite andb_false_r in Vv2. discriminate.
    + intros i Hi H16. destruct (Mem i Hi H16) as (M1 & _ & _ & M3). destruct (mem_B i Hi H16) as (Bb & _). unfold h_mem. fold mode. split; cbn [h_b h_x h_v2].
      * intros Hb. rewrite M1. apply (Bb Hb).
      * intros Hs. specialize (M3 Hs). destruct (src_idx (the_mem d l)); [|exact M3]. destruct M3 as [M4 M5]. split; [exact M4|]. intros Hv. apply M5. unfold vecb in Hv. destruct (row_vec d); discriminate.
    + rewrite Ek. exact Fl.
    + exact Fb.
    + exact Fz.
    + exact Faaa.
  - apply front_vex; try assumption. congruence.
  - unfold vexb. fold ev k. rewrite Ek. cbn [app pack_evex]. eexists _, _. split; [reflexivity|reflexivity].
  - intros X. rewrite <- app_assoc. unfold vexb. fold ev k. rewrite Ek. fold broad. fold v. cbn [app]. apply dec_head_evex; auto using hmode.
    + rewrite Fl. pose proof (wo_sae _ _ _ WO) as Sa. cbn [In] in Sa. unfold rll. destruct Sa as [<- | [<- | [<- | [<- | [<- | []]]]]]; cbn; try lia. destruct (d_size d =? 32), (d_size d =? 64); lia.
    + rewrite Fpp. apply pp_of_range.
    + rewrite Fmap. apply map_of_range.
    + rewrite Faaa. apply Z.mod_pos_bound. lia.
    + intros E32. rewrite Vr. rewrite (is64_32 E32), orb_false_r in Fr. split; [apply bt3_lt8; lia|]. destruct (d_mem d) as [|i|i] eqn:Ei.
      * destruct (rm_role Fm Ei) as (kk & x & Eo & Rx & Nx & Ex & Cd & _). rewrite Ek in Ex. cbn [ext_fit] in Ex. rewrite (is64_32 E32), orb_false_r in Ex.
        assert (NX : n_X n = false) by (pose proof (md_n _ _ _ _ _ MD) as N; rewrite Ei in N; rewrite N; auto).
        unfold v. rewrite fe_x, Gx, NX, !orb_false_r. cbv zeta. unfold p_rm in Eo, Cd. destruct (d_dir d) eqn:Ed; [congruence| |].
        -- destruct Cd as [Cd | [Cd | [Cd _]]]; [discriminate| |congruence]. rewrite Cd, Eo. cbn [indirect]. unfold nbase. cbn [base_reg]. change (regno (Some (kk, x))) with (regno (base_reg (OReg (kk, x)))). rewrite (Rg _ _ Nx). unfold bit4. lia.
        -- rewrite Eo. cbn [indirect]. rewrite (Rg _ _ Nx). unfold bit4. lia.
      * destruct (is16 (the_mem d l)) eqn:E16.
        -- destruct (mem_here i Ei) as (m & Em & Et & Im & Ko & M). pose proof (md_n _ _ _ _ _ MD) as N. rewrite Ei, Et in N. rewrite Et in E16. destruct (mem_fields16 _ _ _ _ _ M _ _ E16 N) as (_ & Rv & _ & _ & _ & _ & NX & _).
           pose proof (mr_nvsib _ _ _ _ _ M Rv) as Vs. destruct (mem_role i Ei) as (_ & _ & _ & _ & _ & _ & Rd & _ & _ & Rs).
           assert (Xi : x_indirect m = true) by (destruct (x_indirect m) eqn:Xi; [reflexivity|]; destruct (mk_ind _ _ _ _ (mr_ok _ _ _ _ _ M) Xi) as [A _]; unfold is16 in E16; rewrite A in E16; discriminate).
           unfold v. rewrite fe_x, Gx, NX, Vs, !orb_false_r. cbv zeta. destruct (d_dir d) eqn:Ed; [reflexivity| |].
           ++ destruct Rs as [Rs | [Rs | [Rs | (Rs & _)]]]; [|discriminate|congruence|congruence]. rewrite Rs, Em. cbn [indirect]. rewrite Xi. reflexivity.
           ++ specialize (Rd eq_refl). subst i. rewrite Em. cbn [indirect]. rewrite Xi. reflexivity.
        -- destruct (Mem i eq_refl eq_refl) as (_ & _ & A & _). exact (A E32).
      * exfalso. pose proof (gf_mod _ _ _ GF) as X2. fold f in X2. rewrite Fm, Ei in X2. discriminate.
Qed.
End Hd.
