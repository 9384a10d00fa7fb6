(** C39-C41: the processor decodes a generated instruction as the one written: ModRM, operands, displacement and immediate. *)
From Coq Require Import String Ascii.
From Verif Require Import Base Mem_Model Mem_Spec V2_Model V2_Table V2_Spec V2Bits_Proofs V2Mem_Proofs V2Row_Proofs V2Head_Proofs V2Type_Proofs V2Gen_Proofs V2Hd_Proofs.
Open Scope list_scope.

Local Arguments wrap : simpl never.
Local Arguments swrap : simpl never.
Local Arguments Z.lor : simpl never.
Local Arguments Z.shiftl : simpl never.
Local Arguments Z.land : simpl never.
Local Arguments Z.testbit : simpl never.
Local Arguments le_bytes : simpl never.
Local Arguments Z.modulo : simpl never.
Local Arguments Z.pow : simpl never.
Local Opaque tab regs row_entry lookup.

Lemma no_allow d : In d InstrTableV2 -> has ALLOW_LOCK (d_flags d) = false /\ has ALLOW_REP (d_flags d) = false /\ has ALLOW_BND (d_flags d) = false.
Proof.
  intros H. assert (T : forallb (fun d => negb (has ALLOW_LOCK (d_flags d)) && negb (has ALLOW_REP (d_flags d)) && negb (has ALLOW_BND (d_flags d))) InstrTableV2 = true) by (vm_compute; reflexivity).
  rewrite forallb_forall in T. specialize (T d H). apply andb_prop in T as [T A]. apply andb_prop in T as [B C]. repeat split; apply negb_true_iff; assumption.
Qed.
Lemma land7_range x : 0 <= Z.land x 7 < 8.
Proof. change 7 with (Z.ones 3). rewrite Z.land_ones by lia. apply Z.mod_pos_bound. lia. Qed.
Lemma in_rows_r d l : In (the_r d l) (row_rs d).
Proof.
  unfold the_r, row_rs. destruct (has F_OPCODE_REG (d_flags d)); [|left; reflexivity]. set (x := Z.land _ 7). pose proof (land7_range (regno (base_reg (opn l 0)))) as R. fold x in R.
  unfold zs. apply in_map_iff. exists (Z.to_nat x). split; [lia|]. apply in_seq. lia.
Qed.

Lemma opsize_eq mode p h p' k b w : q66 p = q66 p' -> h_w h = w -> opsize mode p h = opsize mode p' (mkh k b w).
Proof. intros E1 E2. unfold opsize, w64. cbn [h_w mkh]. rewrite E1, E2. reflexivity. Qed.
Lemma mem_bytes_eq mode p h p' k b w vl cl : q66 p = q66 p' -> h_w h = w -> mem_bytes mode p h vl cl = mem_bytes mode p' (mkh k b w) vl cl.
Proof. intros E1 E2. unfold mem_bytes. rewrite (opsize_eq mode p h p' k b w E1 E2). unfold w64. cbn [h_w mkh]. rewrite E2. reflexivity. Qed.
Lemma tail_bytes_eq mode p h p' k b w s : q66 p = q66 p' -> h_w h = w -> (s = Omoffs -> q67 p = q67 p') -> tail_bytes mode p h s = tail_bytes mode p' (mkh k b w) s.
Proof. intros E1 E2 E3. unfold tail_bytes. rewrite (opsize_eq mode p h p' k b w E1 E2). destruct s; try reflexivity. rewrite E3; reflexivity. Qed.
Lemma reg_of_eq mode p h vl cl x kk p' k b w : reg_of mode p' (mkh k b w) vl cl x = Some (kk, x) -> q66 p = q66 p' -> h_w h = w -> (b = true -> h_rex h = true) -> (b = false -> kk = K8H -> h_rex h = false) -> reg_of mode p h vl cl x = Some (kk, x).
Proof.
  intros H E1 E2 R1 R2. unfold reg_of in *. rewrite (opsize_eq mode p h p' k b w E1 E2). unfold w64 in *. cbn [h_w h_rex mkh] in *. rewrite E2. destruct cl; try exact H.
  destruct b; [rewrite (R1 eq_refl); exact H|]. destruct (Z.ltb_spec x 4); [exact H|]. destruct (Z.ltb_spec x 8); [|exact H].
  assert (kk = K8H) by congruence. rewrite (R2 eq_refl H2). exact H.
Qed.
Lemma all_some_ok {A B C} (f : A -> option B) (g : C -> B -> Prop) (P : A -> C -> bool) l m : forallb2 P l m = true -> (forall a c, In a l -> In c m -> P a c = true -> exists b, f a = Some b /\ g c b) ->
  exists ops, all_some (map f l) = Some ops /\ Forall2 g m ops.
Proof.
  revert m. induction l as [|a l IH]; destruct m as [|c m]; cbn [forallb2 map all_some]; intros H F; try discriminate; [exists []; split; [reflexivity|constructor]|].
  apply andb_prop in H as [H1 H2]. destruct (F a c) as (b & E & G); [left; reflexivity|left; reflexivity|exact H1|]. destruct (IH m H2) as (ops & E2 & G2); [intros; apply F; auto; right; assumption|].
  rewrite E, E2. exists (b :: ops). split; [reflexivity|]. constructor; assumption.
Qed.
Lemma combine_seq {A B} (da : A) (db : B) (l : list A) (m : list B) : length l = length m -> combine l m = map (fun i => (nth i l da, nth i m db)) (seq 0 (length l)).
Proof.
  revert m. induction l as [|a l IH]; destruct m as [|b m]; intros E; try discriminate; [reflexivity|]. cbn [length combine seq map nth]. f_equal. rewrite <- seq_shift, map_map. cbn [nth]. apply IH. cbn in E. lia.
Qed.
Lemma full_map {A B} (f : A -> B) name l : full name (map f l) = map f (full name l).
Proof. unfold full. rewrite map_length. destruct (_ || _); [|reflexivity]. rewrite map_app. f_equal. destruct l; reflexivity. Qed.
Lemma Forall2_map_l {A B C} (f : A -> B) (P : B -> C -> Prop) l m : Forall2 (fun a c => P (f a) c) l m -> Forall2 P (map f l) m.
Proof. induction 1; cbn [map]; constructor; assumption. Qed.

Section Asm.
Variables (d : row) (c : ci) (l : list opnd) (o : out) (n : menc) (mp op : Z) (e : man) (h : head) (H : list Z) (v : memx -> Z) (bytes : list Z).
Local Notation mode := (c_mode c).
Local Notation ev := (c_evex c).
Local Notation k := (rkind d (c_evex c)).
Local Notation broad := (PromoteBroadcast d (c_broad c)).
Local Notation f := (d_flags d).
Local Notation p := (thep d c n).
Local Notation w := (rw d (c_mode c) (rkind d (c_evex c)) (the_q d l)).
Hypothesis WO : written_ok d c l.
Hypothesis GF : gen_facts d mode ev.
Hypothesis MD : made d c l o n.
Hypothesis AT : at_facts d mode ev (the_q d l) (the_r d l) mp op e.
Hypothesis HK : header_ok d c l n mp op e h H.
Hypothesis LK : linked d c l o v bytes.
Lemma EF : ent_facts d mode ev (the_q d l) e.
Proof. exact (row_entry_facts _ _ _ _ _ _ (af_entry _ _ _ _ _ _ _ _ AT)). Qed.
Lemma HD : hd_ok d c l n mp e h p.
Proof. exact (proj1 HK). Qed.

Lemma role_lt vl s cl i : role_fit d mode ev k w vl (s, cl) i = true -> In i (full (d_name d) (seq 0 (length (d_types d)))) -> (i < length l)%nat.
Proof. intros _ Hi. apply full_in, in_seq in Hi. rewrite (len_types d c l WO) in Hi. lia. Qed.
Lemma fold_tail (g : osrc * cls -> nat) ops : fold_right (fun x r => (g x + r)%nat) 0%nat ops <> 0%nat -> exists x, In x ops /\ g x <> 0%nat.
Proof.
  induction ops as [|x ops IH]; cbn [fold_right]; intros Hn; [congruence|]. destruct (g x) eqn:G; [|exists x; split; [left; reflexivity|congruence]].
  destruct (IH Hn) as (y & Y1 & Y2). exists y. split; [right; exact Y1|exact Y2].
Qed.
Lemma abs_role i : d_mem d = MemAbs i -> exists m, opn l i = OMem m /\ the_mem d l = m /\ In (OMem m) l /\ opnd_ok d c (OMem m) /\ has NO_MEM_REG f = true /\ has F_MODRM f = false /\ x_base m = None /\ x_idx m = None /\ (mode = USE64 -> x_sym m = None).
Proof.
  intros Em. pose proof (ef_tail _ _ _ _ _ EF) as T. pose proof (ef_abs _ _ _ _ _ EF) as Ab. rewrite Em in T, Ab. apply Nat.eqb_eq in Ab. rewrite Ab in T.
  assert (T0 : fold_right (fun (o0 : osrc * cls) (n0 : nat) => (tail_bytes mode (mkp (rq66 d mode)) (mkh k false w) (fst o0) + n0)%nat) 0%nat (m_ops e) <> 0%nat) by (rewrite T; destruct mode; discriminate).
  apply fold_tail in T0 as ([s cl] & I1 & N1). cbn [fst] in N1.
  destruct (roles_in _ _ _ (ef_roles _ _ _ _ _ EF) _ I1) as (j & J1 & J2). pose proof (role_lt _ _ _ _ J2 J1) as J3. unfold role_fit in J2. rewrite Ab, Em in J2. destruct s; try (exfalso; exact (N1 eq_refl)).
  - destruct (imm_type _), (nat_eqo _ _); discriminate.
  - destruct (tail_bytes mode (mkp (rq66 d mode)) (mkh k false w) Oiz); [congruence|]. destruct (imm_type _), (nat_eqo _ _); discriminate.
  - destruct (tail_bytes mode (mkp (rq66 d mode)) (mkh k false w) Oiv); [congruence|]. destruct (imm_type _), (nat_eqo _ _); discriminate.
  - destruct (is_reg_type _), (nat_eqo _ _); discriminate.
  - apply andb_prop in J2 as [J2 _]. apply andb_prop in J2 as [J2 A4]. apply andb_prop in J2 as [J2 A3]. apply andb_prop in J2 as [A1 A2]. apply Nat.eqb_eq in A2. subst j.
    destruct (typed_mem d c l WO i J3 A1) as (m & M1 & M2 & M3). exists m. destruct (wo_abs _ _ _ WO A4) as [W1 W2]. destruct (W2 m M3) as [W3 W4].
    split; [exact M1|]. split; [unfold the_mem; rewrite Em; cbn [memidx]; rewrite M1; reflexivity|]. split; [exact M3|]. split; [exact M2|]. split; [exact A4|]. split; [apply negb_true_iff; exact A3|]. split; [exact W3|]. split; [exact W4|].
    intros E64. assert (X : has_memreg mode (OMem m) = false).
    { destruct (has_memreg mode (OMem m)) eqn:X; [|reflexivity]. assert (existsb (has_memreg mode) l = true) by (apply existsb_exists; eauto). congruence. }
    unfold has_memreg in X. rewrite E64 in X. cbn [ofs_eqb andb] in X. apply orb_false_iff in X as [_ X]. destruct (x_sym m); [discriminate|reflexivity].
Qed.
Lemma label_not16 m : mem_ok mode (evex_used d c) (row_vec d) m -> label m = true -> is16 m = false.
Proof.
  intros O L. unfold is16. destruct (x_base m) as [[[] b]|] eqn:E; try reflexivity. destruct (mk_a16 _ _ _ _ O b E) as (_ & X & _). unfold label in L. rewrite X in L. discriminate.
Qed.
Definition dispd (D : list Z) : Prop :=
  (D = le_bytes (n_dsize n) (n_disp n) /\ forall m, In (OMem m) l -> v m = x_value m /\ (evex_used d c = true -> evex_disp d c m)) \/
  (exists a, n_dsize n = 4%nat /\ D = le_bytes 4 a /\ label (the_mem d l) = true /\ (forall m, In (OMem m) l -> v m = a) /\ (mode = USE64 -> - 2 ^ 31 <= a < 2 ^ 31)).
Lemma linked_parts : exists D, length D = n_dsize n /\ bytes = front d c l n ++ D ++ le_bytes (imm_size d) (imm_value d l) /\ dispd D.
Proof.
  pose proof LK as LK'. unfold linked in LK'. rewrite (md_dfix _ _ _ _ _ MD), (md_bytes _ _ _ _ _ MD) in LK'.
  destruct (negb (Nat.eqb (n_dsize n) 0) && x_fix (the_mem d l) && needfix d l) eqn:E.
  2: { destruct LK' as [Eb Ev]. exists (le_bytes (n_dsize n) (n_disp n)). split; [apply le_bytes_length|]. split; [exact Eb|left; auto]. }
  apply andb_prop in E as [E _]. apply andb_prop in E as [E1 E2]. destruct LK' as (a & A1 & A2 & A3).
  assert (G : n_dsize n = 4%nat /\ label (the_mem d l) = true).
  { pose proof (md_n _ _ _ _ _ MD) as N. destruct (d_mem d) as [|i|i] eqn:Em.
    - subst n. discriminate.
    - destruct (mem_here d c l mp op e WO GF AT i Em) as (m & M1 & M2 & M3 & M4 & M5). rewrite M2 in *. destruct M4 as [M4 _]. pose proof (mk_fix _ _ _ _ M4 E2) as L. split; [|exact L].
      apply (disp_label d c _ _ m M5 broad n a 1 L (label_not16 m M4 L) N A2).
    - destruct (abs_role i Em) as (m & M1 & M2 & M3 & M4 & M5 & _ & _ & _ & M6). rewrite M2 in *. destruct M4 as [M4 _]. pose proof (mk_fix _ _ _ _ M4 E2) as L. split; [|exact L].
      destruct (abs_fields _ _ _ _ _ _ Em N) as (_ & _ & _ & _ & _ & _ & _ & _ & Ds). rewrite Ds. destruct (wo_mode _ _ _ WO) as [Hm | Hm]; rewrite Hm in *; [reflexivity|]. unfold label in L. rewrite (M6 eq_refl) in L. discriminate. }
  destruct G as [G1 G2]. exists (le_bytes 4 a). split; [rewrite le_bytes_length; symmetry; exact G1|]. split.
  - rewrite A3. unfold zlen. rewrite Nat2Z.id, firstn_app, Nat.sub_diag, firstn_all. cbn [firstn]. rewrite app_nil_r. f_equal. f_equal.
    rewrite G1. rewrite app_assoc, skipn_app, skipn_all2; [|rewrite app_length, le_bytes_length; lia]. rewrite app_length, le_bytes_length. rewrite Nat.sub_diag. reflexivity.
  - right. exists a. auto.
Qed.
(** ** ModRM *)
Definition rgv : Z := if has F_MODRM_REG f then Z.land (regno (base_reg (opn l (p_reg d)))) 7 else reg_const d.
Definition rmv : Z := Z.land (regno (base_reg (opn l (p_rm d)))) 7.
Lemma lor0 x : Z.lor x 0 = x.
Proof. apply Z.lor_0_r. Qed.
Lemma modrm_fst : has F_MODRM f = true -> snd (BuildModRM d l) = true /\ fst (BuildModRM d l) = (let m := Z.lor (d_modrm d) (Z.shiftl rgv 3) in if has F_MODRM_RM f then Z.lor m rmv else m).
Proof.
  intros F. unfold BuildModRM. rewrite F. split; [reflexivity|]. cbn [fst]. cbv zeta. unfold rgv, rmv, reg_const, p_reg, p_rm.
  pose proof (imp_true _ _ (gf_dir _ _ _ GF) F) as Dr. pose proof (gf_ext _ _ _ GF) as Ex. destruct (has OPCODE_EXT f); cbn [imp negb orb] in Ex.
  - apply negb_true_iff in Ex. rewrite Ex. destruct (d_dir d); try discriminate; reflexivity.
  - destruct (has F_MODRM_REG f); destruct (d_dir d); try discriminate; rewrite ?Z.shiftl_0_l, ?Z.lor_0_r; reflexivity.
Qed.
Lemma rgv_range : has F_MODRM f = true -> 0 <= rgv < 8 /\ match m_digit e with Some dg => rgv = dg | None => True end.
Proof.
  intros F. pose proof (ef_digit _ _ _ _ _ EF) as Dg. unfold rgv. destruct (m_digit e) as [dg|].
  - apply andb_prop in Dg as [Dg D4]. apply andb_prop in Dg as [Dg D3]. apply andb_prop in Dg as [D1 D2]. apply andb_prop in D1 as [_ D1]. apply negb_true_iff in D1. rewrite D1. lia.
  - rewrite F in Dg. cbn [negb] in Dg. rewrite orb_false_r in Dg. apply andb_prop in Dg as [Dg _]. rewrite Dg. split; [apply land7_range|auto].
Qed.
Definition IMM := le_bytes (imm_size d) (imm_value d l).
Lemma vsib_vec : m_vsib e = vecb (row_vec d).
Proof.
  pose proof (ef_vec _ _ _ _ _ EF) as V. unfold vecb. destruct (row_vec d).
  - apply andb_prop in V as [V _]. apply andb_prop in V as [V _]. apply andb_prop in V as [V _]. exact V.
  - apply andb_prop in V as [V _]. apply andb_prop in V as [V _]. apply negb_true_iff. exact V.
Qed.
Definition therm (D : list Z) (N : Z) : rmd := match d_mem d with NoMem => RmReg rmv | _ => RmMem (the_ea c (the_mem d l) p n D N) end.
Lemma ev_used : c_evex c = true -> evex_used d c = true.
Proof.
  intros E. rewrite (evex_used_kind d c l mp op e GF AT). destruct (rkind d (c_evex c)) eqn:K; [exfalso|exfalso|reflexivity].
  - pose proof (not_evex d c l o n mp op e GF MD AT ltac:(congruence)). congruence.
  - pose proof (not_evex d c l o n mp op e GF MD AT ltac:(congruence)). congruence.
Qed.
Lemma modrm_dec D N : has F_MODRM f = true -> length D = n_dsize n -> dec_rm mode p h (m_vsib e) N (MRb d l n ++ D ++ IMM) = Some (rgv, therm D N, IMM).
Proof.
  intros F LD. destruct (modrm_fst F) as [M1 M2]. destruct (rgv_range F) as [R _]. pose proof (md_n _ _ _ _ _ MD) as N0. unfold therm. destruct (d_mem d) as [|i|i] eqn:Em.
  - subst n. cbn [n_dsize no_menc] in LD. destruct D; [|discriminate]. unfold MRb. cbn [n_needmod n_needsib n_modrm no_menc orb app]. rewrite M1. cbn [app].
    destruct (rm_role d c l mp op e WO AT F Em) as (kk & x & X1 & X2 & X3 & X4 & X5 & X6 & X7). rewrite X6, X7 in M2. cbv zeta in M2. rewrite M2.
    assert (V : m_vsib e = false).
    { rewrite vsib_vec. pose proof (gf_gather _ _ _ GF) as G. unfold row_vec. rewrite Em in G. destruct (gather d); [discriminate|reflexivity]. }
    pose proof (modrm_reg rmv rgv (land7_range _) R) as Q. cbv zeta in Q. destruct Q as (Q1 & Q2 & Q3). unfold dec_rm. rewrite Q1, Q2, Q3, V. reflexivity.
  - destruct (mem_here d c l mp op e WO GF AT i Em) as (m & E1 & E2 & E3 & E4 & E5). rewrite E2 in *.
    destruct (mem_role d c l mp op e WO GF AT i Em) as (_ & _ & _ & F2 & F3 & _).
    assert (B : n_needmod n = true -> MRb d l n = modrm_bytes n rgv).
    { intros Hn. unfold MRb, modrm_bytes. rewrite Hn, M2, F2, F3. cbv zeta. rewrite Z.lor_0_l. reflexivity. }
    rewrite vsib_vec. destruct (is16 m) eqn:H16.
    + destruct (mem_decode16 d c _ _ m E5 broad n p h rgv D IMM N ev_used H16 N0 (hd_67 _ _ _ _ _ _ _ _ HD) R LD) as (G1 & G2 & _). rewrite (B G1). exact G2.
    + pose proof (hd_mem _ _ _ _ _ _ _ _ HD i Em) as Hm. rewrite E2 in Hm.
      destruct (mem_decode32 d c _ _ m E5 broad n p h rgv D IMM N H16 N0 (hd_67 _ _ _ _ _ _ _ _ HD) R LD (Hm H16)) as (G1 & G2). rewrite (B G1). exact G2.
  - pose proof (imp_true _ _ (gf_mod _ _ _ GF) F) as X. rewrite Em in X. discriminate.
Qed.
(** ** Operands *)
Lemma le_val_imm sz x : le_val (le_bytes sz x) = x mod 2 ^ (8 * Z.of_nat sz).
Proof. apply le_val_le_bytes. Qed.
Lemma reg_dec vl cl i num : fit d mode ev k w vl cl (nth i (d_types d) T_R_RIP) num = true -> (i < length l)%nat -> is_reg_type (nth i (d_types d) T_R_RIP) = true ->
  exists kk x, opn l i = OReg (kk, x) /\ 0 <= x < 32 /\ regno (Some (kk, x)) = x /\ num x = true /\ reg_of mode p h vl cl x = Some (kk, x).
Proof.
  intros F Hi T. destruct (fit_facts d c l WO w vl cl num i F Hi T) as (kk & x & X1 & X2 & X3 & X4 & X5 & X6 & X7). exists kk, x. split; [exact X1|]. split; [exact X2|]. split; [exact X3|]. split; [exact X4|].
  refine (reg_of_eq _ _ _ _ _ _ _ _ _ _ _ X5 (hd_66 _ _ _ _ _ _ _ _ HD) (hd_w _ _ _ _ _ _ _ _ HD) (hd_rex1 _ _ _ _ _ _ _ _ HD) _).
  intros B K. destruct (h_rex h) eqn:Rx; [exfalso|reflexivity]. destruct (X6 K) as [Y1 Y2]. subst kk.
  destruct (hd_rex2 _ _ _ _ _ _ _ _ HD Rx B) as [Y | Y]; [apply existsb_exists; exists (OReg (K8H, x)); split; [exact X7|reflexivity]|congruence|congruence].
Qed.
Definition rg_ : Z := if has F_MODRM f then rgv else 0.
Definition rm_ (D : list Z) (N : Z) : rmd := if has F_MODRM f then therm D N else RmReg 0.
Definition tl_ (D : list Z) : list Z := if has F_MODRM f then IMM else D ++ IMM.
Lemma tl_imm D : length D = n_dsize n -> (forall i, d_mem d <> MemAbs i) -> tl_ D = IMM.
Proof.
  intros LD Na. unfold tl_. destruct (has F_MODRM f) eqn:F; [reflexivity|]. pose proof (gf_nomod _ _ _ GF) as G. rewrite F in G. pose proof (md_n _ _ _ _ _ MD) as N0. destruct (d_mem d) as [|i|i] eqn:Em; [|discriminate|destruct (Na i eq_refl)].
  subst n. destruct D; [reflexivity|discriminate].
Qed.
Lemma imm_not_abs sz i : Nat.eqb (imm_size d) sz = true -> sz <> 0%nat -> d_mem d <> MemAbs i.
Proof. intros E N Em. pose proof (ef_abs _ _ _ _ _ EF) as A. rewrite Em in A. apply Nat.eqb_eq in A, E. congruence. Qed.
Lemma opsize_cases : opsize mode p h = 2 \/ opsize mode p h = 4 \/ opsize mode p h = 8.
Proof. unfold opsize. destruct (w64 mode h); [auto|]. destruct mode, (q66 p); auto. Qed.
Lemma opsize_h b : opsize mode (mkp (rq66 d mode)) (mkh k b w) = opsize mode p h.
Proof. symmetry. apply opsize_eq; [exact (hd_66 _ _ _ _ _ _ _ _ HD)|exact (hd_w _ _ _ _ _ _ _ _ HD)]. Qed.
Lemma memb_h b vl cl : mem_bytes mode (mkp (rq66 d mode)) (mkh k b w) vl cl = mem_bytes mode p h vl cl.
Proof. symmetry. apply mem_bytes_eq; [exact (hd_66 _ _ _ _ _ _ _ _ HD)|exact (hd_w _ _ _ _ _ _ _ _ HD)]. Qed.

(** rounding and broadcast *)
Lemma rc_evex : rc c = true -> k = HEvex /\ has EVEX_RND (d_evex d) = true /\ d_mem d = NoMem /\ has F_MODRM f = true /\ m_er e = true /\ c_broad c = 0 /\ broad = 0 /\
  forallb2 (role_fit d mode ev k w 64) (m_ops e) (full (d_name d) (seq 0 (length (d_types d)))) = true.
Proof.
  intros R. assert (S0 : c_sae c <> 0) by (unfold rc in R; destruct (Z.eqb_spec (c_sae c) 0); [discriminate|assumption]).
  assert (K : k = HEvex).
  { destruct (rkind d (c_evex c)) eqn:K; [exfalso|exfalso|reflexivity]; destruct (not_ev_deco d c l o n mp op e WO GF MD AT ltac:(congruence)) as (_ & _ & X); congruence. }
  destruct (wo_rnd _ _ _ WO S0) as [W1 W2]. pose proof (ef_rnd _ _ _ _ _ EF) as X. rewrite K, W1 in X. cbn [hkind_eqb andb] in X.
  assert (Y : (d_size d =? 64) || same_name (d_name d) "vcvtsi2ss" = true) by (destruct W2 as [W2 | W2]; rewrite W2; [reflexivity|apply orb_true_r]). rewrite Y in X. cbn [imp negb orb] in X.
  apply andb_prop in X as [X X3]. apply andb_prop in X as [X1 X2].
  assert (B0 : c_broad c = 0).
  { destruct (Z.eq_dec (c_broad c) 0) as [B | B]; [exact B|]. destruct (wo_broad _ _ _ WO) as [_ W]. destruct (W B) as [W3 _]. congruence. }
  pose proof (gf_kind _ _ _ GF) as G. rewrite K in G. destruct G as (_ & _ & _ & _ & _ & _ & _ & _ & _ & _ & G & _).
  split; [exact K|]. split; [exact W1|]. split; [destruct (d_mem d); [reflexivity|discriminate..]|]. split; [|split; [exact X1|split; [exact B0|split; [rewrite B0; unfold PromoteBroadcast; destruct (same_name (d_name d) "vcvtdq2pd"); reflexivity|rewrite K; exact X2]]]].
  rewrite <- (ef_uses _ _ _ _ _ EF), (ef_oreg _ _ _ _ _ EF), G. reflexivity.
Qed.
Lemma bc_evex : broad <> 0 -> k = HEvex /\ rc c = false /\ has EVEX_BRD (d_evex d) = true /\ tup_bc (m_tup e) <> None /\ bc_count (m_tup e) (veclen (rll d k) false) = written_bc broad /\ exists i, d_mem d = MemOpnd i.
Proof.
  intros B. assert (K : k = HEvex).
  { destruct (rkind d (c_evex c)) eqn:K; [exfalso|exfalso|reflexivity]; destruct (not_ev_deco d c l o n mp op e WO GF MD AT ltac:(congruence)) as (_ & X & _); congruence. }
  split; [exact K|]. split; [destruct (rc c) eqn:R; [destruct (rc_evex R) as (_ & _ & _ & _ & _ & _ & X & _); congruence|reflexivity]|].
  pose proof (md_ok _ _ _ _ _ MD K) as O. unfold evex_ok in O. cbv zeta in O. repeat match type of O with _ && _ = true => apply andb_prop in O as [O ?] end.
  assert (Bd : has EVEX_BRD (d_evex d) = true) by (destruct (has EVEX_BRD (d_evex d)); [reflexivity|]; destruct (Z.eqb_spec broad 0); [congruence|discriminate]).
  pose proof (ef_kind _ _ _ _ _ EF) as Q. rewrite K in Q. destruct Q as (Q & _). destruct (Q Bd) as (Q1 & Q2 & Q3 & Q4). split; [exact Bd|]. split; [exact Q1|]. split; [|exact Q4]. rewrite K, Q2.
  destruct (Z.eqb_spec broad (bc_elems (d_elem d))) as [<- | Ne]; [reflexivity|exfalso]. destruct (Z.eqb_spec broad 0); [congruence|].
  destruct Q3 as [Q3 | [Q3 | [Q3 | [Q3 | []]]]]; rewrite <- Q3 in *; discriminate.
Qed.
Lemma hll_rll : rc c = false -> h_ll h = rll d k /\ h_bc h = negb (broad =? 0).
Proof. intros R. rewrite (hd_ll _ _ _ _ _ _ _ _ HD), (hd_bc _ _ _ _ _ _ _ _ HD), R. auto. Qed.
Lemma rc_mem : d_mem d <> NoMem -> rc c = false.
Proof. intros M. destruct (rc c) eqn:R; [destruct (rc_evex R) as (_ & _ & X & _); congruence|reflexivity]. Qed.
(** the memory operand *)
Definition theN : Z := tupN (m_tup e) (veclen (h_ll h) false) (w64 mode h) (h_bc h).
Lemma disp_n m : d_mem d <> NoMem -> (evex_used d c = true -> evex_disp d c m) -> disp_ok d c m broad theN.
Proof.
  intros Dm Ed. unfold disp_ok, theN. destruct (hll_rll (rc_mem Dm)) as [E1 E2]. pose proof (ef_kind _ _ _ _ _ EF) as Q. rewrite (evex_used_kind d c l mp op e GF AT) in Ed.
  destruct (hkind_eqb k HEvex) eqn:K.
  2: { left. assert (T : m_tup e = TNone) by (destruct (rkind d (c_evex c)); [apply Q|apply Q|discriminate]). rewrite T. split; [|reflexivity].
       apply (not_evex d c l o n mp op e GF MD AT). intros X. rewrite X in K. discriminate. }
  assert (K' : k = HEvex) by (destruct (rkind d (c_evex c)); [discriminate|discriminate|reflexivity]). rewrite K' in Q. destruct Q as (_ & _ & _ & Q).
  right. destruct (Ed eq_refl) as [X | [(X1 & X2 & X3) | X]]; [left; exact X|right; left|right; right; exact X].
  assert (Bc : negb (broad =? 0) = true -> has EVEX_BRD (d_evex d) = true).
  { intros B. apply bc_evex. destruct (Z.eqb_spec broad 0); [discriminate|assumption]. }
  destruct (Q Dm X3 (negb (broad =? 0)) Bc) as [Q1 Q2]. rewrite E1, E2, K'.
  assert (W : w64 mode h = rw d mode HEvex (the_q d l) && is64 mode) by (unfold w64; rewrite (hd_w _ _ _ _ _ _ _ _ HD), K'; destruct mode; reflexivity). rewrite W, Q2.
  assert (N1 : comp_nd d (negb (broad =? 0)) = comp_n d broad) by (unfold comp_nd, comp_n; rewrite negb_involutive; reflexivity). rewrite N1 in *. auto.
Qed.
Lemma disp_agrees D i m : d_mem d = MemOpnd i -> the_mem d l = m -> In (OMem m) l -> dispd D ->
  (a_disp (the_ea c m p n D theN) - v m) mod 2 ^ src_asize mode m = 0.
Proof.
  intros Em E2 E3 Dd. pose proof (md_n _ _ _ _ _ MD) as N0. rewrite Em, E2 in N0. destruct (mem_here d c l mp op e WO GF AT i Em) as (m' & _ & E2' & _ & E4 & E5). rewrite E2 in E2'. subst m'. destruct E4 as [E4 _]. cbn [the_ea a_disp].
  destruct Dd as [[D1 D2] | (a & A1 & A2 & A3 & A4 & A5)].
  - destruct (D2 m E3) as [D3 D4]. rewrite D3, D1. pose proof (disp_n m ltac:(congruence) D4) as Dk. destruct (is16 m) eqn:H16.
    + destruct (mem_decode16 d c _ _ m E5 broad n p h 0 (le_bytes (n_dsize n) (n_disp n)) [] theN ev_used H16 N0 (hd_67 _ _ _ _ _ _ _ _ HD) ltac:(lia) (le_bytes_length _ _)) as (_ & _ & G). exact (G Dk).
    + exact (disp_decode32 d c _ _ m E5 broad n theN H16 N0 Dk).
  - rewrite E2 in A3. rewrite (A4 m E3), A2. apply (disp_label d c _ _ m E5 broad n a theN A3 (label_not16 m E4 A3) N0 A5).
Qed.
Lemma mem_dec D i : d_mem d = MemOpnd i -> dispd D -> exists m, opn l i = OMem m /\
  mem_agrees mode (c_seg c) m (v m) (if m_vsib e then Some (vkind (veclen (rll d k) false)) else None) (the_ea c (the_mem d l) p n D theN).
Proof.
  intros Em Dd. destruct (mem_here d c l mp op e WO GF AT i Em) as (m & E1 & E2 & E3 & E4 & E5). exists m. split; [exact E1|]. rewrite E2. destruct E4 as [E4 _].
  unfold mem_agrees. split; [reflexivity|]. split; [reflexivity|]. split; [reflexivity|]. split; [|split].
  - pose proof (ef_vec _ _ _ _ _ EF) as V. pose proof (mk_idx _ _ _ _ E4) as Ix. pose proof (mk_vec _ _ _ _ E4) as Vx. destruct (row_vec d) as [kd|] eqn:Rv.
    + apply andb_prop in V as [V _]. apply andb_prop in V as [V _]. apply andb_prop in V as [V1 V2]. rewrite V1. destruct (src_idx m) as [[kx x]|] eqn:Si; [|destruct (Vx ltac:(discriminate) eq_refl)].
      destruct (Ix _ eq_refl) as [Ik _]. cbn [fst] in Ik. subst kx.
      assert (Kd : kd = vkind (veclen (rll d k) false)) by (destruct kd; cbn [rk_eqb] in V2; destruct (vkind _); try discriminate; reflexivity).
      assert (Sm : simd (Some (kd, 0)) = true). { rewrite Kd. unfold vkind. destruct (_ =? 64); [reflexivity|]. destruct (_ =? 32); reflexivity. }
      rewrite Sm, Kd. reflexivity.
    + apply andb_prop in V as [V _]. apply andb_prop in V as [V _]. apply negb_true_iff in V. rewrite V. destruct (src_idx m) as [[kx x]|] eqn:Si; [|reflexivity].
      destruct (Ix _ eq_refl) as (Ik & _). destruct kx; try reflexivity; destruct Ik.
  - exact (disp_agrees D i m Em E2 E3 Dd).
  - unfold seg_agrees. cbn [the_ea a_seg a_base]. rewrite (hd_seg _ _ _ _ _ _ _ _ HD). destruct (c_seg c); [left; reflexivity|reflexivity].
Qed.
Lemma imm_val i : nat_eqo (d_imm d) i = true -> has VEX_4OPND (d_vex d) = false -> imm_type (nth i (d_types d) T_R_RIP) = true -> (i < length l)%nat ->
  exists s x fx, opn l i = OImm s x fx /\ imm_value d l = x /\ In (OImm s x fx) l /\ (nth i (d_types d) T_R_RIP <> T_IMM64 -> s <> I64).
Proof.
  intros E V T Hi. destruct (typed_imm d c l WO i Hi T) as (s & x & fx & X1 & X2 & X3 & X4). exists s, x, fx. split; [exact X1|]. split; [|split; [exact X3|exact X4]].
  unfold imm_value. destruct (d_imm d) as [j|]; [|discriminate]. cbn [nat_eqo] in E. apply Nat.eqb_eq in E. subst j. rewrite X1, V. reflexivity.
Qed.
Lemma wrap_sext sz x : (0 < sz)%nat -> wrap (8 * Z.of_nat sz) (sext sz (le_val (le_bytes sz x))) = wrap (8 * Z.of_nat sz) x.
Proof.
  intros P. rewrite le_val_imm. unfold sext. destruct sz; [lia|]. unfold wrap. rewrite swrap_mod by lia. apply Zmod_mod.
Qed.
Lemma op_ok D vl s cl i : In (s, cl) (m_ops e) -> length D = n_dsize n -> dispd D -> role_fit d mode ev k w vl (s, cl) i = true -> (i < length l)%nat -> (d_mem d <> NoMem -> vl = veclen (rll d k) false) ->
  exists x, dec_op mode p h e op rg_ (rm_ D theN) vl (le_val (tl_ D)) (s, cl) = Some x /\ agrees mode (c_seg c) v (nth i (d_types d) T_R_RIP) (opn l i) x.
Proof.
  intros Io LD Dd R Hi Vl. unfold role_fit in R. set (t := nth i (d_types d) T_R_RIP) in *. unfold dec_op. destruct s.
  - (* ModRM.reg *)
    apply andb_prop in R as [R R6]. apply andb_prop in R as [R R5]. apply andb_prop in R as [R R4]. apply andb_prop in R as [R R3]. apply andb_prop in R as [R1 R2]. apply Nat.eqb_eq in R2. subst i.
    destruct (reg_dec _ _ _ _ R4 Hi R3) as (kk & x & X1 & X2 & X3 & X4 & X5). exists (DReg (kk, x)). split; [|unfold agrees; rewrite X1; reflexivity].
    assert (F : has F_MODRM f = true) by (rewrite <- (ef_uses _ _ _ _ _ EF), (ef_oreg _ _ _ _ _ EF), R1; reflexivity).
    assert (Rg : rg_ = Z.land x 7). { unfold rg_, rgv. rewrite F, R1, X1. cbn [base_reg]. refine (f_equal (fun z => Z.land z 7) X3). }
    destruct (reg_role d c l mp op e WO AT R1) as (kk2 & x2 & Y1 & Y2 & Y3 & Y4 & Y5).
    assert (Y : kk2 = kk /\ x2 = x) by (rewrite X1 in Y1; split; congruence). destruct Y as [-> ->].
    rewrite Rg, (hd_reg _ _ _ _ _ _ _ _ HD kk x Y1 Y2 Y3 R1 Y4 Y5), X5. reflexivity.
  - (* ModRM.rm *)
    destruct (mem_type t) eqn:Mt.
    + destruct (d_mem d) as [|j|j] eqn:Em; try discriminate. repeat match type of R with _ && _ = true => apply andb_prop in R as [R ?] end. apply Nat.eqb_eq in R. subst j.
      destruct (mem_role d c l mp op e WO GF AT i Em) as (_ & _ & _ & _ & _ & F & _). unfold rm_, therm. rewrite F, Em.
      destruct (mem_dec D i Em Dd) as (m & M1 & M2). eexists. split; [reflexivity|]. unfold agrees. rewrite M1. rewrite (Vl ltac:(discriminate)). split; [exact M2|].
      destruct (type_bytes t) as [nb|]; [|auto].
      match goal with X : (mem_bytes _ _ _ _ _ =? nb) && _ = true |- _ => apply andb_prop in X as [B1 B2] end. apply Z.eqb_eq in B1. rewrite memb_h, (Vl ltac:(discriminate)) in B1. rewrite B1.
      destruct (tup_bc (m_tup e)) as [tb|]; [|reflexivity]. destruct (hll_rll (rc_mem ltac:(congruence))) as [_ Hb]. rewrite Hb. destruct (Z.eqb_spec broad 0) as [_ | Nb]; [reflexivity|exfalso].
      destruct (bc_evex Nb) as (K & _ & Bd & _). rewrite K, Bd in B2. discriminate.
    + apply andb_prop in R as [R R8]. apply andb_prop in R as [R R7]. apply andb_prop in R as [R R6]. apply andb_prop in R as [R R5]. apply andb_prop in R as [R R4]. apply andb_prop in R as [R R3]. apply andb_prop in R as [R1 R2]. apply Nat.eqb_eq in R2. subst i.
      assert (Em : d_mem d = NoMem) by (destruct (d_mem d); [reflexivity|discriminate..]).
      destruct (fit_facts d c l WO _ _ _ _ _ R6 Hi R1) as (kk & x & X1 & X2 & X3 & X4 & _ & _ & X7).
      destruct (reg_dec _ _ _ _ R6 Hi R1) as (kk' & x' & X1' & _ & _ & _ & X5). assert (Y : kk' = kk /\ x' = x) by (rewrite X1 in X1'; split; congruence). destruct Y as [-> ->]. clear X1'.
      exists (DReg (kk, x)). split; [|unfold agrees; rewrite X1; reflexivity].
      assert (F : has F_MODRM f = true). { rewrite <- (ef_orm _ _ _ _ _ EF). unfold uses. apply existsb_exists. exists (Orm, cl). split; [exact Io|reflexivity]. }
      unfold rm_, therm. rewrite F, Em.
      assert (Rm : rmv = Z.land x 7). { unfold rmv. rewrite X1. cbn [base_reg]. refine (f_equal (fun z => Z.land z 7) X3). }
      destruct (rm_role d c l mp op e WO AT F Em) as (kk2 & x2 & Y1 & Y2 & Y3 & Y4 & Y5 & _).
      assert (Y : kk2 = kk /\ x2 = x) by (rewrite X1 in Y1; split; congruence). destruct Y as [-> ->].
      pose proof (hd_rm _ _ _ _ _ _ _ _ HD kk x Y1 Y2 Y3 Em Y4 Y5) as Hr. rewrite (hd_kind _ _ _ _ _ _ _ _ HD), Rm.
      assert (Ht : Z.land x 7 + e8 (h_b h) + (if vecclass cl && hkind_eqb k HEvex then e16 (h_x h) else 0) = x).
      { destruct (hkind_eqb k HEvex) eqn:K; [|rewrite andb_false_r; exact Hr]. destruct (vecclass cl) eqn:Vc; [exact Hr|]. cbn [andb]. cbn [negb orb] in R8.
        destruct (typed_reg d c l WO (p_rm d) Hi R1) as (k3 & x3 & Z1 & _ & Z3 & _). assert (Y : k3 = kk /\ x3 = x) by (rewrite X1 in Z1; split; congruence). destruct Y as [-> ->].
        rewrite forallb_forall in R8. specialize (R8 _ Z3). cbn [snd] in R8. pose proof (land7_range x). unfold e8, e16 in *. destruct (h_b h), (h_x h); lia. }
      rewrite Ht, X5. reflexivity.
  - (* vvvv *)
    apply andb_prop in R as [R R3]. apply andb_prop in R as [R1 R2]. destruct (p_v d k) as [j|] eqn:Pv; [|discriminate]. cbn [nat_eqo] in R2. apply Nat.eqb_eq in R2. subst j.
    destruct (reg_dec _ _ _ _ R3 Hi R1) as (kk & x & X1 & X2 & X3 & X4 & X5). exists (DReg (kk, x)). split; [|unfold agrees; rewrite X1; reflexivity].
    pose proof (hd_v _ _ _ _ _ _ _ _ HD) as Hv. rewrite Pv in Hv. rewrite (Hv kk x X1 X2 X3), X5; [reflexivity|].
    intros K. apply andb_prop in X4 as [X4 _]. destruct (rkind d (c_evex c)); [lia|lia|congruence].
  - (* low bits of the opcode *)
    apply andb_prop in R as [R R5]. apply andb_prop in R as [R R4]. apply andb_prop in R as [R R3]. apply andb_prop in R as [R1 R2]. apply Nat.eqb_eq in R2. subst i.
    assert (Em : d_mem d = NoMem) by (destruct (d_mem d); [reflexivity|discriminate..]).
    destruct (reg_dec _ _ _ _ R5 Hi R1) as (kk & x & X1 & X2 & X3 & X4 & X5). exists (DReg (kk, x)). split; [|unfold agrees; rewrite X1; reflexivity].
    assert (Ro : op mod 8 = Z.land x 7).
    { rewrite (af_r _ _ _ _ _ _ _ _ AT R3). unfold the_r. rewrite R3, X1. cbn [base_reg]. refine (f_equal (fun z => Z.land z 7) X3). }
    rewrite Ro, (hd_opc _ _ _ _ _ _ _ _ HD kk x X1 X2 Em R3 X4), X5. reflexivity.
  - (* the accumulator *)
    apply andb_prop in R as [R1 R2]. destruct (reg_dec _ _ _ _ R2 Hi R1) as (kk & x & X1 & X2 & X3 & X4 & X5). exists (DReg (kk, x)). split; [|unfold agrees; rewrite X1; reflexivity].
    apply Z.eqb_eq in X4. subst x. rewrite X5. reflexivity.
  - (* a byte *)
    apply andb_prop in R as [R R4]. apply andb_prop in R as [R R3]. apply andb_prop in R as [R1 R2]. apply negb_true_iff in R4. destruct (imm_val i R2 R4 R1 Hi) as (ty & x & fx & X1 & X2 & X3 & X4).
    rewrite (tl_imm D LD (fun j => imm_not_abs 1 j R3 ltac:(discriminate))). apply Nat.eqb_eq in R3. unfold IMM. rewrite R3, X2. eexists. split; [reflexivity|]. unfold agrees. rewrite X1, le_val_imm. reflexivity.
  - (* the operand size, at most 4 bytes *)
    apply andb_prop in R as [R R5]. apply andb_prop in R as [R R4]. apply andb_prop in R as [R R3]. apply andb_prop in R as [R1 R2]. apply negb_true_iff in R4. destruct (imm_val i R2 R4 R1 Hi) as (ty & x & fx & X1 & X2 & X3 & X4).
    unfold tail_bytes in *. rewrite opsize_h in R3, R5.
    rewrite (tl_imm D LD (fun j => imm_not_abs _ j R3 ltac:(destruct (_ =? 2); discriminate))). apply Nat.eqb_eq in R3. unfold IMM. rewrite R3, X2. eexists. split; [reflexivity|]. unfold agrees. rewrite X1.
    destruct opsize_cases as [O | [O | O]]; rewrite O in *; cbn [Z.eqb Pos.eqb].
    + exact (wrap_sext 2 x ltac:(lia)).
    + exact (wrap_sext 4 x ltac:(lia)).
    + rewrite sext4. f_equal. apply swrap_small; [lia|]. change (32 - 1) with 31. apply (wo_imm _ _ _ WO ty x fx X3).
      cbn [Z.eqb Pos.eqb negb orb] in R5. apply orb_prop in R5 as [R5 | R5]; [left|right].
      * apply existsb_exists in R5 as (t' & T1 & T2). apply beq_eq in T2. subst t'. exact T1.
      * apply andb_prop in R5 as [R5 R6]. split.
        -- apply orb_prop in R5 as [R5 | R5]; [left|right]; apply existsb_exists in R5 as (t' & T1 & T2); apply beq_eq in T2; subst t'; exact T1.
        -- apply X4. intros Et. fold t in Et. rewrite Et in R6. discriminate.
  - (* the operand size *)
    apply andb_prop in R as [R R4]. apply andb_prop in R as [R R3]. apply andb_prop in R as [R1 R2]. apply negb_true_iff in R4. destruct (imm_val i R2 R4 R1 Hi) as (ty & x & fx & X1 & X2 & X3 & X4).
    unfold tail_bytes in *. rewrite opsize_h in R3.
    rewrite (tl_imm D LD (fun j => imm_not_abs _ j R3 ltac:(destruct opsize_cases as [O | [O | O]]; rewrite O; discriminate))). apply Nat.eqb_eq in R3. unfold IMM. rewrite R3, X2. eexists. split; [reflexivity|]. unfold agrees. rewrite X1, le_val_imm.
    destruct opsize_cases as [O | [O | O]]; rewrite O; reflexivity.
  - (* bits 7-4 of a byte *)
    apply andb_prop in R as [R R5]. apply andb_prop in R as [R R4]. apply andb_prop in R as [R R3]. apply andb_prop in R as [R1 R2].
    destruct (reg_dec _ _ _ _ R5 Hi R1) as (kk & x & X1 & X2 & X3 & X4 & X5). exists (DReg (kk, x)). split; [|unfold agrees; rewrite X1; reflexivity].
    rewrite (tl_imm D LD (fun j => imm_not_abs 1 j R3 ltac:(discriminate))). apply Nat.eqb_eq in R3. unfold IMM. rewrite R3, le_val_imm.
    assert (Iv : imm_value d l = Z.shiftl x 4). { unfold imm_value. destruct (d_imm d) as [j|]; [|discriminate]. cbn [nat_eqo] in R2. apply Nat.eqb_eq in R2. subst j. rewrite R4, X1. refine (f_equal (fun z => Z.shiftl z 4) X3). }
    rewrite Iv, Z.shiftl_mul_pow2 by lia. change (2 ^ 4) with 16. change (2 ^ (8 * Z.of_nat 1)) with 256.
    assert (Q : x * 16 mod 256 / 16 = x) by (cbv beta in X4; lia). rewrite Q, X5. reflexivity.
  - (* an absolute offset *)
    apply andb_prop in R as [R R5]. apply andb_prop in R as [R R4]. apply andb_prop in R as [R R3]. apply andb_prop in R as [R1 R2].
    destruct (d_mem d) as [|j|j] eqn:Em; try discriminate. apply Nat.eqb_eq in R2. subst j. destruct (abs_role i Em) as (m & M1 & M2 & M3 & M4 & M5 & M6 & M7 & M8 & M9).
    pose proof (md_n _ _ _ _ _ MD) as N0. rewrite Em, M2 in N0. destruct (abs_fields _ _ _ _ _ _ Em N0) as (_ & _ & _ & _ & _ & A1 & _ & A2 & A3).
    pose proof (ef_abs _ _ _ _ _ EF) as Ab. rewrite Em in Ab. apply Nat.eqb_eq in Ab. unfold tl_, IMM. rewrite M6, Ab. change (le_bytes 0 (imm_value d l)) with (@nil Z). rewrite app_nil_r.
    eexists. split; [reflexivity|]. unfold agrees. rewrite M1. split.
    + assert (Sb : src_base m = None) by (unfold src_base; rewrite M7, M8; reflexivity). assert (Si : src_idx m = None) by (unfold src_idx; rewrite M7, M8; reflexivity).
      assert (As : src_asize mode m = bits mode) by (unfold src_asize; rewrite Sb, Si; reflexivity). unfold mem_agrees. rewrite As, Si. cbn [a_size a_base a_index a_disp]. rewrite (hd_67 _ _ _ _ _ _ _ _ HD), A1.
      assert (Ad : addrbits mode false = bits mode) by (destruct mode; reflexivity). rewrite Ad. split; [reflexivity|]. split; [|split; [reflexivity|split; [reflexivity|split]]].
      * unfold src_abase. rewrite Sb, Si. destruct mode eqn:Md; try reflexivity. unfold label. rewrite (M9 eq_refl). reflexivity.
      * destruct Dd as [[D1 D2] | (a & B1 & B2 & B3 & B4 & B5)].
        -- destruct (D2 m M3) as [D3 _]. rewrite D3, D1, A2, le_val_imm, A3. destruct (wo_mode _ _ _ WO) as [Md | Md]; rewrite Md; cbn [bits].
           ++ change (8 * Z.of_nat 4) with 32. change (2 ^ 32) with 4294967296. clear. lia.
           ++ change (8 * Z.of_nat 8) with 64. rewrite Zminus_mod_idemp_l, Z.sub_diag. reflexivity.
        -- rewrite (B4 m M3), B2, le_val_imm. destruct (wo_mode _ _ _ WO) as [Md | Md]; rewrite Md in *; cbn [bits].
           ++ change (8 * Z.of_nat 4) with 32. change (2 ^ 32) with 4294967296. clear. lia.
           ++ rewrite A3 in B1. discriminate.
      * unfold seg_agrees. cbn [a_seg a_base]. rewrite (hd_seg _ _ _ _ _ _ _ _ HD). destruct (c_seg c); [left; reflexivity|reflexivity].
    + destruct (type_bytes t); [|auto]. apply Z.eqb_eq in R5. rewrite memb_h in R5. exact R5.
Qed.

(** ** The instruction *)
Lemma rll_range : 0 <= rll d k < 3.
Proof. unfold rll. destruct (rkind d (c_evex c)); repeat match goal with |- context [if ?b then _ else _] => destruct b end; lia. Qed.
Lemma evex_modrm : k = HEvex -> has F_MODRM f = true.
Proof.
  intros K. pose proof (gf_kind _ _ _ GF) as G. rewrite K in G. destruct G as (_ & _ & _ & _ & _ & _ & _ & _ & _ & _ & G & _). rewrite <- (ef_uses _ _ _ _ _ EF), (ef_oreg _ _ _ _ _ EF), G. reflexivity.
Qed.
Lemma rm_mem D N : d_mem d <> NoMem -> has F_MODRM f = true -> is_reg (rm_ D N) = false.
Proof. intros M F. unfold rm_, therm. rewrite F. destruct (d_mem d); [congruence|reflexivity|reflexivity]. Qed.
Lemma rm_reg D N : d_mem d = NoMem -> is_reg (rm_ D N) = true.
Proof. intros M. unfold rm_, therm. rewrite M. destruct (has F_MODRM f); reflexivity. Qed.
Lemma bc_reg D N : h_bc h && is_reg (rm_ D N) = rc c.
Proof.
  rewrite (hd_bc _ _ _ _ _ _ _ _ HD). destruct (rc c) eqn:R.
  - destruct (rc_evex R) as (_ & _ & M & _). rewrite (rm_reg D N M). reflexivity.
  - cbn [orb]. destruct (Z.eqb_spec broad 0) as [_ | B]; [reflexivity|]. destruct (bc_evex B) as (K & _ & _ & _ & _ & j & M). rewrite rm_mem; [reflexivity|congruence|exact (evex_modrm K)].
Qed.
Lemma roles_vl D N : forallb2 (role_fit d mode ev k w (veclen (h_ll h) (h_bc h && is_reg (rm_ D N)))) (m_ops e) (full (d_name d) (seq 0 (length (d_types d)))) = true /\ (d_mem d <> NoMem -> veclen (h_ll h) (h_bc h && is_reg (rm_ D N)) = veclen (rll d k) false).
Proof.
  rewrite bc_reg. destruct (rc c) eqn:R.
  - destruct (rc_evex R) as (K & _ & M & _ & _ & _ & _ & X). split; [exact X|congruence].
  - destruct (hll_rll R) as [E _]. rewrite E. split; [exact (ef_roles _ _ _ _ _ EF)|reflexivity].
Qed.
Lemma evex_facts : k = HEvex -> has EVEX_K (d_evex d) && (c_deco c mod 8 =? 0) = false /\ (has EVEX_MASK (d_evex d) = false -> c_deco c mod 8 = 0) /\ (has EVEX_Z (d_evex d) = false -> Z.testbit (c_deco c) 7 = false).
Proof.
  intros K. pose proof (md_ok _ _ _ _ _ MD K) as O. unfold evex_ok in O. cbv zeta in O. assert (L7 : Z.land (c_deco c) 7 = c_deco c mod 8) by (change 7 with (Z.ones 3); rewrite Z.land_ones by lia; reflexivity). rewrite L7 in O.
  apply andb_prop in O as [O _]. apply andb_prop in O as [O O5]. apply andb_prop in O as [O O4]. apply andb_prop in O as [O O3]. apply andb_prop in O as [O1 O2]. apply negb_true_iff in O1. split; [exact O1|]. split.
  - intros E. rewrite E in O4. cbn [negb andb] in O4. destruct (Z.eqb_spec (c_deco c mod 8) 0); [assumption|discriminate].
  - intros E. rewrite E in O5. cbn [negb andb] in O5. apply negb_true_iff. exact O5.
Qed.
Lemma orm_first D N cl ops : m_ops e = (Orm, cl) :: ops -> is_reg (rm_ D N) = false -> match l with OMem _ :: _ => True | _ => False end.
Proof.
  intros Eo Rm. pose proof (ef_roles _ _ _ _ _ EF) as Ro. rewrite Eo in Ro.
  assert (Hd : exists r, full (d_name d) (seq 0 (length (d_types d))) = 0%nat :: r /\ (0 < length l)%nat).
  { destruct (full (d_name d) (seq 0 (length (d_types d)))) as [|j r] eqn:Ef; [discriminate|]. exists r. pose proof (len_types d c l WO) as Le. rewrite Le in *. unfold full in Ef. destruct (length l) as [|ll].
    - destruct (_ || _); discriminate.
    - cbn [seq firstn app] in Ef. destruct (_ || _); inversion Ef; split; try reflexivity; lia. }
  destruct Hd as (r & Hd & Hl). rewrite Hd in Ro. cbn [forallb2] in Ro. apply andb_prop in Ro as [Ro _]. unfold role_fit in Ro.
  assert (Mt : mem_type (nth 0 (d_types d) T_R_RIP) = true).
  { destruct (mem_type (nth 0 (d_types d) T_R_RIP)); [reflexivity|]. exfalso. repeat match type of Ro with _ && _ = true => apply andb_prop in Ro as [Ro ?] end. destruct (d_mem d) eqn:Em; try discriminate. rewrite (rm_reg D N Em) in Rm. discriminate. }
  destruct (typed_mem d c l WO 0 Hl Mt) as (m & M1 & _). destruct l as [|x t]; [exact (Nat.nlt_0_r _ Hl)|]. cbn in M1. rewrite M1. auto.
Qed.
Lemma valid_ok D N : valid e h rg_ (rm_ D N) = true.
Proof.
  unfold valid. cbv zeta. rewrite bc_reg. pose proof (ef_kind _ _ _ _ _ EF) as Q. repeat (apply andb_true_intro; split).
  - unfold eqo, rg_. destruct (m_digit e) as [dg|] eqn:Ed; [|reflexivity]. destruct (has F_MODRM f) eqn:F.
    + destruct (rgv_range F) as [_ X]. rewrite Ed in X. lia.
    + pose proof (ef_digit _ _ _ _ _ EF) as X. rewrite Ed in X. rewrite F in X. discriminate.
  - destruct (rc c) eqn:R; [reflexivity|]. destruct (hll_rll R) as [E _]. rewrite E. cbn [orb]. pose proof (ef_ll _ _ _ _ _ EF) as X. pose proof rll_range. destruct (m_l e); [lia|exact X].
  - rewrite (ef_ov _ _ _ _ _ EF). pose proof (hd_v _ _ _ _ _ _ _ _ HD) as X. destruct (p_v d k); [reflexivity|]. destruct X as [X1 X2]. rewrite X1. destruct X2 as [-> | ->]; [reflexivity|apply orb_true_r].
  - rewrite (hd_bc _ _ _ _ _ _ _ _ HD). destruct (rc c) eqn:R.
    + destruct (rc_evex R) as (_ & _ & M & _ & X & _). rewrite (rm_reg D N M), X. reflexivity.
    + cbn [orb]. destruct (Z.eqb_spec broad 0) as [_ | B]; [reflexivity|]. destruct (bc_evex B) as (K & _ & _ & T & _ & j & M). rewrite rm_mem; [|congruence|exact (evex_modrm K)]. destruct (tup_bc (m_tup e)); [reflexivity|congruence].
  - rewrite (hd_z _ _ _ _ _ _ _ _ HD). destruct (Z.testbit (c_deco c) 7) eqn:Tz; [|reflexivity]. cbn [negb orb].
    assert (K : k = HEvex).
    { destruct (rkind d (c_evex c)) eqn:K; [exfalso|exfalso|reflexivity]; destruct (not_ev_deco d c l o n mp op e WO GF MD AT ltac:(congruence)) as (X & _); rewrite X in Tz; discriminate. }
    rewrite K in Q. destruct Q as (_ & Q & _). destruct (evex_facts K) as (_ & _ & X). destruct (has EVEX_Z (d_evex d)); [|rewrite X in Tz; [discriminate|reflexivity]]. rewrite (Q eq_refl). cbn [andb].
    unfold mem_dst. destruct (m_ops e) as [|[[] cl] ops] eqn:Eo; try reflexivity. destruct (is_reg (rm_ D N)) eqn:Ir; [reflexivity|]. exfalso. pose proof (orm_first D N cl ops Eo Ir) as X1. pose proof (wo_z _ _ _ WO Tz) as X2. destruct l as [|[] ?]; auto.
  - rewrite (hd_aaa _ _ _ _ _ _ _ _ HD). destruct (hkind_eqb k HEvex) eqn:K.
    + assert (K' : k = HEvex) by (destruct (rkind d (c_evex c)); [discriminate|discriminate|reflexivity]). rewrite K' in Q. destruct Q as (_ & _ & Q & _). destruct (evex_facts K') as (X1 & X2 & _). destruct (m_mask e); [rewrite (X2 Q); reflexivity|reflexivity|].
      rewrite Q in X1. cbn [andb] in X1. rewrite X1. reflexivity.
    + assert (K' : k <> HEvex) by (intros X; rewrite X in K; discriminate). destruct (not_ev_deco d c l o n mp op e WO GF MD AT K') as (X & _). rewrite X. assert (M : m_mask e = NoMask) by (destruct (rkind d (c_evex c)); [apply Q|apply Q|congruence]). rewrite M. reflexivity.
Qed.

Lemma tail_ok D : length D = n_dsize n -> zlen (tl_ D) = Z.of_nat (fold_right (fun o n => (tail_bytes mode p h (fst o) + n)%nat) 0%nat (m_ops e)).
Proof.
  intros LD. assert (Et : fold_right (fun o n => (tail_bytes mode p h (fst o) + n)%nat) 0%nat (m_ops e) = (imm_size d + match d_mem d with MemAbs _ => (match mode with USE64 => 8 | _ => 4 end)%nat | _ => 0%nat end)%nat).
  { rewrite <- (ef_tail _ _ _ _ _ EF).
    assert (G : forall ops, (forall x, In x ops -> In x (m_ops e)) -> fold_right (fun o n => (tail_bytes mode p h (fst o) + n)%nat) 0%nat ops = fold_right (fun o n => (tail_bytes mode (mkp (rq66 d mode)) (mkh k false w) (fst o) + n)%nat) 0%nat ops).
    { induction ops as [|x ops IH]; intros Hi; [reflexivity|]. cbn [fold_right]. rewrite IH by (intros y Hy; apply Hi; right; exact Hy). f_equal.
      apply tail_bytes_eq; [exact (hd_66 _ _ _ _ _ _ _ _ HD)|exact (hd_w _ _ _ _ _ _ _ _ HD)|]. intros Es. destruct x as [s cl]. cbn [fst] in Es. subst s.
      destruct (roles_in _ _ _ (ef_roles _ _ _ _ _ EF) _ (Hi _ (or_introl eq_refl))) as (j & _ & J2). unfold role_fit in J2. rewrite (hd_67 _ _ _ _ _ _ _ _ HD). pose proof (md_n _ _ _ _ _ MD) as N0.
      destruct (d_mem d) as [|i|i] eqn:Em; [rewrite N0; reflexivity|rewrite andb_false_r in J2; discriminate|]. destruct (abs_fields _ _ _ _ _ _ Em N0) as (_ & _ & _ & _ & _ & A & _). exact A. }
    apply G. auto. }
  rewrite Et. pose proof (ef_abs _ _ _ _ _ EF) as Ab. destruct (d_mem d) as [|i|i] eqn:Em.
  - rewrite tl_imm; [|exact LD|congruence]. unfold zlen, IMM. rewrite le_bytes_length. lia.
  - rewrite tl_imm; [|exact LD|congruence]. unfold zlen, IMM. rewrite le_bytes_length. lia.
  - apply Nat.eqb_eq in Ab. destruct (abs_role i Em) as (m & _ & M2 & _ & _ & _ & M6 & _). pose proof (md_n _ _ _ _ _ MD) as N0. rewrite Em, M2 in N0. destruct (abs_fields _ _ _ _ _ _ Em N0) as (_ & _ & _ & _ & _ & _ & _ & _ & A3).
    unfold tl_, IMM, zlen. rewrite M6, Ab, app_length, LD, A3. change (le_bytes 0 (imm_value d l)) with (@nil Z). cbn [length]. destruct (wo_mode _ _ _ WO) as [Md | Md]; rewrite Md; reflexivity.
Qed.
Lemma promoted : c_broad c = broad \/ (same_name (d_name d) "vcvtdq2pd" = true /\ written_bc (c_broad c) = 2 * written_bc broad).
Proof.
  unfold PromoteBroadcast. destruct (same_name (d_name d) "vcvtdq2pd"); [|left; reflexivity]. cbv zeta.
  destruct (Z.eqb_spec (c_broad c) 0x40) as [E | _]; [rewrite E; cbn [andb]; destruct (optype_beq _ T_R_ZMM); [right; split; reflexivity|left; reflexivity]|cbn [andb]].
  destruct (Z.eqb_spec (c_broad c) 0x30) as [E | _]; [rewrite E; cbn [andb]; destruct (optype_beq _ T_R_YMM); [right; split; reflexivity|left; reflexivity]|cbn [andb]].
  destruct (Z.eqb_spec (c_broad c) 0x20) as [E | _]; [rewrite E; cbn [andb]; destruct (optype_beq _ T_R_XMM); [right; split; reflexivity|left; reflexivity]|cbn [andb]].
  left. reflexivity.
Qed.
Lemma decoded : decodes_to d c l v bytes.
Proof.
  destruct linked_parts as (D & LD & Eb & Dd). fold IMM in Eb. destruct HK as (_ & Fr & (b & t & Hb & Pb) & Dh).
  destruct (roles_vl D theN) as [Ro Vm].
  destruct (all_some_ok (dec_op mode p h e op rg_ (rm_ D theN) (veclen (h_ll h) (h_bc h && is_reg (rm_ D theN))) (le_val (tl_ D))) (fun i x => agrees mode (c_seg c) v (nth i (d_types d) T_R_RIP) (nth i l ONone) x) _ _ _ Ro) as (ops & O1 & O2).
  { intros [s cl] i I1 I2 I3. apply (op_ok D _ s cl i I1 LD Dd I3 (role_lt _ _ _ _ I3 I2) Vm). }
  assert (Di : disasm mode bytes = Some {| i_name := m_name e; i_ops := ops; i_aaa := h_aaa h; i_z := h_z h; i_bc := if h_bc h && negb (is_reg (rm_ D theN)) then bc_count (m_tup e) (veclen (h_ll h) (h_bc h && is_reg (rm_ D theN))) else 0;
                                      i_rc := if h_bc h && is_reg (rm_ D theN) then Some (h_ll h) else None |}).
  { unfold disasm. rewrite Eb, Fr, <- !app_assoc, Hb. cbn [app].
    assert (Pf : forall X, prefixes no_pfx (PF (n_aso n) (use_oso d mode) (seg_list (c_seg c)) (mand1 (d_pfx d)) ++ b :: X) = (p, b :: X)) by (intros X; apply prefixes_PF; [exact Pb|intros r Er; exact (wo_seg _ _ _ WO r Er)]).
    rewrite Pf. change (b :: t ++ MRb d l n ++ D ++ IMM) with ((b :: t) ++ MRb d l n ++ D ++ IMM). rewrite <- Hb, Dh.
    rewrite (hd_kind _ _ _ _ _ _ _ _ HD), (hd_pp _ _ _ _ _ _ _ _ HD), (hd_map _ _ _ _ _ _ _ _ HD), (hd_w _ _ _ _ _ _ _ _ HD), (af_lookup _ _ _ _ _ _ _ _ AT), (ef_uses _ _ _ _ _ EF).
    fold theN. assert (Mr : (if has F_MODRM f then dec_rm mode p h (m_vsib e) theN (MRb d l n ++ D ++ IMM) else Some (0, RmReg 0, MRb d l n ++ D ++ IMM)) = Some (rg_, rm_ D theN, tl_ D)).
    { unfold rg_, rm_, tl_. destruct (has F_MODRM f) eqn:F; [exact (modrm_dec D theN F LD)|].
      assert (Mn : MRb d l n = []); [|rewrite Mn; reflexivity]. unfold MRb, BuildModRM. rewrite F. cbn [snd fst]. pose proof (md_n _ _ _ _ _ MD) as N0. pose proof (gf_nomod _ _ _ GF) as G. rewrite F in G.
      destruct (d_mem d) as [|i|i] eqn:Em; [rewrite N0; reflexivity|discriminate|]. destruct (abs_fields _ _ _ _ _ _ Em N0) as (A1 & A2 & _). rewrite A1, A2. reflexivity. }
    rewrite Mr. cbv zeta. rewrite valid_ok, (tail_ok D LD), Z.eqb_refl. cbn [andb]. rewrite O1. reflexivity. }
  eexists. split; [exact Di|]. cbn [i_name i_ops]. split; [apply String.eqb_eq; exact (ef_name _ _ _ _ _ EF)|]. split.
  - rewrite (combine_seq T_R_RIP ONone) by exact (len_types d c l WO). rewrite full_map. apply Forall2_map_l. exact O2.
  - constructor; cbn [i_aaa i_z i_bc i_rc].
    + exact (hd_aaa _ _ _ _ _ _ _ _ HD).
    + exact (hd_z _ _ _ _ _ _ _ _ HD).
    + destruct (Z.eq_dec broad 0) as [B | B].
      * assert (Hn : h_bc h && negb (is_reg (rm_ D theN)) = false).
        { rewrite (hd_bc _ _ _ _ _ _ _ _ HD), B. cbn [Z.eqb negb]. rewrite orb_false_r. destruct (rc c) eqn:R; [|reflexivity]. destruct (rc_evex R) as (_ & _ & M & _). rewrite (rm_reg D theN M). reflexivity. }
        rewrite Hn. left. destruct (wo_broad _ _ _ WO) as [Wb _]. destruct promoted as [Pr | [_ Pr]]; [rewrite Pr, B; reflexivity|]. rewrite B in Pr. rewrite Pr. reflexivity.
      * destruct (bc_evex B) as (K & R & _ & _ & Bc & j & M). destruct (hll_rll R) as [E1 E2]. assert (Ir : is_reg (rm_ D theN) = false) by (apply rm_mem; [congruence|exact (evex_modrm K)]).
        rewrite Ir, E1, E2, andb_false_r. destruct (Z.eqb_spec broad 0); [congruence|]. cbn [negb andb]. rewrite Bc. destruct promoted as [Pr | [P1 Pr]]; [left; apply (f_equal written_bc); symmetry; exact Pr|right; split; [exact P1|symmetry; exact Pr]].
    + rewrite bc_reg, (hd_ll _ _ _ _ _ _ _ _ HD). unfold written_rc, rc. destruct (c_sae c =? 0); reflexivity.
Qed.
End Asm.

Theorem gen_decodes d c l o v bytes : In d InstrTableV2 -> l <> [] -> written_ok d c l -> gen d c l = Ok o -> linked d c l o v bytes -> decodes_to d c l v bytes.
Proof.
  intros Hin NE WO G LK. destruct (no_allow d Hin) as (F1 & F2 & F3). destruct (gen_inv d c l o G F1 F2 F3) as [n MD].
  pose proof (not_skip d c l WO NE (md_ev _ _ _ _ _ MD)) as Sk. pose proof (row_checked d (c_mode c) (c_evex c) Hin (wo_mode _ _ _ WO) Sk) as GF.
  assert (Iq : In (the_q d l) (mem_qs d)).
  { unfold the_q, mem_qs. left. destruct (has REXP_MEM (d_flags d)) eqn:Rx; [|reflexivity]. cbn [andb]. pose proof (imp_true _ _ (gf_rexp _ _ _ GF) Rx) as X. destruct (d_mem d) as [|i|i]; try discriminate. cbn [memidx].
    assert (Hi : (i < length l)%nat). { rewrite <- (len_types d c l WO). destruct (Nat.lt_ge_cases i (length (d_types d))); [assumption|]. rewrite nth_overflow in X by assumption. discriminate. }
    destruct (typed_mem d c l WO i Hi X) as (m & M1 & M2 & M3). rewrite M1. destruct M2 as [M2 _]. rewrite (mk_q _ _ _ _ M2). destruct (typed d c l WO i Hi) as (T & _). rewrite M1 in T.
    apply has_type_cases in T as [T | T]; rewrite T; cbn [MatchOperand].
    - destruct (x_size m); reflexivity.
    - assert (Ta : In T_M_ANY (d_types d)). { replace T_M_ANY with (nth i (d_types d) T_R_RIP); [apply nth_In; rewrite (len_types d c l WO); exact Hi|]. rewrite T. cbn [MatchOperand]. destruct (x_size m); reflexivity. }
      pose proof (wo_untyped _ _ _ WO Rx Ta m M3) as X6. destruct (x_size m); try reflexivity. congruence. }
  destruct (row_at_facts _ _ _ _ _ (gf_at _ _ _ GF _ _ Iq (in_rows_r d l))) as (mp & op & e & AT).
  assert (Hh : exists h H, header_ok d c l n mp op e h H).
  { destruct (rkind d (c_evex c)) eqn:K; [exact (header_legacy d c l o n mp op e WO GF MD AT K)|exact (header_vex d c l o n mp op e WO GF MD AT K)|exact (header_evex d c l o n mp op e WO GF MD AT K)]. }
  destruct Hh as (h & H & HK). exact (decoded d c l o n mp op e h H v bytes WO GF MD AT HK LK).
Qed.
