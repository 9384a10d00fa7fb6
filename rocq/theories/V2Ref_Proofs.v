(** C42: what is refused. *)
From Coq Require Import String Ascii.
From Verif Require Import Base Mem_Model Mem_Spec V2_Model V2_Table V2_Spec V2Bits_Proofs V2Row_Proofs V2Type_Proofs V2Gen_Proofs V2Asm_Proofs V2Sel_Proofs V2Acc_Proofs.
Open Scope list_scope.
Local Arguments wrap : simpl never.
Local Arguments swrap : simpl never.
Local Arguments Z.land : simpl never.
Local Arguments Z.testbit : simpl never.

Lemma tab_16 : forallb (fun s => forallb (fun i => Z.testbit (snd (fst (tab s 16 i))) 4) (zs 16)) [USE32; USE64] = true.
Proof. vm_compute. reflexivity. Qed.
Lemma tab_rip s i : s = USE32 \/ s = USE64 -> 0 <= i < 16 -> Z.testbit (snd (fst (tab s 16 i))) 4 = true.
Proof.
  intros Hs Hi. pose proof tab_16 as T. rewrite forallb_forall in T. assert (Hi' : In i (zs 16)) by (unfold zs; apply in_map_iff; exists (Z.to_nat i); split; [lia|]; apply in_seq; lia).
  assert (T' : forallb (fun i => Z.testbit (snd (fst (tab s 16 i))) 4) (zs 16) = true) by (apply T; destruct Hs as [-> | ->]; cbn; tauto). rewrite forallb_forall in T'. exact (T' i Hi').
Qed.
Local Opaque tab regs row_entry lookup InstrTableV2.

Definition neg_facts (d : row) : bool :=
  let ev := has EVEX_ONLY (d_evex d) || has EVEX (d_vex d) in
  negb (has ALLOW_LOCK (d_flags d) || has ALLOW_REP (d_flags d) || has ALLOW_BND (d_flags d)) &&
  imp (has ALLOW_SEG (d_flags d)) (gp_group (d_group d) && existsb mem_type (d_types d)) &&
  imp (has ALLOW_SEGX (d_flags d)) (has NO_MEM_REG (d_flags d)) &&
  imp (ev && gather d) (has EVEX_K (d_evex d)) &&
  imp (has EVEX_MASK (d_evex d)) (negb (same_name (d_name d) "vcvtsi2ss")) &&
  imp (has EVEX_Z (d_evex d)) (negb (same_name (d_name d) "vcvtsi2ss" || gather d)) &&
  imp (ev && has EVEX_BRD (d_evex d))
      (existsb (same_name (d_name d)) ["vmulps"; "vpshufd"; "vblendmpd"; "vcvtdq2pd"]%string && imp (existsb mem_type (d_types d)) (existsb (optype_beq T_M_ANY) (d_types d)) &&
       existsb (Z.eqb (d_elem d)) [16; 8; 4; 2] &&
       imp (existsb mem_type (d_types d))
           (forallb (fun b => imp (PromoteBroadcast d b =? bc_elems (d_elem d)) ((written_bc b =? 8 * d_size d / bc_bits d) || (same_name (d_name d) "vcvtdq2pd" && (written_bc b =? 2 * (8 * d_size d / bc_bits d)))))
                    [0x10; 0x20; 0x30; 0x40])) &&
  imp (ev && has EVEX_RND (d_evex d)) (negb (existsb mem_type (d_types d))) &&
  match d_mem d with
  | MemOpnd i => Nat.leb (length (d_types d)) 5 && forallb (fun j => imp (mem_type (nth j (d_types d) T_R_RIP)) (Nat.eqb j i)) (seq 0 5)
  | MemAbs i => has NO_MEM_REG (d_flags d)
  | NoMem => negb (existsb mem_type (d_types d))
  end.
Lemma neg_all : forallb neg_facts InstrTableV2 = true.
Proof. vm_compute. reflexivity. Qed.

Section Row.
Variables (d : row) (c : ci) (l : list opnd) (o : out).
Hypotheses (Hin : In d InstrTableV2) (WO : written_ok d c l) (G : gen d c l = Ok o).
Lemma nf : neg_facts d = true.
Proof. pose proof neg_all as T. rewrite forallb_forall in T. exact (T d Hin). Qed.
Lemma mem_in_types m : In (OMem m) l -> exists i, (i < length l)%nat /\ opn l i = OMem m /\ mem_type (nth i (d_types d) T_R_RIP) = true.
Proof.
  intros Hm. apply (In_nth _ _ ONone) in Hm as (i & Hi & Ni). exists i. split; [exact Hi|]. split; [exact Ni|]. destruct (typed d c l WO i Hi) as (T & _). unfold opn in T. rewrite Ni in T. apply type_mem in T as [T _]. exact T.
Qed.
Lemma mem_existsb m : In (OMem m) l -> existsb mem_type (d_types d) = true.
Proof.
  intros Hm. destruct (mem_in_types m Hm) as (i & Hi & _ & T). apply existsb_exists. exists (nth i (d_types d) T_R_RIP). split; [apply nth_In; rewrite (len_types d c l WO); exact Hi|exact T].
Qed.
(** the parts of gen *)
Lemma gen_parts : (exists n, match d_mem d with NoMem => Ok no_menc | _ => BuildMemoryEncoding d (the_mem d l) c (PromoteBroadcast d (c_broad c)) end = Ok n) /\
  (vex_used d c = false -> evex_used d c = true -> evex_ok d l c (PromoteBroadcast d (c_broad c)) = true) /\ (c_evex c = true -> d_evex d <> []) /\
  (exists ip, ins_prefix d (c_ins c) = Ok ip) /\ exists sp, seg_prefix d c = Ok sp.
Proof.
  pose proof G as H. unfold gen in H. cbv zeta in H.
  destruct (match d_mem d with NoMem => Ok no_menc | _ => BuildMemoryEncoding d (the_mem d l) c (PromoteBroadcast d (c_broad c)) end) as [n| |]; cbn [bindr] in H; try discriminate. split; [eexists; reflexivity|].
  destruct (BuildModRM d l) as [mm need]. fold (vex_used d c) in H. fold (evex_used d c) in H. split.
  { intros V E. rewrite V, E in H. destruct (evex_ok d l c (PromoteBroadcast d (c_broad c))); [reflexivity|discriminate]. }
  destruct (if vex_used d c then _ else _) as [vx| |]; cbn [bindr] in H; try discriminate. split.
  { intros E N. rewrite E, N in H. discriminate. }
  destruct (c_evex c && _); [discriminate|]. destruct (ins_prefix d (c_ins c)) as [ip| |]; cbn [bindr] in H; try discriminate. split; [eexists; reflexivity|].
  destruct (seg_prefix d c) as [sp| |]; cbn [bindr] in H; try discriminate. eexists; reflexivity.
Qed.
Lemma not_both : evex_used d c = true -> vex_used d c = false.
Proof. unfold evex_used, vex_used. destruct (has EVEX_ONLY (d_evex d)), (c_evex c), (has VEX (d_vex d)); cbn [orb andb negb]; congruence. Qed.
End Row.

Lemma kinds_eq s k n k' n' : s = USE32 \/ s = USE64 -> (forall r, Some (k, n) = Some r -> simd (Some r) = true \/ addr_reg s r) -> simd (Some (k', n')) = true \/ (addr_reg s (k', n') /\ k' <> KIP) -> k <> KIP ->
  negb (regsize s (Some (k, n)) =? regsize s (Some (k', n'))) && (regsize s (Some (k', n')) <? 16) && (0 <? regsize s (Some (k', n'))) && (0 <? regsize s (Some (k, n))) = false ->
  simd (Some (k', n')) = true \/ k' = k.
Proof.
  intros Hs A B C D. destruct B as [B | [B B']]; [left; exact B|right]. specialize (A _ eq_refl). destruct k', k; cbn [addr_reg simd regsize] in *; try contradiction; try congruence; try (destruct A as [A | A]; [discriminate|contradiction]); discriminate D.
Qed.
Lemma mem_refused d c m i broad n : In d InstrTableV2 -> c_mode c = USE32 \/ c_mode c = USE64 -> d_mem d = MemOpnd i -> mem_ok (c_mode c) (evex_used d c) (row_vec d) m ->
  BuildMemoryEncoding d m c broad = Ok n -> encodable (c_mode c) m.
Proof.
  intros Hin Hm Em MK. pose proof (row_facts_ok d Hin) as RF. unfold BuildMemoryEncoding. rewrite Em. cbv zeta. cbn [negb andb]. rewrite (swapped d c m RF Hm MK). cbv iota beta.
  set (rr := has EVEX_VSIB (d_evex d) && (15 <? regno (src_idx m))). set (i2 := if rr then Z.land (regno (src_idx m)) 7 else regno (src_idx m)).
  destruct (negb (regsize (c_mode c) (x_base m) =? regsize (c_mode c) (x_idx m)) && _ && _ && _) eqn:C1; [discriminate|].
  destruct (ofs_eqb (c_mode c) USE64 && (regsize (c_mode c) (x_base m) =? 2)); [discriminate|].
  destruct (((7 <? i2) || (7 <? regno (src_base m))) && negb (ofs_eqb (c_mode c) USE64) && (i2 <? 16) && (regno (src_base m) <? 16)); [discriminate|].
  set (sa := match x_sym m with Some _ => x_addr m | None => false end).
  set (b2 := if sa && ofs_eqb (c_mode c) USE64 && negb (match x_sym m with Some st => st | None => false end) && (regno (src_base m) =? 17) then 16 else regno (src_base m)).
  assert (R2 : src_idx m <> None -> 0 <= i2 < 16).
  { intros N. subst i2 rr. destruct (idx_range d c m RF Hm MK) as [(A & B & C) | (A & B & C)]; [|congruence]. destruct (15 <? regno (src_idx m)) eqn:E.
    - rewrite C by lia. cbn [andb]. pose proof (land7_range (regno (src_idx m))). lia.
    - rewrite andb_false_r. lia. }
  assert (Tb : b2 = 16 -> ofs_eqb (c_mode c) USE32 && (regsize (c_mode c) (x_base m) =? 2) = false -> src_idx m <> None -> Z.testbit (snd (fst (tab (c_mode c) b2 i2))) 4 = true).
  { intros -> _ N. apply tab_rip; auto. }
  destruct (ofs_eqb (c_mode c) USE32 && (regsize (c_mode c) (x_base m) =? 2)) eqn:A16.
  - (* 16-bit addresses *)
    intros _. apply andb_prop in A16 as [S32 B16]. assert (S' : c_mode c = USE32) by (destruct (c_mode c); [discriminate|reflexivity|discriminate]).
    destruct (x_base m) as [[k b]|] eqn:Eb; [|discriminate]. assert (k = K16) by (destruct k; try discriminate B16; try reflexivity; cbn [regsize] in B16; destruct (c_mode c); discriminate). subst k.
    constructor.
    + intros k n0 k' n' E X. assert (k = K16) by congruence. subst k. destruct (mk_a16 _ _ _ _ MK b Eb) as (_ & _ & _ & _ & _ & Q). rewrite X in Q. right. tauto.
    + intros n0 E. congruence.
    + intros Hs. rewrite Eb in Hs. discriminate.
    + intros E. congruence.
  - cbn [negb andb]. intros H. assert (TF : Z.testbit (snd (fst (tab (c_mode c) b2 i2))) 4 = false). { destruct (tab (c_mode c) b2 i2) as [[tm tf] ts]. cbn [fst snd]. destruct (Z.testbit tf 4); [discriminate|reflexivity]. } clear H.
    assert (NB : src_idx m <> None -> b2 <> 16) by (intros N E; rewrite (Tb E eq_refl N) in TF; discriminate).
    assert (Vc : simd (x_base m) = true -> x_idx m = None).
    { intros Hs. destruct (x_idx m) as [[k' n']|] eqn:X; [|reflexivity]. exfalso. assert (SB : src_base m = Some (k', n')) by (unfold src_base; rewrite Hs; exact X). pose proof (mk_base _ _ _ _ MK _ SB) as A. 
      destruct (x_base m) as [[k n0]|]; [|discriminate]. destruct k; try discriminate Hs; destruct k'; cbn [addr_reg] in A; try contradiction; cbn [regsize] in C1; discriminate C1. }
    constructor.
    + intros k n0 k' n' E X. rewrite E, X in C1. apply (kinds_eq (c_mode c) k n0 k' n'); auto.
      * intros r Er. destruct (simd (Some r)) eqn:Sr; [left; reflexivity|right]. apply (mk_base _ _ _ _ MK). unfold src_base. rewrite E, Er, Sr. reflexivity.
      * destruct (simd (Some (k, n0))) eqn:Sb; [rewrite E in Vc; rewrite (Vc Sb) in X; discriminate|]. assert (SI : src_idx m = Some (k', n')) by (unfold src_idx; rewrite E, Sb; exact X). pose proof (mk_idx _ _ _ _ MK _ SI) as A.
        destruct (row_vec d) as [q|] eqn:V.
        -- destruct A as (A & _). cbn [fst] in A. subst k'. left. unfold row_vec in V. destruct (gather d); [|discriminate]. destruct (d_types d) as [|[] ?]; assert (q = KX \/ q = KY \/ q = KZ) as [-> | [-> | ->]] by (inversion V; auto); reflexivity.
        -- destruct A as (A & B & _). right. split; [exact A|exact B].
      * intros ->. assert (Sb : simd (x_base m) = false) by (rewrite E; reflexivity). assert (SI : src_idx m = Some (k', n')) by (unfold src_idx; rewrite Sb; exact X).
        apply NB; [congruence|]. subst b2. unfold src_base. rewrite Sb, E. cbn [regno]. change (V2_Model.regno (@Some reg (KIP, n0))) with 16. change (16 =? 17) with false. rewrite andb_false_r. reflexivity.
    + intros n0 E. destruct (x_idx m) as [r|] eqn:X; [|reflexivity]. exfalso. assert (Sb : simd (x_base m) = false) by (rewrite E; reflexivity). apply NB; [unfold src_idx; rewrite Sb; congruence|].
      subst b2. unfold src_base. rewrite Sb, E. change (V2_Model.regno (@Some reg (KIP, n0))) with 16. change (16 =? 17) with false. rewrite andb_false_r. reflexivity.
    + exact Vc.
    + intros M64 Lb Sb. destruct (src_idx m) eqn:X; [|reflexivity]. exfalso. apply NB; [congruence|]. subst b2 sa. unfold label in Lb. assert (Sy : x_sym m <> None) by (destruct (x_sym m); congruence). rewrite (mk_sym _ _ _ _ MK Sy), M64, Sb.
      destruct (x_sym m); [|congruence]. rewrite Lb. reflexivity.
Qed.
Theorem gen_allowed d c l o : In d InstrTableV2 -> written_ok d c l -> gen d c l = Ok o -> allowed d c l.
Proof.
  intros Hin WO G. destruct (gen_parts d c l o G) as ((n & En) & EVO & EVN & (ip & IP) & (sp & SP)).
  pose proof (nf d Hin) as NF. unfold neg_facts in NF. cbv zeta in NF.
  apply andb_prop in NF as [NF N9]. apply andb_prop in NF as [NF N8]. apply andb_prop in NF as [NF N7]. apply andb_prop in NF as [NF N6]. apply andb_prop in NF as [NF N5]. apply andb_prop in NF as [NF N4]. apply andb_prop in NF as [NF N3]. apply andb_prop in NF as [N1 N2].
  assert (EV : evex_used d c = true -> has EVEX_ONLY (d_evex d) || has EVEX (d_vex d) = true /\ evex_ok d l c (PromoteBroadcast d (c_broad c)) = true).
  { intros E. split; [exact (evex_has d c E)|]. apply EVO; [apply not_both; exact E|exact E]. }
  assert (L7 : Z.land (c_deco c) 7 = (c_deco c) mod 8) by (change 7 with (Z.ones 3); rewrite Z.land_ones by lia; reflexivity).
  constructor.
  - destruct (c_ins c) as [p|]; [|reflexivity]. exfalso. apply negb_true_iff in N1. apply orb_false_iff in N1 as [N1 N1c]. apply orb_false_iff in N1 as [N1a N1b]. destruct p; cbn [ins_prefix] in IP; rewrite ?N1a, ?N1b, ?N1c in IP; discriminate.
  - intros s Es. unfold seg_prefix in SP. rewrite Es in SP. destruct (has ALLOW_SEG (d_flags d)) eqn:AS; [|discriminate]. pose proof (imp_true _ _ N2 eq_refl) as X. apply andb_prop in X as [X1 X2]. split; [exact X1|]. split.
    + apply existsb_exists in X2 as (t & Ht & Tt). apply (In_nth _ _ T_R_RIP) in Ht as (i & Hi & Ni). rewrite (len_types d c l WO) in Hi. destruct (typed_mem d c l WO i Hi) as (m & _ & _ & K); [rewrite Ni; exact Tt|]. exists m. exact K.
    + destruct (wo_mode _ _ _ WO) as [M | M]; [left; exact M|right]. rewrite M in SP. change (ofs_eqb USE64 USE64) with true in SP. cbn [andb] in SP.
      destruct (s =? 4) eqn:S4; [right; left; lia|]. destruct (s =? 5) eqn:S5; [right; right; left; lia|]. destruct (s =? 2) eqn:S2; [left; lia|]. cbn [orb] in SP. right. right. right.
      apply (imp_true _ _ N3). destruct (has ALLOW_SEGX (d_flags d)); [reflexivity|discriminate].
  - exact EVN.
  - intros m Hm. destruct (mem_in_types d c l WO m Hm) as (j & Hj & Oj & Tj). destruct (d_mem d) as [|i|i] eqn:Em.
    + rewrite (mem_existsb d c l WO m Hm) in N9. discriminate.
    + right. apply andb_prop in N9 as [N9 N9b]. apply Nat.leb_le in N9. rewrite (len_types d c l WO) in N9. rewrite forallb_forall in N9b. assert (J : j = i). { apply Nat.eqb_eq. apply (imp_true _ _ (N9b j ltac:(apply in_seq; lia)) Tj). } subst j.
      assert (T : the_mem d l = m) by (unfold the_mem; rewrite Em; cbn [memidx]; rewrite Oj; reflexivity). rewrite T in En. destruct (typed d c l WO i Hj) as (_ & K & _). rewrite Oj in K. destruct K as [K _].
      exact (mem_refused d c m i _ n Hin (wo_mode _ _ _ WO) Em K En).
    + left. exact N9.
  - intros EU D. destruct (EV EU) as [EH EO]. unfold evex_ok in EO. cbv zeta in EO. rewrite L7 in EO. repeat (apply andb_prop in EO as [EO ?]).
    destruct (has EVEX_MASK (d_evex d)) eqn:K; [apply negb_true_iff; exact (imp_true _ _ N5 eq_refl)|]. exfalso. match goal with H : negb (negb false && negb (_ =? 0)) = true |- _ => cbn [negb andb] in H; rewrite negb_involutive in H; apply Z.eqb_eq in H; contradiction end.
  - intros EU Gt D. destruct (EV EU) as [EH EO]. unfold evex_ok in EO. cbv zeta in EO. rewrite L7, D in EO. repeat (apply andb_prop in EO as [EO ?]). rewrite EH, Gt in N4. rewrite (imp_true _ _ N4 eq_refl) in EO. discriminate.
  - intros EU D. destruct (EV EU) as [EH EO]. unfold evex_ok in EO. cbv zeta in EO. rewrite D in EO. repeat (apply andb_prop in EO as [EO ?]).
    destruct (has EVEX_Z (d_evex d)) eqn:K; [pose proof (imp_true _ _ N6 eq_refl) as X; apply negb_true_iff, orb_false_iff in X; exact X|]. match goal with H : negb (negb false && true) = true |- _ => discriminate H end.
  - intros EU D. destruct (EV EU) as [EH EO]. destruct (wo_broad _ _ _ WO) as [Bi Bm]. destruct (Bm D) as [_ (m & Hm)]. pose proof (mem_existsb d c l WO m Hm) as TM.
    set (pb := PromoteBroadcast d (c_broad c)) in *. assert (Pn : pb <> 0). { subst pb. unfold PromoteBroadcast. destruct (same_name (d_name d) "vcvtdq2pd"); [|exact D]. repeat (match goal with |- (if ?x then _ else _) <> _ => destruct x end; try discriminate); exact D. }
    unfold evex_ok in EO. cbv zeta in EO. repeat (apply andb_prop in EO as [EO ?]).
    assert (BR : has EVEX_BRD (d_evex d) = true). { destruct (has EVEX_BRD (d_evex d)); [reflexivity|]. exfalso. match goal with H : negb (negb (pb =? 0) && negb false) = true |- _ => rewrite (proj2 (Z.eqb_neq _ _) Pn) in H; discriminate H end. }
    rewrite EH, BR in N7. pose proof (imp_true _ _ N7 eq_refl) as X. apply andb_prop in X as [X X4]. apply andb_prop in X as [X X3]. apply andb_prop in X as [X1 X2]. split; [exact X1|]. split.
    + pose proof (imp_true _ _ X2 TM) as Y. apply existsb_exists in Y as (t & Ht & Et). apply internal_optype_dec_bl in Et. subst t. exact Ht.
    + pose proof (imp_true _ _ X4 TM) as Y. rewrite forallb_forall in Y. assert (Bi' : In (c_broad c) [0x10; 0x20; 0x30; 0x40]) by (destruct Bi as [Bi | Bi]; [congruence|exact Bi]). specialize (Y _ Bi'). fold pb in Y.
      assert (El : (d_elem d =? 16) || (d_elem d =? 8) || (d_elem d =? 4) || (d_elem d =? 2) || (d_elem d =? 1) = true). { apply existsb_exists in X3 as (z & Hz & Ez). apply Z.eqb_eq in Ez. cbn [In] in Hz. rewrite Ez. destruct Hz as [<- | [<- | [<- | [<- | []]]]]; reflexivity. }
      assert (Pe : pb = bc_elems (d_elem d)). { match goal with H : negb (_ && negb (pb =? bc_elems _) && negb (pb =? 0)) = true |- _ => rewrite El, (proj2 (Z.eqb_neq _ _) Pn) in H; cbn [negb andb] in H; rewrite andb_true_r, negb_involutive in H; apply Z.eqb_eq in H; exact H end. }
      rewrite Pe, Z.eqb_refl in Y. pose proof (imp_true _ _ Y eq_refl) as W. apply orb_prop in W as [W | W]; [left; apply Z.eqb_eq; exact W|right]. apply andb_prop in W as [W1 W2]. split; [exact W1|apply Z.eqb_eq; exact W2].
  - intros EU D m Hm. destruct (wo_rnd _ _ _ WO D) as [R _]. destruct (EV EU) as [EH _]. rewrite EH, R in N8. pose proof (imp_true _ _ N8 eq_refl) as X. rewrite (mem_existsb d c l WO m Hm) in X. discriminate.
Qed.
Theorem gen_iff d c l : In d InstrTableV2 -> written_ok d c l -> ((exists o, gen d c l = Ok o) <-> allowed d c l).
Proof. intros Hin WO. split; [intros [o G]; exact (gen_allowed d c l o Hin WO G)|exact (gen_accepted d c l Hin WO)]. Qed.

(** ** The types *)
Ltac tk := intros; repeat match goal with H : exists _, _ |- _ => destruct H | H : _ /\ _ |- _ => destruct H | H : _ \/ _ |- _ => destruct H end.
Theorem types_ok o t : typeable o -> (takes t o <-> t = MatchOperand o \/ t = DemoteOperand (MatchOperand o)).
Proof.
  destruct o as [[k n]|m|i v f|]; cbn [typeable]; [intros [N1 N2]|intros _|intros _|intros []].
  - destruct k; try congruence; cbn [MatchOperand];
      repeat match goal with |- context [if ?b then _ else _] => let E := fresh "E" in destruct b eqn:E end; cbn [DemoteOperand];
      (split; [destruct t; cbn [takes]; tk; subst; try contradiction; try discriminate; auto;
               match goal with
               | H : OReg (_, ?a) = OReg (_, ?b) |- _ => assert (a = b) by congruence; subst; first [lia | auto | discriminate]
               end
              |intros [-> | ->]; cbn [takes]; first [eexists; split; [reflexivity|first [exact Logic.I | lia]] | f_equal; f_equal; lia]]).
  - cbn [MatchOperand]. destruct (x_size m) eqn:E; cbn [DemoteOperand];
      (split; [destruct t; cbn [takes]; tk; subst; try contradiction; try discriminate; auto;
               match goal with H : OMem ?a = OMem ?b |- _ => assert (a = b) by congruence; subst; congruence end
              |intros [-> | ->]; cbn [takes]; eauto]).
  - cbn [MatchOperand]. destruct i; cbn [DemoteOperand];
      (split; [destruct t; cbn [takes]; tk; subst; try contradiction; try discriminate; auto
              |intros [-> | ->]; cbn [takes]; eauto]).
Qed.
