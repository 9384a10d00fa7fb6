(** The binary search (method 5). *)
From Coq Require Import ZArith List Bool Lia Permutation.
From Verif Require Import Base Switch_Model Switch_Spec SwSort_Proofs SwTab_Proofs SwRun_Proofs.
Import ListNotations.
Open Scope Z_scope.

Local Arguments swrap : simpl never.
Local Arguments Z.pow : simpl never.
Local Arguments Z.modulo : simpl never.
Local Arguments Z.div : simpl never.
Local Arguments Z.mul : simpl never.
Local Arguments Z.sub : simpl never.
Local Arguments Z.opp : simpl never.
Local Arguments Z.add : simpl never.
Local Arguments rd : simpl never.
Local Arguments ea : simpl never.

(** Small numbers. *)
Lemma small_mod : forall k a, 32 <= k -> 0 <= a < 2 ^ 31 -> a mod 2 ^ k = a.
Proof.
  intros k a K R. apply Z.mod_small. split; [lia|].
  apply Z.lt_le_trans with (2 ^ 31); [lia|]. apply Z.pow_le_mono_r; lia.
Qed.

Lemma small_swrap : forall k a, 32 <= k -> - 2 ^ 31 <= a < 2 ^ 31 -> swrap k a = a.
Proof.
  intros k a K R. apply swrap_small; [lia|].
  assert (2 ^ 31 <= 2 ^ (k - 1)) by (apply Z.pow_le_mono_r; lia). lia.
Qed.

Lemma half_ok : forall k a, 32 <= k -> 0 <= a < 2 ^ 31 -> (swrap k a / 2) mod 2 ^ k = a / 2.
Proof.
  intros k a K R. rewrite small_swrap by lia. apply small_mod; [exact K|].
  split; [apply Z.div_pos; lia|]. apply Z.div_lt_upper_bound; lia.
Qed.

Lemma neg_swrap : forall k a, 32 <= k -> - 2 ^ 31 <= a < 2 ^ 31 -> swrap k (a mod 2 ^ k) = a.
Proof.
  intros k a K R. rewrite (swrap_cong k (a mod 2 ^ k) a) by (apply Z.mod_mod; apply Z.pow_nonzero; lia).
  apply small_swrap; assumption.
Qed.

(** The sorted list and where a value can be. *)
Lemma asc_nth : forall cs, asc cs -> forall i j a b, (i < j)%nat ->
  nth_error cs i = Some a -> nth_error cs j = Some b -> fst a < fst b.
Proof.
  intros cs A. induction A as [|c l F A IH]; intros i j a b L HA HB.
  - destruct i; discriminate.
  - destruct j as [|j]; [lia|]. cbn in HB. destruct i as [|i].
    + cbn in HA. injection HA as <-. rewrite Forall_forall in F. apply F.
      eapply nth_error_In. exact HB.
    + cbn in HA. apply (IH i j); [lia|exact HA|exact HB].
Qed.

Lemma asc_ascending : forall cs, asc cs <-> ascending cs.
Proof.
  split.
  - intros A i j a b. apply (asc_nth cs A).
  - induction cs as [|c l IH]; intros A; [constructor|]. constructor.
    + apply Forall_forall. intros d D. apply In_nth_error in D as [j D].
      apply (A 0%nat (S j)); [lia|reflexivity|exact D].
    + apply IH. intros i j a b L HA HB. apply (A (S i) (S j)); [lia|exact HA|exact HB].
Qed.

Lemma nowhere : forall def cs v lo hi,
  (forall i c, nth_error cs i = Some c -> Z.of_nat i < lo -> fst c < v) ->
  (forall i c, nth_error cs i = Some c -> hi < Z.of_nat i -> v < fst c) ->
  hi < lo -> pick def cs v = def.
Proof.
  intros def cs v lo hi L H X. apply pick_out. intro K. apply in_map_iff in K as (c & E & I).
  apply In_nth_error in I as [i I].
  destruct (Z.lt_ge_cases (Z.of_nat i) lo) as [A|A].
  - specialize (L i c I A). lia.
  - specialize (H i c I ltac:(lia)). lia.
Qed.

Lemma asc_nodup : forall cs, asc cs -> NoDup (map fst cs).
Proof.
  intros cs A. induction A as [|d l F A IH]; cbn [map]; constructor; [|exact IH].
  intro K. apply in_map_iff in K as (q & K1 & K2). rewrite Forall_forall in F.
  specialize (F _ K2). lia.
Qed.

Ltac st C := eapply ends_next; [rewrite C; reflexivity|reflexivity|].

Lemma mid_ok : forall lo hi, lo <= hi -> lo <= (lo + hi) / 2 <= hi.
Proof. intros lo hi H. split; [apply Z.div_le_lower_bound|apply Z.div_le_upper_bound]; lia. Qed.

(** Without the hypotheses about remainders. *)
Ltac ql := repeat match goal with H : context [Z.modulo] |- _ => clear H end; lia.

Section Search.
Variables (w : swi) (e : env) (x : Z) (s0 : mst) (cs : list (Z * Z)).
Let B := bits (s_8 w).
Let v := swrap B (m_reg s0 RA).
Let n := zlen cs.
Hypothesis EW : e_w e = (if s_64 w then 64 else 32).
Hypothesis W8 : s_8 w = true -> s_64 w = true.
Hypothesis PL : placed e.
Hypothesis N0 : 0 < n < 65536.
Hypothesis AS : asc cs.
Hypothesis IR : Forall (fun c => int32 (fst c)) cs.
Hypothesis ES : 8 * o_es (e_o e) = B.
Hypothesis T1 : o_t1 (e_o e) = map snd cs.
Hypothesis T2 : o_t2 (e_o e) = map (fun c => fst c mod 2 ^ B) cs.

Let done (l : Z) (s' : mst) : Prop :=
  l = pick (s_def w) cs v /\ m_stk s' = m_stk s0 /\
  forall r, r <> RA \/ true = true -> m_reg s' r = m_reg s0 r.

Lemma B32 : 32 <= B.
Proof. unfold B. destruct (s_8 w); cbn; lia. Qed.

Lemma es_pos : 0 < o_es (e_o e).
Proof. pose proof B32. lia. Qed.

(** The comparison with an element of the table of values. *)
Lemma probe : forall s i c, nth_error cs i = Some c ->
  rd e (e_b2 e + o_es (e_o e) * Z.of_nat i) B = Some (fst c mod 2 ^ B) /\
  (e_b2 e + o_es (e_o e) * Z.of_nat i) mod 2 ^ e_w e = e_b2 e + o_es (e_o e) * Z.of_nat i /\
  e_b2 e mod 2 ^ e_w e = e_b2 e /\
  f_e (flags B s (fst c mod 2 ^ B) (m_reg s0 RA mod 2 ^ B)) = (fst c =? v) /\
  f_l (flags B s (fst c mod 2 ^ B) (m_reg s0 RA mod 2 ^ B)) = (fst c <? v).
Proof.
  intros s i c H. pose proof es_pos as EP. pose proof B32 as BB.
  assert (H2 : nth_error (o_t2 (e_o e)) i = Some (fst c mod 2 ^ B)).
  { rewrite T2. apply (map_nth_error (fun c : Z * Z => fst c mod 2 ^ B) i cs H). }
  assert (R : int32 (fst c)).
  { rewrite Forall_forall in IR. apply IR. eapply nth_error_In. exact H. }
  split; [pose proof (rd2 e i _ PL EP H2) as Q; rewrite ES in Q; exact Q|].
  split; [apply (t2_mod w e s0 cs PL i _ EP H2)|].
  split; [apply (b2_mod w e s0 cs PL i _ EP H2)|].
  cbn [flags setf f_e f_l].
  rewrite eqb_swrap by lia.
  rewrite (neg_swrap B (fst c)) by (try exact R; lia).
  rewrite (swrap_cong B (m_reg s0 RA mod 2 ^ B) (m_reg s0 RA)) by (apply Z.mod_mod; apply Z.pow_nonzero; lia).
  fold v. auto.
Qed.

Lemma label1 : forall i c, nth_error cs i = Some c ->
  rd e (e_b1 e + e_w e / 8 * Z.of_nat i) (e_w e) = Some (snd c) /\
  (e_b1 e + e_w e / 8 * Z.of_nat i) mod 2 ^ e_w e = e_b1 e + e_w e / 8 * Z.of_nat i /\
  e_b1 e mod 2 ^ e_w e = e_b1 e /\
  (fst c = v -> snd c = pick (s_def w) cs v).
Proof.
  intros i c H.
  assert (H1 : nth_error (o_t1 (e_o e)) i = Some (snd c)).
  { rewrite T1. apply map_nth_error. exact H. }
  split; [apply rd1; [apply (wide_e w e EW W8)|exact H1]|].
  split; [apply (t1_mod w e s0 cs EW W8 PL i _ H1)|].
  split; [apply (b1_mod w e s0 cs EW W8 PL i _ H1)|].
  intros E. symmetry. apply pick_in.
  - apply asc_nodup. exact AS.
  - rewrite <- E. rewrite <- surjective_pairing. eapply nth_error_In. exact H.
Qed.

(** ** 32 bits *)

Definition regs32 (s : mst) (lo hi : Z) : Prop :=
  m_reg s RC = lo /\ m_reg s RB = hi mod 2 ^ 32 /\
  m_reg s RSI = m_reg s0 RA mod 2 ^ B /\ m_reg s RDI = e_b2 e /\ m_reg s R10 = m_reg s0 R10 /\
  m_stk s = m_reg s0 RDI :: m_reg s0 RSI :: m_reg s0 RB :: m_reg s0 RC :: m_reg s0 RD ::
            m_reg s0 RA :: m_stk s0.

Definition around (lo hi : Z) : Prop :=
  0 <= lo <= n /\ -1 <= hi < n /\
  (forall i c, nth_error cs i = Some c -> Z.of_nat i < lo -> fst c < v) /\
  (forall i c, nth_error cs i = Some c -> hi < Z.of_nat i -> v < fst c).

Lemma cont32 : forall s lo hi, s_64 w = false -> o_code (e_o e) = code5 w n ->
  regs32 s lo hi -> around lo hi ->
  (forall s', regs32 s' lo hi -> lo <= hi -> ends e x 11 s' done) ->
  ends e x 32 s done.
Proof.
  intros s lo hi W64 C (R1 & R2 & R3 & R4 & R5 & R6) (A1 & A2 & A3 & A4) H.
  unfold code5 in C. rewrite W64 in C.
  assert (SL : swrap 32 lo = lo) by (apply small_swrap; [ql|change (2 ^ 31) with 2147483648; ql]).
  assert (SH : swrap 32 (hi mod 2 ^ 32) = hi)
    by (apply neg_swrap; [ql|change (2 ^ 31) with 2147483648; ql]).
  st C. st C. rewrite R1, R2.
  set (s1 := flags 32 s lo (hi mod 2 ^ 32)).
  assert (FE : f_l s1 || f_e s1 = (lo <=? hi)).
  { unfold s1. cbn [flags setf f_e f_l]. rewrite eqb_swrap by ql. rewrite SL, SH.
    destruct (Z.ltb_spec lo hi), (Z.eqb_spec lo hi), (Z.leb_spec lo hi); try reflexivity; ql. }
  assert (M1 : m_reg s1 = m_reg s) by reflexivity.
  assert (K1 : m_stk s1 = m_stk s) by reflexivity. clearbody s1.
  destruct (Z.leb_spec lo hi) as [L|L].
  - eapply (ends_jmp e x _ s1 done (IJcc CLE LTop) s1 LTop 11%nat).
    + rewrite C. reflexivity.
    + cbn [step holds]. rewrite FE. reflexivity.
    + discriminate.
    + rewrite C. reflexivity.
    + apply H; [|exact L]. unfold regs32. rewrite M1, K1. auto 10.
  - eapply (ends_next e x _ s1 done (IJcc CLE LTop) s1).
    + rewrite C. reflexivity.
    + cbn [step holds]. rewrite FE. reflexivity.
    + rewrite R6 in K1.
      eapply ends_next; [rewrite C; reflexivity|cbn [step]; rewrite K1; reflexivity|].
      st C. st C. st C. st C. st C.
      eapply ends_go; [rewrite C; reflexivity|reflexivity|].
      split; [symmetry; apply (nowhere _ _ _ lo hi); assumption|].
      split; [reflexivity|]. intros r _. destruct r; cbn; try reflexivity. congruence.
Qed.

Lemma loop32 : s_64 w = false -> o_code (e_o e) = code5 w n ->
  forall k lo hi s, hi - lo < Z.of_nat k -> lo <= hi -> regs32 s lo hi -> around lo hi ->
  ends e x 11 s done.
Proof.
  intros W64 C. induction k as [|k IH]; intros lo hi s D L RG AR; [ql|].
  pose proof AR as (A1 & A2 & A3 & A4). pose proof RG as (R1 & R2 & R3 & R4 & R5 & R6).
  assert (E32 : e_w e = 32) by (rewrite EW, W64; reflexivity).
  assert (W : s_8 w = false) by (apply not_true_is_false; intro Q; rewrite W8 in W64 by exact Q; discriminate).
  assert (BE : B = 32) by (unfold B; rewrite W; reflexivity).
  assert (EE : o_es (e_o e) = 4) by ql.
  assert (P31 : 2 ^ 31 = 2147483648) by reflexivity.
  set (mid := (lo + hi) / 2).
  assert (MR : lo <= mid <= hi) by (apply mid_ok; exact L).
  assert (MX : exists c, nth_error cs (Z.to_nat mid) = Some c).
  { destruct (nth_error cs (Z.to_nat mid)) as [c|] eqn:Q; [eauto|].
    apply nth_error_None in Q. unfold n, zlen in *. ql. }
  destruct MX as (c & MC).
  pose proof C as C0. unfold code5 in C. rewrite W64 in C.
  (* lea eax,[ecx+ebx]; cdq; sub eax,edx; sar eax,1 *)
  st C.
  eapply (ends_next e x _ s done _ (setr s RA (lo + hi))); [rewrite C; reflexivity| |].
  { cbn [step]. unfold ea. cbn [at_reg a_tab a_base a_idx a_disp Z.eqb].
    rewrite R1, R2, E32, (small_mod 32 hi) by ql.
    replace (0 + lo + hi * 1 + 0) with (lo + hi) by ql.
    rewrite !(small_mod 32 (lo + hi)) by ql. reflexivity. }
  eapply (ends_next e x _ _ done _ (setr (setr s RA (lo + hi)) RD 0)); [rewrite C; reflexivity| |].
  { cbn [step setr m_reg reg_eqb]. rewrite small_swrap by ql.
    destruct (Z.ltb_spec (lo + hi) 0); [ql|reflexivity]. }
  st C. cbn [setr m_reg reg_eqb].
  rewrite Z.sub_0_r, (small_mod 32 (lo + hi)) by ql.
  st C. cbn [setr setf flags m_reg reg_eqb m_stk f_e f_l f_s].
  rewrite half_ok by ql. fold mid.
  destruct (probe s (Z.to_nat mid) c MC) as (Q1 & Q2 & Q3 & Q4 & Q5).
  rewrite Z2Nat.id in Q1, Q2 by ql. rewrite EE in Q1, Q2. rewrite BE in Q1, Q4, Q5.
  cbn [flags setf f_e f_l] in Q4, Q5.
  match goal with |- ends _ _ _ ?t _ => set (s1 := t) end.
  assert (S1 : m_reg s1 RA = mid /\ m_reg s1 RC = lo /\ m_reg s1 RB = hi mod 2 ^ 32 /\
    m_reg s1 RSI = m_reg s0 RA mod 2 ^ B /\ m_reg s1 RDI = e_b2 e /\ m_reg s1 R10 = m_reg s0 R10 /\
    m_stk s1 = m_stk s) by (unfold s1; cbn; auto 10).
  clearbody s1. destruct S1 as (X1 & X2 & X3 & X4 & X5 & X6 & X7).
  eapply (ends_next e x _ s1 done _ (flags 32 s1 (fst c mod 2 ^ 32) (m_reg s0 RA mod 2 ^ 32)));
    [rewrite C; reflexivity| |].
  { cbn [step]. unfold ea. cbn [at_reg a_tab a_base a_idx a_disp Z.eqb].
    rewrite X5, X1, X4. replace (0 + e_b2 e + mid * 4 + 0) with (e_b2 e + 4 * mid) by ql.
    rewrite Q2, Q1, BE. reflexivity. }
  set (s2 := flags 32 s1 (fst c mod 2 ^ 32) (m_reg s0 RA mod 2 ^ 32)).
  assert (FE : f_e s2 = (fst c =? v)) by exact Q4.
  assert (FL : f_l s2 = (fst c <? v)) by exact Q5.
  assert (M2 : m_reg s2 = m_reg s1) by reflexivity.
  assert (K2 : m_stk s2 = m_stk s1) by reflexivity. clearbody s2.
  destruct (Z.eqb_spec (fst c) v) as [EQ|NE].
  - (* found *)
    eapply (ends_jmp e x _ s2 done (IJcc CE LJump) s2 LJump 21%nat).
    { rewrite C. reflexivity. }
    { cbn [step holds]. rewrite FE. reflexivity. }
    { discriminate. }
    { rewrite C. reflexivity. }
    st C. rewrite X7, R6 in K2.
    eapply ends_next; [rewrite C; reflexivity|cbn [step]; rewrite K2; reflexivity|].
    st C. st C. st C. st C.
    destruct (label1 _ _ MC) as (J1 & J2 & _ & J4). rewrite E32 in J1, J2.
    change (32 / 8) with 4 in J1, J2. rewrite Z2Nat.id in J1, J2 by ql.
    cbn [setr sets m_reg m_stk reg_eqb].
    eapply ends_next; [rewrite C; reflexivity| |].
    { cbn [step]. unfold ea. cbn [at_tab a_tab a_base a_idx a_disp Z.eqb Pos.eqb setr sets m_reg reg_eqb].
      rewrite M2, X1, E32. replace (e_b1 e + 0 + mid * 4 + 0) with (e_b1 e + 4 * mid) by ql.
      rewrite J2, J1. reflexivity. }
    st C. eapply ends_go; [rewrite C; reflexivity|reflexivity|].
    cbn. split; [apply J4; exact EQ|]. split; [reflexivity|].
    intros r _. destruct r; cbn; try reflexivity. rewrite M2. exact X6.
  - eapply (ends_next e x _ s2 done (IJcc CE LJump) s2).
    { rewrite C. reflexivity. }
    { cbn [step holds]. rewrite FE. reflexivity. }
    destruct (Z.ltb_spec (fst c) v) as [LT|GE].
    + (* to the right *)
      eapply (ends_next e x _ s2 done (IJcc CGE LSkip) s2).
      { rewrite C. reflexivity. }
      { cbn [step holds]. rewrite FL. reflexivity. }
      eapply (ends_next e x _ s2 done _ (setr s2 RC (mid + 1))); [rewrite C; reflexivity| |].
      { cbn [step]. unfold ea. cbn [at_reg a_tab a_base a_idx a_disp Z.eqb].
        rewrite M2, X1, E32. replace (0 + mid + 0 + 1) with (mid + 1) by ql.
        rewrite !(small_mod 32 (mid + 1)) by ql. reflexivity. }
      eapply (ends_jmp e x _ _ done (IJmp LCont) _ LCont 32%nat);
        [rewrite C; reflexivity|reflexivity|discriminate|rewrite C; reflexivity|].
      assert (RG' : regs32 (setr s2 RC (mid + 1)) (mid + 1) hi).
      { unfold regs32. cbn. rewrite M2, K2, X7. auto 10. }
      assert (AR' : around (mid + 1) hi).
      { split; [ql|]. split; [ql|]. split; [|exact A4]. intros i d Q I.
        destruct (Z.eq_dec (Z.of_nat i) mid) as [EI|NI].
        - replace i with (Z.to_nat mid) in Q by ql. rewrite MC in Q. injection Q as <-. exact LT.
        - apply Z.lt_trans with (fst c); [|exact LT].
          apply (asc_nth cs AS i (Z.to_nat mid)); [ql|exact Q|exact MC]. }
      apply (cont32 _ (mid + 1) hi W64 C0 RG' AR'). intros s' RS LE.
      apply (IH (mid + 1) hi s'); [ql|exact LE|exact RS|exact AR'].
    + (* to the left *)
      eapply (ends_jmp e x _ s2 done (IJcc CGE LSkip) s2 LSkip 30%nat).
      { rewrite C. reflexivity. }
      { cbn [step holds]. rewrite FL. reflexivity. }
      { discriminate. }
      { rewrite C. reflexivity. }
      st C.
      eapply (ends_next e x _ s2 done _ (setr s2 RB ((mid - 1) mod 2 ^ 32))); [rewrite C; reflexivity| |].
      { cbn [step]. unfold ea. cbn [at_reg a_tab a_base a_idx a_disp Z.eqb].
        rewrite M2, X1, E32. replace (0 + mid + 0 + -1) with (mid - 1) by ql.
        rewrite Z.mod_mod by discriminate. reflexivity. }
      assert (RG' : regs32 (setr s2 RB ((mid - 1) mod 2 ^ 32)) lo (mid - 1)).
      { unfold regs32. cbn. rewrite M2, K2, X7. auto 10. }
      assert (AR' : around lo (mid - 1)).
      { split; [ql|]. split; [ql|]. split; [exact A3|]. intros i d Q I.
        destruct (Z.eq_dec (Z.of_nat i) mid) as [EI|NI].
        - replace i with (Z.to_nat mid) in Q by ql. rewrite MC in Q. injection Q as <-. ql.
        - apply Z.lt_trans with (fst c); [ql|].
          apply (asc_nth cs AS (Z.to_nat mid) i); [ql|exact MC|exact Q]. }
      apply (cont32 _ lo (mid - 1) W64 C0 RG' AR'). intros s' RS LE.
      apply (IH lo (mid - 1) s'); [ql|exact LE|exact RS|exact AR'].
Qed.
(** ** 64 bits *)

Definition regs64 (s : mst) (lo hi : Z) : Prop :=
  m_reg s RC = lo /\ m_reg s RB = hi mod 2 ^ B /\
  m_reg s RSI = m_reg s0 RA mod 2 ^ B /\ m_reg s RDI = e_b2 e /\ m_reg s R10 = m_reg s0 R10 /\ m_reg s RD = m_reg s0 RD /\
  m_stk s = m_reg s0 RDI :: m_reg s0 RSI :: m_reg s0 RB :: m_reg s0 RC ::
            m_reg s0 RA :: m_stk s0.

Lemma cont64 : forall s lo hi, s_64 w = true -> o_code (e_o e) = code5 w n ->
  regs64 s lo hi -> around lo hi ->
  (forall s', regs64 s' lo hi -> lo <= hi -> ends e x 10 s' done) ->
  ends e x 29 s done.
Proof.
  intros s lo hi W64 C (R1 & R2 & R3 & R4 & R5 & R7 & R6) (A1 & A2 & A3 & A4) H.
  unfold code5 in C. rewrite W64 in C. rewrite bits_eq in C. fold B in C. pose proof B32 as BB.
  assert (SL : swrap B lo = lo) by (apply small_swrap; [exact B32|change (2 ^ 31) with 2147483648; ql]).
  assert (SH : swrap B (hi mod 2 ^ B) = hi)
    by (apply neg_swrap; [exact B32|change (2 ^ 31) with 2147483648; ql]).
  st C. st C. rewrite R1, R2.
  set (s1 := flags B s lo (hi mod 2 ^ B)).
  assert (FE : f_l s1 || f_e s1 = (lo <=? hi)).
  { unfold s1. cbn [flags setf f_e f_l]. rewrite eqb_swrap by ql. rewrite SL, SH.
    destruct (Z.ltb_spec lo hi), (Z.eqb_spec lo hi), (Z.leb_spec lo hi); try reflexivity; ql. }
  assert (M1 : m_reg s1 = m_reg s) by reflexivity.
  assert (K1 : m_stk s1 = m_stk s) by reflexivity. clearbody s1.
  destruct (Z.leb_spec lo hi) as [L|L].
  - eapply (ends_jmp e x _ s1 done (IJcc CLE LTop) s1 LTop 10%nat).
    + rewrite C. reflexivity.
    + cbn [step holds]. rewrite FE. reflexivity.
    + discriminate.
    + rewrite C. reflexivity.
    + apply H; [|exact L]. unfold regs64. rewrite M1, K1. auto 10.
  - eapply (ends_next e x _ s1 done (IJcc CLE LTop) s1).
    + rewrite C. reflexivity.
    + cbn [step holds]. rewrite FE. reflexivity.
    + rewrite R6 in K1.
      eapply ends_next; [rewrite C; reflexivity|cbn [step]; rewrite K1; reflexivity|].
      st C. st C. st C. st C.
      eapply ends_go; [rewrite C; reflexivity|reflexivity|].
      split; [symmetry; apply (nowhere _ _ _ lo hi); assumption|].
      split; [reflexivity|]. intros r _. destruct r; cbn; try reflexivity; congruence.
Qed.

Lemma scale : (if s_8 w then 8 else 4) = o_es (e_o e).
Proof. pose proof ES as Q. unfold B in Q. revert Q. case (s_8 w); cbn [bits]; lia. Qed.

Lemma B64 : forall a, (a mod 2 ^ 64) mod 2 ^ B = a mod 2 ^ B.
Proof.
  intro a. symmetry. apply Znumtheory.Zmod_div_mod; [apply Z.pow_pos_nonneg; [ql|pose proof B32; ql]|reflexivity|].
  unfold B. case (s_8 w); cbn [bits].
  - apply Z.divide_refl.
  - exists (2 ^ 32). reflexivity.
Qed.

Lemma loop64 : s_64 w = true -> o_code (e_o e) = code5 w n ->
  forall k lo hi s, hi - lo < Z.of_nat k -> lo <= hi -> regs64 s lo hi -> around lo hi ->
  ends e x 10 s done.
Proof.
  intros W64 C. induction k as [|k IH]; intros lo hi s D L RG AR; [ql|].
  pose proof AR as (A1 & A2 & A3 & A4). pose proof RG as (R1 & R2 & R3 & R4 & R5 & R7 & R6).
  assert (E64 : e_w e = 64) by (rewrite EW, W64; reflexivity).
  assert (P31 : 2 ^ 31 = 2147483648) by reflexivity.
  set (mid := (lo + hi) / 2).
  assert (MR : lo <= mid <= hi) by (apply mid_ok; exact L).
  assert (MX : exists c, nth_error cs (Z.to_nat mid) = Some c).
  { destruct (nth_error cs (Z.to_nat mid)) as [c|] eqn:Q; [eauto|].
    apply nth_error_None in Q. unfold n, zlen in *. ql. }
  destruct MX as (c & MC).
  pose proof C as C0. unfold code5 in C. rewrite W64 in C. rewrite bits_eq in C. fold B in C. pose proof B32 as BB. rewrite scale in C.
  (* lea rax,[rcx+rbx]; sar rax,1 *)
  st C.
  eapply (ends_next e x _ s done _ (setr s RA (lo + hi))); [rewrite C; reflexivity| |].
  { cbn [step]. unfold ea. cbn [at_reg a_tab a_base a_idx a_disp Z.eqb].
    rewrite R1, R2, E64, (small_mod B hi) by ql.
    replace (0 + lo + hi * 1 + 0) with (lo + hi) by ql.
    rewrite B64, (small_mod B (lo + hi)) by ql. reflexivity. }
  st C. cbn [setr setf flags m_reg reg_eqb m_stk f_e f_l f_s].
  rewrite half_ok by ql. fold mid.
  destruct (probe s (Z.to_nat mid) c MC) as (Q1 & Q2 & Q3 & Q4 & Q5).
  rewrite Z2Nat.id in Q1, Q2 by ql.
  cbn [flags setf f_e f_l] in Q4, Q5.
  match goal with |- ends _ _ _ ?t _ => set (s1 := t) end.
  assert (S1 : m_reg s1 RA = mid /\ m_reg s1 RC = lo /\ m_reg s1 RB = hi mod 2 ^ B /\
    m_reg s1 RSI = m_reg s0 RA mod 2 ^ B /\ m_reg s1 RDI = e_b2 e /\ m_reg s1 R10 = m_reg s0 R10 /\ m_reg s1 RD = m_reg s0 RD /\
    m_stk s1 = m_stk s) by (unfold s1; cbn; auto 10).
  clearbody s1. destruct S1 as (X1 & X2 & X3 & X4 & X5 & X6 & X8 & X7).
  eapply (ends_next e x _ s1 done _ (flags B s1 (fst c mod 2 ^ B) (m_reg s0 RA mod 2 ^ B)));
    [rewrite C; reflexivity| |].
  { cbn [step]. unfold ea. cbn [at_reg a_tab a_base a_idx a_disp Z.eqb].
    rewrite X5, X1, X4. replace (0 + e_b2 e + mid * o_es (e_o e) + 0) with (e_b2 e + o_es (e_o e) * mid) by ql.
    rewrite Q2, Q1. reflexivity. }
  set (s2 := flags B s1 (fst c mod 2 ^ B) (m_reg s0 RA mod 2 ^ B)).
  assert (FE : f_e s2 = (fst c =? v)) by exact Q4.
  assert (FL : f_l s2 = (fst c <? v)) by exact Q5.
  assert (M2 : m_reg s2 = m_reg s1) by reflexivity.
  assert (K2 : m_stk s2 = m_stk s1) by reflexivity. clearbody s2.
  destruct (Z.eqb_spec (fst c) v) as [EQ|NE].
  - (* found *)
    eapply (ends_jmp e x _ s2 done (IJcc CE LJump) s2 LJump 18%nat).
    { rewrite C. reflexivity. }
    { cbn [step holds]. rewrite FE. reflexivity. }
    { discriminate. }
    { rewrite C. reflexivity. }
    st C. rewrite X7, R6 in K2.
    eapply ends_next; [rewrite C; reflexivity|cbn [step]; rewrite K2; reflexivity|].
    destruct (label1 _ _ MC) as (J1 & J2 & J3 & J4). rewrite E64 in J1, J2, J3.
    change (64 / 8) with 8 in J1, J2. rewrite Z2Nat.id in J1, J2 by ql.
    st C. st C. st C.
    assert (LE : forall s', ea e s' (at_tab 1 None) mod 2 ^ 64 = e_b1 e).
    { intro s'. unfold ea. cbn [at_tab a_tab a_base a_idx a_disp Z.eqb Pos.eqb].
      rewrite E64, !Z.add_0_r, !J3. reflexivity. }
    rewrite LE.
    eapply ends_next; [rewrite C; reflexivity| |].
    { cbn [step]. unfold ea. cbn [at_tab a_tab a_base a_idx a_disp Z.eqb Pos.eqb setr sets m_reg reg_eqb].
      cbn [at_reg a_tab a_base a_idx a_disp Z.eqb setr sets m_reg reg_eqb].
      rewrite M2, X1, E64. replace (0 + e_b1 e + mid * 8 + 0) with (e_b1 e + 8 * mid) by ql.
      rewrite J2, J1. reflexivity. }
    st C. st C. eapply ends_go; [rewrite C; reflexivity|reflexivity|].
    cbn. split; [apply J4; exact EQ|]. split; [reflexivity|].
    intros r _. destruct r; cbn; try reflexivity; rewrite M2; assumption.
  - eapply (ends_next e x _ s2 done (IJcc CE LJump) s2).
    { rewrite C. reflexivity. }
    { cbn [step holds]. rewrite FE. reflexivity. }
    destruct (Z.ltb_spec (fst c) v) as [LT|GE].
    + (* to the right *)
      eapply (ends_next e x _ s2 done (IJcc CGE LSkip) s2).
      { rewrite C. reflexivity. }
      { cbn [step holds]. rewrite FL. reflexivity. }
      eapply (ends_next e x _ s2 done _ (setr s2 RC (mid + 1))); [rewrite C; reflexivity| |].
      { cbn [step]. unfold ea. cbn [at_reg a_tab a_base a_idx a_disp Z.eqb].
        rewrite M2, X1, E64. replace (0 + mid + 0 + 1) with (mid + 1) by ql.
        rewrite B64, (small_mod B (mid + 1)) by ql. reflexivity. }
      eapply (ends_jmp e x _ _ done (IJmp LCont) _ LCont 29%nat);
        [rewrite C; reflexivity|reflexivity|discriminate|rewrite C; reflexivity|].
      assert (RG' : regs64 (setr s2 RC (mid + 1)) (mid + 1) hi).
      { unfold regs64. cbn. rewrite M2, K2, X7. auto 10. }
      assert (AR' : around (mid + 1) hi).
      { split; [ql|]. split; [ql|]. split; [|exact A4]. intros i d Q I.
        destruct (Z.eq_dec (Z.of_nat i) mid) as [EI|NI].
        - replace i with (Z.to_nat mid) in Q by ql. rewrite MC in Q. injection Q as <-. exact LT.
        - apply Z.lt_trans with (fst c); [|exact LT].
          apply (asc_nth cs AS i (Z.to_nat mid)); [ql|exact Q|exact MC]. }
      apply (cont64 _ (mid + 1) hi W64 C0 RG' AR'). intros s' RS LE.
      apply (IH (mid + 1) hi s'); [ql|exact LE|exact RS|exact AR'].
    + (* to the left *)
      eapply (ends_jmp e x _ s2 done (IJcc CGE LSkip) s2 LSkip 27%nat).
      { rewrite C. reflexivity. }
      { cbn [step holds]. rewrite FL. reflexivity. }
      { discriminate. }
      { rewrite C. reflexivity. }
      st C.
      eapply (ends_next e x _ s2 done _ (setr s2 RB ((mid - 1) mod 2 ^ B))); [rewrite C; reflexivity| |].
      { cbn [step]. unfold ea. cbn [at_reg a_tab a_base a_idx a_disp Z.eqb].
        rewrite M2, X1, E64. replace (0 + mid + 0 + -1) with (mid - 1) by ql.
        rewrite B64. reflexivity. }
      assert (RG' : regs64 (setr s2 RB ((mid - 1) mod 2 ^ B)) lo (mid - 1)).
      { unfold regs64. cbn. rewrite M2, K2, X7. auto 10. }
      assert (AR' : around lo (mid - 1)).
      { split; [ql|]. split; [ql|]. split; [exact A3|]. intros i d Q I.
        destruct (Z.eq_dec (Z.of_nat i) mid) as [EI|NI].
        - replace i with (Z.to_nat mid) in Q by ql. rewrite MC in Q. injection Q as <-. ql.
        - apply Z.lt_trans with (fst c); [ql|].
          apply (asc_nth cs AS (Z.to_nat mid) i); [ql|exact MC|exact Q]. }
      apply (cont64 _ lo (mid - 1) W64 C0 RG' AR'). intros s' RS LE.
      apply (IH lo (mid - 1) s'); [ql|exact LE|exact RS|exact AR'].
Qed.

(** ** From the start *)

Lemma search_ok : o_code (e_o e) = code5 w n -> ends e x 0 s0 done.
Proof.
  intros C. pose proof C as C0. pose proof B32 as BB.
  assert (P31 : 2 ^ 31 = 2147483648) by reflexivity.
  assert (NE : exists c, nth_error cs 0 = Some c).
  { destruct cs as [|c r] eqn:Q; [cbn in N0; unfold n, zlen in N0; cbn in N0; ql|exists c; reflexivity]. }
  destruct NE as (c & NC). destruct (probe s0 _ _ NC) as (_ & _ & B2 & _).
  assert (AR : around 0 (n - 1)).
  { split; [ql|]. split; [ql|]. split; [ql|]. intros i d Q I.
    pose proof (nth_lt _ _ _ _ Q). unfold n in I. ql. }
  assert (WW : s_64 w = true \/ s_64 w = false) by (case (s_64 w); auto).
  unfold code5 in C. destruct WW as [W64|W64]; rewrite W64 in C.
  - assert (E64 : e_w e = 64) by (rewrite EW, W64; reflexivity).
    rewrite bits_eq in C. fold B in C.
    st C. st C. st C. st C. st C. st C. st C. st C. st C. st C.
    apply (loop64 W64 C0 (Z.to_nat (n + 1)) 0 (n - 1)); [ql|ql| |exact AR].
    unfold regs64. cbn [setf setr sets m_reg m_stk reg_eqb].
    split; [reflexivity|]. split; [reflexivity|]. split; [reflexivity|]. split; [|auto].
    unfold ea. cbn [at_tab a_tab a_base a_idx a_disp Z.eqb Pos.eqb].
    rewrite !Z.add_0_r, B2. rewrite <- E64. exact B2.
  - assert (E32 : e_w e = 32) by (rewrite EW, W64; reflexivity).
    assert (W : s_8 w = false) by (apply not_true_is_false; intro Q; rewrite W8 in W64 by exact Q; discriminate).
    assert (BE : B = 32) by (unfold B; rewrite W; reflexivity).
    st C. st C. st C. st C. st C. st C. st C. st C. st C. st C. st C.
    apply (loop32 W64 C0 (Z.to_nat (n + 1)) 0 (n - 1)); [ql|ql| |exact AR].
    unfold regs32. rewrite BE. cbn [setf setr sets m_reg m_stk reg_eqb].
    split; [reflexivity|]. split; [reflexivity|]. split; [reflexivity|]. split; [|auto].
    unfold ea. cbn [at_tab a_tab a_base a_idx a_disp Z.eqb Pos.eqb].
    rewrite !Z.add_0_r, B2. rewrite <- E32. exact B2.
Qed.
End Search.
