(** Proofs about branches: acceptance, passes over a segment, linked symbols. *)
From Verif Require Import Base.
From Verif Require Import Mem_Model.
From Verif Require Import Branch_Model Branch_Spec Branch_Proofs.

#[local] Arguments i32 : simpl never.
#[local] Arguments wrap : simpl never.
#[local] Arguments swrap : simpl never.
#[local] Arguments le_bytes : simpl never.
#[local] Arguments zlen : simpl never.

Definition short_disp (e : env) (p : prefix) (cur : Z) (t : token) (T : Z) : Z := T - (cur + 2 + b2z (adr e t) + b2z (is_bnd p)).

Lemma near_part_ok e p cur t o s addr : P_386 <= e_cpu e ->
  let T := addr + o_value o in
  let fits := negb (mt_eqb (mt0 o) MT_NEAR) && negb (is_call t) && (i32 (short_disp e p cur t T) >=? -128) && (i32 (short_disp e p cur t T) <=? 127) in
  mt0 o = MT_EMPTY \/ mt0 o = MT_NEAR ->
  (fits = true -> exists k, near_part e p cur t o s addr (start_ci t o) = Ok k /\ c_type k = Some I8 /\ c_opsiz k = false /\ c_pre k = [] /\ c_tok k = t) /\
  (fits = false -> o_short o || IS_XCX_BRANCH t = false ->
     exists k, near_part e p cur t o s addr (start_ci t o) = Ok k /\ c_type k = Some (near_type e o) /\ c_tok k = t) /\
  (fits = false -> o_short o || IS_XCX_BRANCH t = true -> near_part e p cur t o s addr (start_ci t o) = Err).
Proof.
  intros CP T fits MT. unfold near_part. fold (adr e t). cbn [start_ci c_tok c_mt c_data]. fold (mt0 o).
  change (is_call t && mt_eqb (mt0 o) MT_EMPTY && mt_eqb (s_mt s) MT_FAR) with (pushes t o s).
  set (st := if pushes t o s then _ else _).
  assert (S1 : c_pre (fst st) = (if pushes t o s then [0x0E] else []) /\ c_tok (fst st) = t /\ c_data (fst st) = i32 (o_value o) /\
               snd st = cur + b2z (pushes t o s) /\ c_mt (fst st) = (if pushes t o s then MT_NEAR else mt0 o) /\ c_opsiz (fst st) = false).
  { unfold st. destruct (pushes t o s); cbn; rewrite ?Z.add_0_r; auto 10. }
  destruct st as [k0 cur0]. cbn [fst snd] in S1. destruct S1 as (P0 & T0 & D0 & -> & M0 & O0).
  rewrite T0, D0.
  set (A1 := if adr e t then _ else _).
  assert (E1 : A1 = i32 (addr + o_value o - (cur + b2z (pushes t o s) + 2 + b2z (adr e t)))).
  { unfold A1. rewrite i32_add, i32_add2. destruct (adr e t); cbn [b2z]; rewrite ?i32_sub; f_equal; lia. }
  clearbody A1. subst A1.
  set (A2 := if is_bnd p then _ else _).
  assert (E2 : A2 = i32 (addr + o_value o - (cur + b2z (pushes t o s) + 2 + b2z (adr e t) + b2z (is_bnd p)))).
  { unfold A2. destruct (is_bnd p); cbn [b2z]; rewrite ?i32_sub; f_equal; lia. }
  clearbody A2. subst A2. fold T.
  assert (FE : negb (mt_eqb (c_mt k0) MT_NEAR) && negb (is_call t) &&
               (i32 (T - (cur + b2z (pushes t o s) + 2 + b2z (adr e t) + b2z (is_bnd p))) >=? -128) &&
               (i32 (T - (cur + b2z (pushes t o s) + 2 + b2z (adr e t) + b2z (is_bnd p))) <=? 127) = fits).
  { unfold fits, short_disp. rewrite M0. destruct (is_call t) eqn:C.
    - cbn [negb]. rewrite !andb_false_r. reflexivity.
    - assert (NP : pushes t o s = false) by (unfold pushes; rewrite C; reflexivity). rewrite NP. cbn [b2z]. rewrite Z.add_0_r. reflexivity. }
  rewrite FE. assert (CP' : e_cpu e <? P_386 = false) by lia. rewrite CP'. cbn [andb].
  destruct fits eqn:FF.
  - split; [|split; discriminate]. intros _. cbn [bindr]. eexists. split; [reflexivity|]. cbn.
    assert (NC : is_call t = false).
    { apply andb_prop in FE as [B B4]. apply andb_prop in B as [B B3]. apply andb_prop in B as [B1 B2]. destruct (is_call t); [discriminate|reflexivity]. }
    assert (NP : pushes t o s = false) by (unfold pushes; rewrite NC; reflexivity). rewrite NP in P0. auto.
  - split; [discriminate|]. split.
    + intros _ SX. rewrite SX. unfold near_type.
      destruct (o_ofs o) as [[]|]; cbn [bindr]; [| | |destruct (e_ofs e); cbn [negb ofs_eqb bindr]]; eexists; (split; [reflexivity|]); cbn; auto.
    + intros _ SX. rewrite SX. reflexivity.
Qed.

Lemma branch_accepts e p cur t o s :
  s_state s = SYM_INTERNAL -> s_hasseg s = true -> s_inseg s = true -> (s_met s = true \/ cur <= s_offset s) ->
  min_cpu t <= e_cpu e -> prefix_ok p t = true -> available (e_ofs e) t = true ->
  mt0 o = MT_EMPTY \/ mt0 o = MT_NEAR ->
  let disp := i32 (short_disp e p cur t (s_offset s + o_value o)) in
  (is_call t = false -> mt0 o = MT_EMPTY -> -128 <= disp <= 127 ->
     exists h d, branch e p cur t o s = Ok (h, d, None) /\ zlen (h ++ d) = 2 + b2z (adr e t) + b2z (is_bnd p) /\ zlen d = 1) /\
  ((exists h d, branch e p cur t o s = Ok (h, d, None)) <->
   (o_short o = true \/ IS_XCX_BRANCH t = true -> is_call t = false /\ mt0 o = MT_EMPTY /\ -128 <= disp <= 127)).
Proof.
  intros ST HS IN MET CP PF0 AV MT disp.
  assert (PF : match p with NoPrefix => true | BND => negb (IS_XCX_BRANCH t) | OtherPrefix => false end = true) by (destruct p, t; exact PF0).
  clear PF0.
  assert (C3 : P_386 <= e_cpu e) by (destruct t; cbn [min_cpu] in CP; unfold P_386, P_64 in *; lia).
  assert (BE : branch e p cur t o s = bindr (near_part e p cur t o s (s_offset s) (start_ci t o)) (fun k => bindr (codegen e p k) (fun '(h, d) => Ok (h, d, c_fix k)))).
  { unfold branch, process_branch, target_state. rewrite ST, HS, IN. cbn [andb bindr].
    assert (AD : (if negb (s_met s) && (s_offset s <? cur) then cur else s_offset s) = s_offset s).
    { destruct MET as [-> |M]; [reflexivity|]. destruct (Z.ltb_spec (s_offset s) cur); [lia|]. rewrite andb_false_r. reflexivity. }
    rewrite AD. change (c_mt (start_ci t o)) with (mt0 o).
    destruct MT as [-> | ->]; destruct (near_part e p cur t o s (s_offset s) (start_ci t o)); reflexivity. }
  destruct (near_part_ok e p cur t o s (s_offset s) C3 MT) as (N1 & N2 & N3). fold (short_disp e p cur t (s_offset s + o_value o)) in *.
  fold disp in N1, N2, N3.
  set (fits := negb (mt_eqb (mt0 o) MT_NEAR) && negb (is_call t) && (disp >=? -128) && (disp <=? 127)) in *.
  assert (FI : fits = true <-> is_call t = false /\ mt0 o = MT_EMPTY /\ -128 <= disp <= 127).
  { unfold fits. destruct MT as [-> | ->]; cbn [mt_eqb negb andb]; destruct (is_call t); cbn [negb andb]; split; try discriminate; try (intros (? & ? & ?); discriminate).
    - intros H. split; [reflexivity|]. split; [reflexivity|]. lia.
    - intros (_ & _ & H). lia. }
  assert (SH : fits = true -> exists h d, branch e p cur t o s = Ok (h, d, None) /\ zlen (h ++ d) = 2 + b2z (adr e t) + b2z (is_bnd p) /\ zlen d = 1).
  { intros F. destruct (N1 F) as (k & NK & Y & O & P & TK). destruct (near_shape _ _ _ _ _ _ _ _ NK) as (FA & FX & _).
    rewrite BE, NK. cbn [bindr]. apply FI in F as (NC & _ & _).
    unfold codegen. rewrite Y, FA, O, P, TK, FX.
    destruct t; try discriminate NC; cbn [near_rows find_row find accepts r_op r_cpu mkrow r_bnd r_b1];
      (replace (_ >? e_cpu e) with false by (cbn [min_cpu] in CP; unfold P_386, P_64, P_86 in *; lia));
      destruct p; cbn in PF; try discriminate PF; cbn [bindr is_bnd r_b1];
      unfold adr; cbn [andb orb]; destruct (e_ofs e); try discriminate AV; cbn [ofs_eqb negb app bindr];
      do 2 eexists; (split; [reflexivity|]); cbn [app]; rewrite ?zlen_cons, ?zlen_le; change (zlen (@nil Z)) with 0; cbn; lia. }
  assert (NR : fits = false -> o_short o || IS_XCX_BRANCH t = false -> exists h d, branch e p cur t o s = Ok (h, d, None)).
  { intros F SX. destruct (N2 F SX) as (k & NK & Y & TK). destruct (near_shape _ _ _ _ _ _ _ _ NK) as (FA & FX & _).
    rewrite BE, NK. cbn [bindr]. unfold codegen. rewrite Y, FA, TK, FX.
    apply orb_false_elim in SX as [_ SX].
    assert (TY : near_type e o = I16 \/ near_type e o = I32) by (unfold near_type; destruct (o_ofs o) as [[]|], (e_ofs e); auto).
    assert (CP3 : e_cpu e <? P_386 = false) by lia.
    destruct t; try discriminate SX; destruct TY as [-> | ->]; cbn [near_rows find_row find accepts r_op r_cpu mkrow r_bnd r_b1];
      (replace (_ >? e_cpu e) with false by (cbn [min_cpu] in CP; unfold P_386, P_64, P_86 in *; lia));
      destruct p; cbn in PF; try discriminate PF; cbn [bindr]; rewrite CP3, andb_false_r; cbn [bindr]; do 2 eexists; reflexivity. }
  split.
  - intros H1 H2 H3. apply SH, FI. auto.
  - destruct fits eqn:FF.
    + split; [intros _ _; apply FI; reflexivity|]. intros _. destruct (SH eq_refl) as (h & d & E & _). eauto.
    + split.
      * intros (h & d & E) SX. exfalso. rewrite BE in E. rewrite N3 in E; [discriminate|reflexivity|]. destruct SX as [-> | ->]; [reflexivity|apply orb_true_r].
      * intros SX. apply NR; [reflexivity|]. destruct (o_short o) eqn:S1, (IS_XCX_BRANCH t) eqn:S2; try reflexivity; exfalso;
          assert (false = true) by (apply FI; apply SX; auto); discriminate.
Qed.


Lemma one_label far n cur tb bs tb' ph : one far (ILabel n) cur tb = Ok (bs, tb', ph) ->
  bs = [] /\ tb' = update tb n (wrap 32 cur, true) /\ (ph = false -> fst (tb n) = wrap 32 cur).
Proof.
  intros H. cbn in H. assert (Q : (@nil Z, update tb n (wrap 32 cur, true), negb (fst (tb n) =? wrap 32 cur)) = (bs, tb', ph)) by congruence.
  apply pair_equal_spec in Q as [Q <-]. apply pair_equal_spec in Q as [<- <-]. split; [reflexivity|]. split; [reflexivity|].
  intros E. destruct (Z.eqb_spec (fst (tb n)) (wrap 32 cur)); [assumption|discriminate].
Qed.
Lemma one_other far i cur tb bs tb' ph : (forall n, i <> ILabel n) -> one far i cur tb = Ok (bs, tb', ph) -> tb' = tb /\ ph = false.
Proof.
  intros N H. destruct i as [n|b|n|e p t o n]; cbn in H.
  - destruct (N n eq_refl).
  - split; congruence.
  - split; congruence.
  - destruct (available (e_ofs e) t); [|discriminate]. destruct (branch e p cur t o _) as [[[h d] f]| |]; try discriminate. cbn in H. split; congruence.
Qed.

Lemma pass_cons far i r cur tb l tb' ph : pass far (i :: r) cur tb = Ok (l, tb', ph) ->
  exists bs tb1 ph1 l1 ph2, one far i cur tb = Ok (bs, tb1, ph1) /\ pass far r (cur + zlen bs) tb1 = Ok (l1, tb', ph2) /\
    l = bs :: l1 /\ ph = ph1 || ph2.
Proof.
  cbn [pass]. destruct (one far i cur tb) as [[[bs tb1] ph1]| |]; try discriminate. cbn [bindr].
  destruct (pass far r (cur + zlen bs) tb1) as [[[l1 tb2] ph2]| |] eqn:P; try discriminate. cbn [bindr]. intros H.
  exists bs, tb1, ph1, l1, ph2. split; [reflexivity|]. repeat split; try congruence.
Qed.

(** a label's offset before the pass is its position after it *)
Lemma pass_label far n : forall prog cur tb l tb' j, pass far prog cur tb = Ok (l, tb', false) -> NoDup (labels prog) ->
  nth_error prog j = Some (ILabel n) -> fst (tb n) = wrap 32 (cur + position l j).
Proof.
  induction prog as [|i r IH]; intros cur tb l tb' j P ND J; [destruct j; discriminate|].
  apply pass_cons in P as (bs & tb1 & ph1 & l1 & ph2 & O & P & -> & PH).
  symmetry in PH. apply orb_false_elim in PH as [-> ->].
  destruct j as [|j]; cbn [nth_error position] in *.
  - assert (i = ILabel n) by congruence. subst i. apply one_label in O as (_ & _ & O). rewrite Z.add_0_r. auto.
  - assert (ND' : NoDup (labels r)) by (destruct i; cbn in ND; [inversion ND; assumption| | |]; assumption).
    specialize (IH _ _ _ _ _ P ND' J). rewrite Z.add_assoc, <- IH. f_equal.
    destruct i as [k|b|z|e p t o k].
    2-4: apply one_other in O as [-> _]; [reflexivity|discriminate].
    apply one_label in O as (_ & -> & _). unfold update. destruct (Nat.eqb_spec n k); [|reflexivity]. subst k. exfalso.
    cbn in ND. inversion ND as [|x y H1 H2 E]. apply H1. clear -J. revert j J. induction r as [|a r IH]; intros [|j] J; cbn in J; try discriminate.
    + assert (a = ILabel n) by congruence. subst a. left. reflexivity.
    + specialize (IH j J). destruct a; cbn; auto.
Qed.

Lemma position_nonneg l j : 0 <= position l j.
Proof. revert l. induction j as [|j IH]; intros [|c r]; cbn; try lia. specialize (IH r). pose proof (zlen_nonneg c). lia. Qed.
Lemma position_mono l : forall i j, (i <= j)%nat -> position l i <= position l j.
Proof.
  induction l as [|c r IH]; intros [|i] [|j] L; cbn [position]; try lia.
  - pose proof (position_nonneg r j). pose proof (zlen_nonneg c). lia.
  - specialize (IH i j). lia.
Qed.

(** the state in which item [i] of the segment is assembled *)
Lemma pass_item far prog : forall cur tb l tb' ph i it, pass far prog cur tb = Ok (l, tb', ph) -> nth_error prog i = Some it ->
  exists tbi bs tbi' phi, one far it (cur + position l i) tbi = Ok (bs, tbi', phi) /\ nth_error l i = Some bs /\
    (forall n, ~ In n (labels (firstn i prog)) -> tbi n = tb n) /\
    (forall n j, nth_error prog j = Some (ILabel n) -> (j < i)%nat -> NoDup (labels prog) -> tbi n = (wrap 32 (cur + position l j), true)).
Proof.
  induction prog as [|a r IH]; intros cur tb l tb' ph i it P I; [destruct i; discriminate|].
  apply pass_cons in P as (bs & tb1 & ph1 & l1 & ph2 & O & P & -> & _).
  destruct i as [|i]; cbn [nth_error position firstn] in *.
  - assert (a = it) by congruence. subst a. exists tb, bs, tb1, ph1. rewrite Z.add_0_r. split; [exact O|]. split; [reflexivity|]. split; [reflexivity|]. intros; lia.
  - destruct (IH _ _ _ _ _ _ _ P I) as (tbi & b & tbi' & phi & O1 & N1 & K1 & K2).
    exists tbi, b, tbi', phi. rewrite Z.add_assoc. split; [exact O1|]. split; [exact N1|]. split.
    + intros n NI. destruct a as [k|bb|z|e p t o k].
      2-4: cbn in NI; rewrite (K1 n NI); apply one_other in O as [-> _]; [reflexivity|discriminate].
      cbn in NI. rewrite (K1 n) by tauto. apply one_label in O as (_ & -> & _). unfold update. destruct (Nat.eqb_spec n k); [subst; tauto|reflexivity].
    + intros n [|j] J L ND; cbn [nth_error position] in *.
      * assert (a = ILabel n) by congruence. subst a. cbn in ND. inversion ND as [|x y H1 H2 E]. rewrite K1.
        -- apply one_label in O as (_ & -> & _). unfold update. rewrite Nat.eqb_refl, Z.add_0_r. reflexivity.
        -- intros F. apply H1. clear -F. revert i F. induction r as [|a r IH]; intros [|i] F; cbn in F; try contradiction.
           destruct a; cbn in F |- *; try (apply (IH i); assumption). destruct F as [F|F]; [left; exact F|right; apply (IH i); exact F].
      * assert (ND' : NoDup (labels r)) by (destruct a; cbn in ND; [inversion ND; assumption| | |]; assumption).
        rewrite Z.add_assoc. apply K2; [exact J|lia|exact ND'].
Qed.

Lemma label_before prog : forall n i, In n (labels (firstn i prog)) -> exists j, (j < i)%nat /\ nth_error prog j = Some (ILabel n).
Proof.
  induction prog as [|a r IH]; intros n [|i] H; cbn in H; try contradiction.
  destruct a; cbn in H; try (destruct H as [-> |H]; [exists 0%nat; cbn; split; [lia|reflexivity]|]);
    destruct (IH _ _ H) as (j & L & E); exists (S j); cbn; split; (lia || assumption).
Qed.
Lemma label_unique prog : forall n i j, NoDup (labels prog) -> nth_error prog i = Some (ILabel n) -> nth_error prog j = Some (ILabel n) -> i = j.
Proof.
  assert (IN : forall prog n j, nth_error prog j = Some (ILabel n) -> In n (labels prog)).
  { clear. induction prog as [|a r IH]; intros n [|j] H; cbn in H; try discriminate.
    - assert (a = ILabel n) by congruence. subst. left. reflexivity.
    - specialize (IH _ _ H). destruct a; cbn; auto. }
  induction prog as [|a r IH]; intros n [|i] [|j] ND I J; cbn in I, J; try discriminate; try reflexivity.
  - assert (a = ILabel n) by congruence. subst. cbn in ND. inversion ND. exfalso. eauto.
  - assert (a = ILabel n) by congruence. subst. cbn in ND. inversion ND. exfalso. eauto.
  - f_equal. apply (IH n); try assumption. destruct a; cbn in ND; [inversion ND; assumption| | |]; assumption.
Qed.

Lemma position_total l i : position l i <= zlen (concat l).
Proof.
  revert i. induction l as [|c r IH]; intros [|i]; cbn [position concat]; rewrite ?zlen_nil; try lia; try apply zlen_nonneg.
  rewrite zlen_app. specialize (IH i). lia.
Qed.

Theorem pass_reaches far prog tb l tb' i j e p t o n c m :
  pass far prog 0 (new_pass tb) = Ok (l, tb', false) -> NoDup (labels prog) -> zlen (concat l) < 2 ^ 32 ->
  nth_error prog i = Some (IBranch e p t o n) -> nth_error prog j = Some (ILabel n) -> nth_error l i = Some c ->
  mt0 o = MT_EMPTY \/ mt0 o = MT_NEAR ->
  (p = BND -> P_386 <= e_cpu e) ->
  let push := is_call t && far n && mt_eqb (mt0 o) MT_EMPTY in
  (push = true -> e_ofs e <> USE64) ->
  let cur := position l i in
  let T := position l j + o_value o in
  cast_ok e o T (cur + zlen c) ->
  (e_ofs e = USE64 -> - 2 ^ 31 <= T - (cur + zlen c) < 2 ^ 31) ->
  run 3 (e_ofs e) m cur c false =
    Some (means (e_ofs e) t push m (T mod 2 ^ bits (e_ofs e)) ((cur + zlen c) mod 2 ^ bits (e_ofs e)), None).
Proof.
  intros P ND SZ I J C MT BN push PU cur T CA X.
  destruct (pass_item far _ _ _ _ _ _ _ _ P I) as (tbi & bs & tbi' & phi & O & N1 & K1 & K2).
  assert (bs = c) by congruence. subst bs. cbn [Z.add] in O. change (0 + position l i) with (position l i) in O.
  fold cur in O.
  cbn [one] in O. destruct (available (e_ofs e) t) eqn:AV; [|discriminate].
  destruct (branch e p cur t o (local_sym far (e_ofs e) tbi n)) as [[[h d] f]| |] eqn:B; try discriminate. cbn [bindr] in O.
  assert (c = h ++ d) by congruence. subst c. clear O.
  assert (W : wrap 32 (position l j) = position l j).
  { apply wrap_small. pose proof (position_nonneg l j). pose proof (position_total l j). lia. }
  assert (OFF : fst (tbi n) = position l j /\ (snd (tbi n) = true \/ cur <= position l j)).
  { destruct (Nat.lt_ge_cases j i) as [L|L].
    - rewrite (K2 n j J L ND). cbn [fst snd]. rewrite Z.add_0_l, W. auto.
    - assert (NI : ~ In n (labels (firstn i prog))).
      { intros IN. destruct (label_before _ _ _ IN) as (j' & L' & J'). assert (j' = j) by (eapply label_unique; eassumption). lia. }
      rewrite (K1 n NI). rewrite (pass_label far n _ _ _ _ _ _ P ND J), Z.add_0_l, W. split; [reflexivity|]. right. apply position_mono. exact L. }
  destruct OFF as [OFF MET].
  assert (PS : pushes t o (local_sym far (e_ofs e) tbi n) = push).
  { unfold pushes, push. cbn [local_sym s_mt]. destruct (is_call t), (mt_eqb (mt0 o) MT_EMPTY), (far n); reflexivity. }
  assert (F : f = None).
  { unfold branch, process_branch in B. destruct (target_state cur o (local_sym far (e_ofs e) tbi n)) as [[st ad]| |] eqn:TS; try discriminate.
    unfold target_state in TS. cbn [local_sym s_state s_hasseg s_inseg andb] in TS. assert (st = SYM_INTERNAL) by congruence. subst st.
    cbn [bindr andb] in B. change (c_mt (start_ci t o)) with (mt0 o) in B.
    destruct MT as [M|M]; rewrite M in B; destruct (near_part e p cur t o _ ad _) as [k| |] eqn:NP; try discriminate; cbn [bindr] in B;
      destruct (codegen e p k) as [[h' d']| |]; try discriminate; cbn [bindr] in B; apply near_shape in NP as (_ & FX & _); congruence. }
  subst f. rewrite <- PS. unfold T in *.
  replace (position l j) with (s_offset (local_sym far (e_ofs e) tbi n)) in * by exact OFF.
  apply (branch_reaches e p cur t o); try assumption; try reflexivity.
  rewrite PS. exact PU.
Qed.

Theorem passes_final fuel far prog : forall tb prev l tb', passes fuel far prog tb prev = Ok (l, tb') ->
  exists tb0, pass far prog 0 (new_pass tb0) = Ok (l, tb', false).
Proof.
  induction fuel as [|f IH]; intros tb prev l tb' H; [discriminate|]. cbn [passes] in H.
  destruct (pass far prog 0 (new_pass tb)) as [[[l1 tb1] ph]| |] eqn:P; try discriminate. cbn [bindr] in H.
  destruct (negb ph && (prev =? zlen (concat l1))) eqn:E.
  - exists tb. apply andb_prop in E as [E _]. destruct ph; [discriminate|]. rewrite P. congruence.
  - eauto.
Qed.

Lemma short_len_adr e p t : available (e_ofs e) t = true -> short_len e p t = 2 + b2z (adr e t) + b2z (is_bnd p).
Proof. unfold short_len, adr. destruct t, (e_ofs e), p; try discriminate; reflexivity. Qed.

Lemma branch_accepts' e p cur t o s :
  s_state s = SYM_INTERNAL -> s_hasseg s = true -> s_inseg s = true -> (s_met s = true \/ cur <= s_offset s) ->
  min_cpu t <= e_cpu e -> prefix_ok p t = true -> available (e_ofs e) t = true ->
  mt0 o = MT_EMPTY \/ mt0 o = MT_NEAR ->
  let disp := s_offset s + o_value o - (cur + short_len e p t) in
  - 2 ^ 31 <= disp < 2 ^ 31 ->
  (is_call t = false -> mt0 o = MT_EMPTY -> -128 <= disp <= 127 ->
     exists h d, branch e p cur t o s = Ok (h, d, None) /\ zlen (h ++ d) = short_len e p t) /\
  ((exists h d, branch e p cur t o s = Ok (h, d, None)) <->
   (o_short o = true \/ counts t = true -> is_call t = false /\ mt0 o = MT_EMPTY /\ -128 <= disp <= 127)).
Proof.
  intros ST HS IN MET CP PF AV MT disp RG.
  destruct (branch_accepts e p cur t o s ST HS IN MET CP PF AV MT) as [A B]. cbv zeta in A, B.
  assert (E : i32 (short_disp e p cur t (s_offset s + o_value o)) = disp).
  { unfold short_disp. unfold disp in *. rewrite short_len_adr in * by exact AV. rewrite i32_small by lia. lia. }
  rewrite E in A, B. split; [|exact B].
  intros NC M R. destruct (A NC M R) as (h & d & BR & L1 & L2). exists h, d. split; [exact BR|]. rewrite short_len_adr by exact AV. exact L1.
Qed.

(** * What stands between the branches *)
Definition item_bytes (i : item) (at_ : Z) (c : list Z) : Prop :=
  match i with
  | ILabel _ => c = []
  | IData bs => c = bs
  | IAlign n => 0 < n -> (at_ + zlen c) mod n = 0 /\ zlen c < n /\ Forall (eq 0) c
  | IBranch _ _ _ _ _ => True
  end.
Lemma repeat_zlen {A} (x : A) k : 0 <= k -> zlen (repeat x (Z.to_nat k)) = k.
Proof. intros H. unfold zlen. rewrite repeat_length. lia. Qed.
Lemma one_bytes far i cur tb bs tb' ph : one far i cur tb = Ok (bs, tb', ph) -> item_bytes i cur bs.
Proof.
  assert (E : forall a b c a' b' c', @Ok (list Z * table * bool) (a, b, c) = Ok (a', b', c') -> a = a') by (intros; congruence).
  destruct i; cbn [one item_bytes]; intros H; auto; try (apply E in H; auto).
  intros Hn. subst bs. pose proof (Z.mod_pos_bound (- cur) n Hn) as Hb. rewrite repeat_zlen by lia. split; [|split; [lia|]].
  - rewrite <- (Z.add_mod_idemp_r cur _ n), Z.mod_mod, Z.add_mod_idemp_r by lia. replace (cur + - cur) with 0 by lia. apply Z.mod_0_l. lia.
  - apply Forall_forall. intros x Hx. symmetry. exact (repeat_spec _ _ _ Hx).
Qed.
Lemma pass_bytes far prog : forall cur tb l tb' ph, pass far prog cur tb = Ok (l, tb', ph) ->
  length l = length prog /\ forall k i c, nth_error prog k = Some i -> nth_error l k = Some c -> item_bytes i (cur + position l k) c.
Proof.
  assert (E : forall a b c a' b' c', @Ok (list (list Z) * table * bool) (a, b, c) = Ok (a', b', c') -> a = a') by (intros; congruence).
  induction prog as [|i r IH]; intros cur tb l tb' ph H; cbn [pass] in H.
  - apply E in H. subst l. split; [reflexivity|]. intros [|k] ? ?; discriminate.
  - destruct (one far i cur tb) as [[[bs tb1] ph1]| |] eqn:E1; cbn [bindr] in H; try discriminate.
    destruct (pass far r (cur + zlen bs) tb1) as [[[l2 tb2] ph2]| |] eqn:E2; cbn [bindr] in H; try discriminate.
    apply E in H. subst l. apply IH in E2 as [Hl Hn]. split; [cbn; lia|].
    intros [|k] j c Hp Hc; cbn [nth_error position] in *.
    + assert (j = i /\ c = bs) as [-> ->] by (split; congruence). rewrite Z.add_0_r. exact (one_bytes _ _ _ _ _ _ _ E1).
    + rewrite Z.add_assoc. eauto.
Qed.
Lemma passes_bytes fuel far prog tb prev l tb' : passes fuel far prog tb prev = Ok (l, tb') ->
  length l = length prog /\ forall k i c, nth_error prog k = Some i -> nth_error l k = Some c -> item_bytes i (position l k) c.
Proof. intros H. destruct (passes_final _ _ _ _ _ _ _ H) as [tb0 P]. apply pass_bytes in P as [Hl Hn]. split; auto. Qed.
