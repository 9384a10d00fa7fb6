(** .ENDSWITCH: the dispatch arrives at the label of the case. *)
From Coq Require Import ZArith List Bool Lia Permutation.
From Verif Require Import Base Switch_Model Switch_Spec SwSort_Proofs SwTab_Proofs SwRun_Proofs SwFind_Proofs.
Import ListNotations.
Open Scope Z_scope.

Local Arguments swrap : simpl never.
Local Arguments Z.pow : simpl never.
Local Arguments Z.modulo : simpl never.
Local Arguments Z.div : simpl never.
Local Arguments Z.mul : simpl never.
Local Arguments Z.sub : simpl never.
Local Arguments Z.opp : simpl never.

(** The method for each way. *)
Definition method (c8 : bool) (size : Z) (cases : list (Z * Z)) : Z :=
  match way_of c8 size cases with
  | Chain => zlen cases
  | Dense => 6
  | Counted => if span cases <? 256 then 4 else 7
  | Search => 5
  end.

Definition okay (w : swi) (cases : list (Z * Z)) : Prop := proper cases /\ plain w cases.

Lemma ok_proper : forall w c, okay w c -> proper c. Proof. intros w c [H _]. exact H. Qed.
Lemma ok_some : forall w c, okay w c -> 0 < zlen c < 65536. Proof. intros w c [_ H]. apply H. Qed.
Lemma ok_8 : forall w c, okay w c -> s_8 w = true -> s_64 w = true. Proof. intros w c [_ H]. apply H. Qed.
Lemma ok_span : forall w c, okay w c -> s_8 w = false -> span c < 2 ^ 29. Proof. intros w c [_ H]. apply H. Qed.
Lemma ok_size : forall w c, okay w c -> s_size w <= 65536. Proof. intros w c [_ H]. apply H. Qed.
Lemma ok_radix : forall w c, okay w c -> s_radix w = 10. Proof. intros w c [_ H]. apply H. Qed.

Lemma int32_of : forall cs, proper cs -> Forall (fun c => int32 (fst c)) cs.
Proof.
  intros cs [_ F]. eapply Forall_impl; [|exact F]. cbn. intros c [R _]. exact R.
Qed.

Lemma ends_in : forall cs, cs <> [] -> asc cs -> proper cs ->
  int32 (mincase cs) /\ int32 (maxcase cs) /\
  (forall v l, In (v, l) cs -> mincase cs <= v <= maxcase cs).
Proof.
  intros cs NE A P. destruct (asc_bounds cs A NE) as [-> ->].
  destruct (least_spec cs NE) as [L1 L2]. destruct (greatest_spec cs NE) as [G1 G2].
  pose proof (int32_of cs P) as F. rewrite Forall_forall in F, L2, G2.
  apply in_map_iff in L1 as (c & L1 & C). apply in_map_iff in G1 as (d & G1 & D).
  split; [rewrite <- L1; apply F; exact C|]. split; [rewrite <- G1; apply F; exact D|].
  intros v l I. specialize (L2 _ I). specialize (G2 _ I). cbn in L2, G2. lia.
Qed.

Lemma choose_method : forall w cases cs, okay w cases -> Permutation cases cs -> asc cs ->
  choose w cs = method (s_8 w) (s_size w) cases.
Proof.
  intros w cases cs OK P A.
  assert (NE : cs <> []).
  { intros ->. pose proof (ok_some _ _ OK) as Z0. apply zlen_perm in P. change (zlen (@nil (Z*Z))) with 0 in P. lia. }
  destruct (ends_in cs NE A (proper_perm _ _ P (ok_proper _ _ OK))) as (I1 & I2 & _).
  destruct (asc_bounds cs A NE) as [B1 B2].
  unfold choose, method, way_of. rewrite (zlen_perm _ _ P).
  unfold span. pose proof (ok_span _ _ OK) as SP. unfold span in SP.
  rewrite <- (least_perm _ _ P), <- (greatest_perm _ _ P) in *. rewrite <- B1, <- B2 in *.
  set (mn := mincase cs) in *. set (mx := maxcase cs) in *. set (n := zlen cases) in *.
  assert (LE : mn <= mx).
  { destruct (ends_in cs NE A (proper_perm _ _ P (ok_proper _ _ OK))) as (_ & _ & H).
    destruct cs as [|[v l] r]; [congruence|]. specialize (H v l (or_introl eq_refl)). fold mn mx in H. lia. }
  clearbody mn mx n. unfold int32 in I1, I2.
  destruct (n <=? 3); [reflexivity|].
  assert (WE : negb (s_64 w) || negb (s_8 w) = negb (s_8 w)).
  { destruct (s_8 w) eqn:E; [rewrite (ok_8 _ _ OK E); reflexivity|apply orb_true_r]. }
  rewrite WE. change (2 ^ 31) with 2147483648 in I1, I2.
  destruct (s_8 w); cbn [negb].
  - change (2 ^ 64) with 18446744073709551616.
    rewrite (Z.mod_small (mx - mn)) by lia. rewrite (Z.mod_small ((mx - mn) * 8)) by lia.
    replace (n * 8 + n * 2) with (n * 10) by lia.
    destruct (_ <=? _); [reflexivity|].
    destruct (mx - mn <? 256); [reflexivity|]. cbn [orb]. destruct (_ <? _); reflexivity.
  - specialize (SP eq_refl). change (2 ^ 29) with 536870912 in SP.
    rewrite (swrap_small 32 (mx - mn)) by (try lia; change (2 ^ (32 - 1)) with 2147483648; lia).
    rewrite (swrap_small 32 ((mx - mn) * 4)) by (try lia; change (2 ^ (32 - 1)) with 2147483648; lia).
    replace (n * 4 + n * 2) with (n * 6) by lia.
    destruct (_ <=? _); [reflexivity|].
    destruct (mx - mn <? 256); [reflexivity|]. cbn [orb]. destruct (_ <? _); reflexivity.
Qed.

Lemma place_ok : forall w byte cs, cs <> [] -> asc cs -> proper cs ->
  (s_8 w = true -> s_64 w = true) -> (s_8 w = false -> maxcase cs - mincase cs < 2 ^ 29) ->
  forall v l, In (v, l) cs -> place w byte (mincase cs) v = v - mincase cs.
Proof.
  intros w byte cs NE A P W SP v l I.
  destruct (ends_in cs NE A P) as (I1 & I2 & H). specialize (H v l I).
  assert (IV : int32 v).
  { pose proof (int32_of cs P) as F. rewrite Forall_forall in F. apply (F _ I). }
  unfold place. unfold int32 in *. change (2 ^ 31) with 2147483648 in *.
  change (2 ^ 29) with 536870912 in SP.
  destruct (s_8 w).
  - rewrite W by reflexivity. cbn [negb orb].
    rewrite (swrap_small 32 v) by (try lia; change (2 ^ (32 - 1)) with 2147483648; lia).
    destruct byte; apply swrap_small; try lia; change (2 ^ (64 - 1)) with 9223372036854775808; lia.
  - specialize (SP eq_refl). rewrite orb_true_r.
    apply swrap_small; [lia|]. change (2 ^ (32 - 1)) with 2147483648. lia.
Qed.

Lemma asc_dense : forall cs, asc cs -> cs <> [] ->
  zlen cs <= maxcase cs - mincase cs + 1 /\
  (maxcase cs - mincase cs + 1 = zlen cs ->
   forall i c, nth_error cs i = Some c -> fst c - mincase cs = Z.of_nat i).
Proof.
  intros cs A. induction A as [|c l F A IH]; intros NE; [congruence|]. destruct l as [|d r].
  - cbn. unfold maxcase. cbn. change (zlen [c]) with 1. split; [lia|].
    intros _ [|i] x H; [injection H as <-; lia|destruct i; discriminate].
  - destruct (IH ltac:(discriminate)) as [H1 H2].
    assert (MX : maxcase (c :: d :: r) = maxcase (d :: r)) by reflexivity.
    cbn [mincase] in *. rewrite MX, zlen_cons. apply Forall_cons_iff in F as [F _].
    split; [lia|]. intros E [|i] x X; [injection X as <-; lia|].
    assert (ED : maxcase (d :: r) - fst d + 1 = zlen (d :: r)) by lia.
    specialize (H2 ED i x X). lia.
Qed.

(** The dispatch. *)
Theorem dispatch : forall w cases, okay w cases ->
  fits (s_64 w) (s_8 w) (s_size w) cases ->
  exists o, gen w cases = Ok o /\
  forall e x s, e_o e = o -> e_w e = (if s_64 w then 64 else 32) -> placed e ->
    (kept (way_of (s_8 w) (s_size w) cases) = false -> 0 <= m_reg s RA < 2 ^ bits (s_8 w)) ->
    arrives e x (kept (way_of (s_8 w) (s_size w) cases)) s
            (pick (s_def w) cases (swrap (bits (s_8 w)) (m_reg s RA))).
Proof.
  intros w cases OK FT.
  pose proof (ok_some _ _ OK) as SM.
  assert (NC : cases <> []) by (intros ->; change (zlen (@nil (Z * Z))) with 0 in SM; lia).
  assert (G : forall (T : Type) (a b : T), match cases with [] => a | _ :: _ => b end = b)
    by (intros; destruct cases; [congruence|reflexivity]).
  unfold gen. rewrite G. clear G.
  destruct (Z.leb_spec (zlen cases) 3) as [SH|LG].
  - (* at most three *)
    unfold choose. destruct (Z.leb_spec (zlen cases) 3); [|lia].
    destruct (Z.leb_spec (zlen cases) 3); [|lia].
    destruct (chain_ok w cases (int32_of _ (ok_proper _ _ OK))) as (c & HC & CO).
    rewrite HC. cbn [bindr]. eexists. split; [reflexivity|].
    intros e x s EO EW PL RR. apply ends_arrives.
    destruct (CO e x [] s) as (f & l & s' & H1 & -> & H2 & H3); [rewrite EO; reflexivity|].
    exists f, (pick (s_def w) cases (swrap (bits (s_8 w)) (m_reg s RA))), s'.
    split; [exact H1|]. split; [reflexivity|]. split; [exact H2|]. intros r _. rewrite H3. reflexivity.
  - set (cs := xsort (length cases) cases).
    assert (P : Permutation cases cs) by apply xsort_perm.
    assert (A : asc cs) by (apply xsort_asc; [lia|apply (ok_proper _ _ OK)]).
    assert (NE : cs <> []).
    { intros E. apply zlen_perm in P. rewrite E in P. change (zlen (@nil (Z * Z))) with 0 in P. lia. }
    assert (PR : proper cs) by (apply (proper_perm _ _ P), (ok_proper _ _ OK)).
    assert (ZL : zlen cs = zlen cases) by (apply zlen_perm; exact P).
    rewrite (choose_method w cases cs OK P A). clearbody cs.
    destruct (ends_in cs NE A PR) as (I1 & I2 & BD).
    destruct (asc_bounds cs A NE) as [B1 B2].
    assert (SE : span cases = maxcase cs - mincase cs).
    { unfold span. rewrite B1, B2, (least_perm _ _ P), (greatest_perm _ _ P). reflexivity. }
    assert (PK : forall v, pick (s_def w) cases v = pick (s_def w) cs v).
    { intro v. apply pick_perm; [exact P|]. apply (ok_proper _ _ OK). }
    assert (SP32 : maxcase cs - mincase cs < 2 ^ 32).
    { unfold int32 in I1, I2. change (2 ^ 32) with 4294967296. change (2 ^ 31) with 2147483648 in I1, I2. lia. }
    assert (PLC : forall byte v l, In (v, l) cs -> place w byte (mincase cs) v = v - mincase cs).
    { intro byte. apply place_ok; [exact NE|exact A|exact PR|apply (ok_8 _ _ OK)|].
      intro E8. rewrite <- SE. apply (ok_span _ _ OK). exact E8. }
    assert (LB : forall v l, In (v, l) cs -> 0 <= v - mincase cs) by (intros v l I; specialize (BD v l I); lia).
    assert (UP : forall v, v <= maxcase cs -> exists c, In c cs /\ v <= fst c).
    { intros v LE. destruct (greatest_spec cs NE) as [G1 _]. apply in_map_iff in G1 as (c & G1 & G2).
      exists c. split; [exact G2|]. rewrite G1, <- B2. exact LE. }
    unfold fits in FT. unfold method. unfold kept.
    assert (WY : forall n, way_of (s_8 w) (s_size w) cases = n ->
        match n with
        | Chain => False
        | Counted => zlen cases < 255 /\ span cases < 256 \/ zlen cases < 65535 /\ 256 <= span cases
        | _ => True end).
    { intros n <-. unfold way_of. destruct (Z.leb_spec (zlen cases) 3); [lia|].
      destruct (s_8 w).
      - destruct (Z.leb_spec (span cases * 8) (zlen cases * 10)); [exact Logic.I|].
        destruct (Z.ltb_spec (span cases) 256); [left; lia|]. cbn [orb].
        destruct (Z.ltb_spec (span cases) (s_size w)) as [Q|]; [right|exact Logic.I].
        pose proof (ok_size _ _ OK). lia.
      - destruct (Z.leb_spec (span cases * 4) (zlen cases * 6)); [exact Logic.I|].
        destruct (Z.ltb_spec (span cases) 256); [left; lia|]. cbn [orb].
        destruct (Z.ltb_spec (span cases) (s_size w)) as [Q|]; [right|exact Logic.I].
        pose proof (ok_size _ _ OK). lia. }
    specialize (WY _ eq_refl).
    destruct (way_of (s_8 w) (s_size w) cases); [destruct WY|..].
    + (* a table of labels *)
      cbn [Z.leb Z.eqb Z.compare Pos.compare Pos.compare_cont Pos.eqb].
      destruct (range_ok w (mincase cs) (maxcase cs) I1 I2) as (rg & HR & LR & RO).
      rewrite HR. cbn [bindr].
      assert (TB : labels_of (jump_table w cs) = Ok (jlabs (s_def w) (mincase cs) cs 0 ++ [s_def w])).
      { apply jump_table_ok; [apply PLC|exact A|exact NE|].
        rewrite (total_eq (s_64 w) (mincase cs) cs 0 A) by (try exact NE; exact LB).
        unfold gaps in FT. rewrite SE in FT.
        destruct (asc_dense cs A NE) as [D1 D2].
        destruct FT as [FT|FT]; [right; apply D2; lia|left].
        destruct (s_64 w); cbn [cost]; lia. }
      rewrite TB. cbn [bindr].
      assert (C6 : exists c, code6 w (mincase cs) = Ok c).
      { unfold code6, sub_min. rewrite (imm64_ok _ I1).
        destruct (_ =? _), (s_8 w), (s_64 w); cbn [bindr]; eauto. }
      destruct C6 as (c & C6). rewrite C6. cbn [bindr]. eexists. split; [reflexivity|].
      intros e x s EO EW PL RR. specialize (RR eq_refl). apply ends_arrives.
      apply (RO e x c s); [rewrite EO; reflexivity| |].
      * intros s' M K V. rewrite PK. split; [|split; [exact K|intros r _; rewrite M; reflexivity]].
        symmetry. apply pick_out. intro Q. apply in_map_iff in Q as ([y l] & Q1 & Q2). cbn in Q1. subst y.
        specialize (BD _ _ Q2). lia.
      * intros s' M K V. rewrite PK.
        destruct (code6_ok w e x s cs EW (ok_8 _ _ OK) PL RR SP32 rg LR I1) as (c' & C' & CO).
        rewrite C6 in C'. assert (c' = c) by congruence. subst c'.
        apply CO; [rewrite EO; reflexivity| |exact M|exact K|exact V].
        intros _. rewrite EO. cbn [o_t1].
        pose proof (jlabs_nth (s_def w) (mincase cs) cs 0 A ltac:(intros a b I; specialize (LB a b I); lia)
           (swrap (bits (s_8 w)) (m_reg s RA)) ltac:(lia) (UP (swrap (bits (s_8 w)) (m_reg s RA)) ltac:(lia))) as J.
        rewrite Z.sub_0_r in J. rewrite nth_error_app1; [exact J|].
        apply nth_error_Some. rewrite J. discriminate.
    + (* a table of counts *)
      destruct FT as [F75 FR].
      assert (LP : Forall (fun l => 0 < l) (map snd cs)).
      { apply Forall_forall. intros l L. apply in_map_iff in L as (c & <- & C).
        destruct PR as [_ PR]. rewrite Forall_forall in PR. specialize (PR _ C). lia. }
      assert (MN : map snd cs <> []) by (destruct cs; [congruence|discriminate]).
      assert (ML : zlen (map snd cs) = zlen cs) by (unfold zlen; rewrite map_length; reflexivity).
      destruct (lab_table_ok (s_def w) (map snd cs) MN LP) as (t & LT & LO).
      { apply FR; [exact P|apply asc_ascending; exact A]. }
      { rewrite ML, ZL. exact F75. }
      set (byte := span cases <? 256).
      assert (MB : (if byte then 4 else 7) <=? 3 = false /\ ((if byte then 4 else 7) =? 5) = false /\
                   ((if byte then 4 else 7) =? 6) = false /\ ((if byte then 4 else 7) =? 4) = byte)
        by (destruct byte; auto).
      destruct MB as (-> & -> & -> & ->).
      destruct (range_ok w (mincase cs) (maxcase cs) I1 I2) as (rg & HR & LR & RO).
      rewrite HR. cbn [bindr]. rewrite LT, LO. cbn [bindr].
      destruct (num_table_ok w byte cs (PLC byte) A NE (ok_radix _ _ OK)) as (ex & NT).
      { rewrite ZL. unfold byte. destruct (Z.ltb_spec (span cases) 256); lia. }
      rewrite NT. cbn [bindr].
      set (acnt := zlen (runs 0 (map snd cs))) in *.
      assert (CT : forall v, mincase cs <= v <= maxcase cs ->
        exists i, nth_error (nums (mincase cs) cs 0 acnt 0 ++ ex) (Z.to_nat (v - mincase cs)) = Some (Z.of_nat i) /\
          nth_error (runs 0 (map snd cs) ++ [s_def w]) i = Some (pick (s_def w) cs v)).
      { intros v V.
        destruct (nums_nth (mincase cs) cs 0 acnt 0 A ltac:(intros a b I; specialize (LB a b I); lia)) as [N1 N2].
        destruct (in_dec Z.eq_dec v (map fst cs)) as [IN|OUT].
        - apply in_map_iff in IN as ([y l] & Q1 & Q2). cbn in Q1. subst y.
          destruct (N1 v l Q2) as (i & J1 & J2). rewrite Z.sub_0_r in J1. exists i. split.
          + rewrite nth_error_app1; [exact J1|]. apply nth_error_Some. rewrite J1. discriminate.
          + rewrite (pick_in _ _ _ l) by (try exact Q2; apply asc_nodup; exact A).
            assert (RE : runs 0 (map snd cs) = match cs with (_, m) :: r => m :: runs m (map snd r) | [] => [] end).
            { destruct cs as [|[y m] r]; [reflexivity|]. cbn [map snd runs].
              apply Forall_cons_iff in LP as [LP _]. cbn in LP.
              destruct (Z.eqb_spec m 0); [lia|reflexivity]. }
            rewrite RE. rewrite nth_error_app1; [exact J2|]. apply nth_error_Some. rewrite J2. discriminate.
        - pose proof (N2 v ltac:(lia) (UP v ltac:(lia)) OUT) as J. rewrite Z.sub_0_r in J.
          exists (length (runs 0 (map snd cs))). split.
          + rewrite nth_error_app1; [exact J|]. apply nth_error_Some. rewrite J. discriminate.
          + rewrite nth_error_app2, Nat.sub_diag by lia. cbn. rewrite pick_out by exact OUT. reflexivity. }
      assert (CC : exists c, (if byte then code4 w (mincase cs) else code7 w (mincase cs)) = Ok c).
      { unfold code4, code7, sub_min. rewrite (imm64_ok _ I1).
        destruct byte, (mincase cs =? 0), (s_8 w), (s_64 w); cbn [bindr]; eauto. }
      destruct CC as (c & CC). rewrite CC. cbn [bindr]. eexists. split; [reflexivity|].
      intros e x s EO EW PL RR. specialize (RR eq_refl). apply ends_arrives.
      apply (RO e x c s); [rewrite EO; reflexivity| |].
      * intros s' M K V. rewrite PK. split; [|split; [exact K|intros r _; rewrite M; reflexivity]].
        symmetry. apply pick_out. intro Q. apply in_map_iff in Q as ([y l] & Q1 & Q2). cbn in Q1. subst y.
        specialize (BD _ _ Q2). lia.
      * intros s' M K V. rewrite PK.
        assert (CO : counted w s cs (o_t2 (e_o e)) (o_t1 (e_o e))).
        { unfold counted. rewrite EO. cbn [o_t1 o_t2]. apply CT. exact V. }
        clearbody byte. destruct byte.
        -- destruct (code4_ok w e x s cs EW (ok_8 _ _ OK) PL RR rg LR I1) as (c' & C' & CO').
           rewrite CC in C'. assert (c' = c) by congruence. subst c'.
           apply CO'; [rewrite EO; reflexivity|rewrite EO; reflexivity|intros _; exact CO|exact M|exact K|exact V].
        -- destruct (code7_ok w e x s cs EW (ok_8 _ _ OK) PL RR SP32 rg LR I1) as (c' & C' & CO').
           rewrite CC in C'. assert (c' = c) by congruence. subst c'.
           apply CO'; [rewrite EO; reflexivity|rewrite EO; reflexivity|intros _; exact CO|exact M|exact K|exact V].
    + (* a search *)
      cbn [Z.leb Z.eqb Z.compare Pos.compare Pos.compare_cont Pos.eqb].
      assert (R1 : labels_of (row_table 15 (map (fun c => TL (snd c)) cs)) = Ok (map snd cs)).
      { unfold labels_of. rewrite row_table_ok; [|lia| |].
        - cbn [bindr]. replace (map (fun c : Z * Z => TL (snd c)) cs) with (map TL (map snd cs))
            by (rewrite map_map; reflexivity). apply as_labels_map.
        - apply Forall_forall. intros t T. apply in_map_iff in T as (c & <- & _). discriminate.
        - destruct cs; [congruence|discriminate]. }
      rewrite R1. cbn [bindr].
      set (es := if s_64 w && s_8 w then 8 else 4).
      assert (EB : 8 * es = bits (s_8 w)).
      { unfold es. destruct (s_8 w) eqn:E; [rewrite (ok_8 _ _ OK E); reflexivity|rewrite andb_false_r; reflexivity]. }
      assert (SW : forall c, In c cs -> shown w (fst c) = fst c).
      { intros c C. pose proof (int32_of cs PR) as F. rewrite Forall_forall in F. specialize (F _ C).
        unfold shown. destruct (_ && _); [|reflexivity]. apply (swrap_int32 false). exact F. }
      assert (R2 : numbers_of w es (row_table 30 (map (fun c => TN (shown w (fst c))) cs)) =
                   Ok (map (fun c => fst c mod 2 ^ bits (s_8 w)) cs)).
      { unfold numbers_of. rewrite (ok_radix _ _ OK). rewrite row_table_ok; [|lia| |].
        - cbn [bindr].
          replace (map (fun c : Z * Z => TN (shown w (fst c))) cs) with (map TN (map fst cs)).
          2:{ rewrite map_map. apply map_ext_in. intros c C. rewrite SW by exact C. reflexivity. }
          rewrite as_numbers_ok.
          + rewrite EB, map_map. reflexivity.
          + unfold es. destruct (_ && _); lia.
          + apply Forall_forall. intros z Q. apply in_map_iff in Q as (c & <- & C).
            pose proof (int32_of cs PR) as F. rewrite Forall_forall in F. specialize (F _ C).
            unfold int32 in F. change (2 ^ 31) with 2147483648 in F. change (2 ^ 32) with 4294967296.
            rewrite EB. destruct (s_8 w); cbn [bits].
            * change (2 ^ (64 - 1)) with 9223372036854775808. change (2 ^ 64) with 18446744073709551616. lia.
            * change (2 ^ (32 - 1)) with 2147483648. change (2 ^ 32) with 4294967296. lia.
        - apply Forall_forall. intros t T. apply in_map_iff in T as (c & <- & _). discriminate.
        - destruct cs; [congruence|discriminate]. }
      rewrite R2. cbn [bindr]. eexists. split; [reflexivity|].
      intros e x s EO EW PL RR. apply ends_arrives. rewrite PK.
      apply (search_ok w e x s cs EW (ok_8 _ _ OK) PL); try (rewrite EO; reflexivity).
      * lia.
      * exact A.
      * apply int32_of. exact PR.
      * rewrite EO. exact EB.
      * rewrite EO, ZL. reflexivity.
Qed.
