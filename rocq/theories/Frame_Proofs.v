(** Proofs about stack frames: the layout. *)
From Coq Require Import List ZArith Bool Lia.
From Verif Require Import Base Unwind_Model Unwind_Spec Frame_Model Frame_Spec.
Import ListNotations.
Open Scope Z_scope.

Local Arguments Z.modulo : simpl never.
Local Arguments Z.div : simpl never.
Local Arguments Z.pow : simpl never.
Local Arguments Z.mul : simpl never.
Local Arguments Z.add : simpl never.
Local Arguments Z.sub : simpl never.

Lemma land_lnot x k : 0 <= k -> Z.land x (Z.lnot (2 ^ k - 1)) = x - x mod 2 ^ k.
Proof.
  intros Hk. replace (2 ^ k - 1) with (Z.ones k) by (rewrite Z.ones_equiv; lia). rewrite <- Z.ldiff_land, Z.ldiff_ones_r, Z.shiftl_mul_pow2, Z.shiftr_div_pow2 by lia.
  assert (0 < 2 ^ k) by (apply Z.pow_pos_nonneg; lia). pose proof (Z.div_mod x (2 ^ k)). lia.
Qed.
Lemma up16 i : ROUND_UP i 16 mod 16 = 0 /\ i <= ROUND_UP i 16 < i + 16.
Proof. unfold ROUND_UP. change (16 - 1) with (2 ^ 4 - 1). rewrite (land_lnot _ 4) by lia. change (2 ^ 4) with 16. lia. Qed.
Lemma up8 i : ROUND_UP i 8 mod 8 = 0 /\ i <= ROUND_UP i 8 < i + 8.
Proof. unfold ROUND_UP. change (8 - 1) with (2 ^ 3 - 1). rewrite (land_lnot _ 3) by lia. change (2 ^ 3) with 8. lia. Qed.
Lemma up4 i : ROUND_UP i 4 mod 4 = 0 /\ i <= ROUND_UP i 4 < i + 4.
Proof. unfold ROUND_UP. change (4 - 1) with (2 ^ 2 - 1). rewrite (land_lnot _ 2) by lia. change (2 ^ 2) with 4. lia. Qed.
Lemma first_loc_eq l c : l mod 16 = 0 -> first_loc l c = l - c * 16.
Proof. intros H. unfold first_loc. change (16 - 1) with (2 ^ 4 - 1). rewrite (land_lnot _ 4) by lia. change (2 ^ 4) with 16. lia. Qed.

Lemma totalsize_ok n : 0 <= n -> n <= totalsize n /\ totalsize n mod natural n = 0.
Proof.
  intros H. unfold totalsize, natural. pose proof (up16 n). pose proof (up8 n). pose proof (up4 n).
  destruct (Z.geb_spec n 16); [lia|]. destruct (Z.geb_spec n 8); destruct (Z.ltb_spec n 16); cbn [andb]; try lia.
  destruct (Z.geb_spec n 4); destruct (Z.ltb_spec n 8); cbn [andb]; try lia.
Qed.

Definition total (l : list Z) : Z := fold_right (fun n s => totalsize n + s) 0 l.
Lemma fold_total l : forall s, fold_left (fun s n => s + totalsize n) l s = s + total l.
Proof. induction l as [|n l IH]; intros s; cbn [fold_left total fold_right]; [lia|]. rewrite IH. unfold total. lia. Qed.
Lemma cntxmm_cons u l : cntxmm (u :: l) = units u + cntxmm l.
Proof.
  unfold cntxmm. cbn [fold_left]. assert (G : forall l s, fold_left (fun n u => n + units u) l s = s + fold_left (fun n u => n + units u) l 0).
  { clear. induction l as [|u l IH]; intros s; cbn [fold_left]; [lia|]. rewrite IH, (IH (0 + units u)). lia. }
  rewrite G. lia.
Qed.
Lemma cntstd_cons u l : cntstd (u :: l) = match u with UG _ => 1 | _ => 0 end + cntstd l.
Proof.
  unfold cntstd. cbn [fold_left]. set (f := fun n u => match u with UG _ => n + 1 | _ => n end).
  assert (G : forall l s, fold_left f l s = s + fold_left f l 0).
  { clear. induction l as [|u l IH]; intros s; cbn [fold_left]; [lia|]. rewrite IH, (IH (f 0 u)). unfold f. destruct u; lia. }
  rewrite G. unfold f. destruct u; lia.
Qed.
Lemma cntxmm_nonneg l : 0 <= cntxmm l.
Proof. induction l as [|u l IH]; [cbn; lia|]. rewrite cntxmm_cons. destruct u; cbn [units]; lia. Qed.
Lemma cntstd_nonneg l : 0 <= cntstd l.
Proof. induction l as [|u l IH]; [cbn; lia|]. rewrite cntstd_cons. destruct u; lia. Qed.

(** * The loops over the locals *)
Definition apart (x y : Z * Z) : Prop := snd x + fst x <= snd y \/ snd y + fst y <= snd x.
Fixpoint chosen (sel : Z -> bool) (l : list (Z * Z)) : Z :=
  match l with [] => 0 | (n, _) :: r => (if sel n then totalsize n else 0) + chosen sel r end.
Lemma place_sum sel l : forall cur, fst (place sel cur l) = cur - chosen sel l /\ map fst (snd (place sel cur l)) = map fst l.
Proof.
  induction l as [|[n o] l IH]; intros cur; cbn [place chosen]; [split; [cbn; lia|reflexivity]|].
  destruct (sel n).
  - destruct (IH (cur - totalsize n)) as [H1 H2]. destruct (place sel (cur - totalsize n) l) as [c r]. cbn in *. rewrite H2. split; [lia|reflexivity].
  - destruct (IH cur) as [H1 H2]. destruct (place sel cur l) as [c r]. cbn in *. rewrite H2. split; [lia|reflexivity].
Qed.
Lemma chosen_nonneg sel l : Forall (fun x => 0 <= fst x) l -> 0 <= chosen sel l.
Proof.
  induction l as [|[n o] l IH]; intros H; cbn [chosen]; [lia|]. apply Forall_cons_iff in H as [Hn H]. cbn in Hn. specialize (IH H).
  pose proof (totalsize_ok n Hn). destruct (sel n); lia.
Qed.
Definition moved (sel : Z -> bool) (lo hi k : Z) (x x' : Z * Z) : Prop :=
  fst x' = fst x /\ (sel (fst x) = false -> x' = x) /\ (sel (fst x) = true -> lo <= snd x' /\ snd x' + fst x <= hi /\ snd x' mod k = 0).
Lemma place_moved sel k l : 0 < k -> forall cur, Forall (fun x => 0 <= fst x) l -> cur mod k = 0 -> (forall n, sel n = true -> 0 <= n -> totalsize n mod k = 0) ->
  Forall2 (moved sel (cur - chosen sel l) cur k) l (snd (place sel cur l)) /\
  ForallOrdPairs (fun x y => sel (fst x) = true -> sel (fst y) = true -> apart x y) (snd (place sel cur l)).
Proof.
  intros Hk0. induction l as [|[n o] l IH]; intros cur H Hc Hk; cbn [place chosen]; [split; constructor|]. apply Forall_cons_iff in H as [Hn H]. cbn [fst] in Hn.
  pose proof (totalsize_ok n Hn) as [Ht _]. pose proof (chosen_nonneg sel l H) as Hp. destruct (sel n) eqn:E.
  - assert (Hm : (cur - totalsize n) mod k = 0) by (rewrite Zminus_mod, Hc, (Hk n E Hn), Z.sub_0_r; apply Z.mod_0_l; lia).
    destruct (IH (cur - totalsize n) H Hm Hk) as [I1 I2]. destruct (place sel (cur - totalsize n) l) as [c r]. cbn [snd] in *. split.
    + constructor.
      * split; [reflexivity|]. cbn. split; [congruence|]. intros _. split; [lia|]. split; [lia|exact Hm].
      * replace (cur - (totalsize n + chosen sel l)) with (cur - totalsize n - chosen sel l) by lia. set (lo := cur - totalsize n - chosen sel l) in *. clearbody lo.
        clear - I1 Hn Ht. induction I1 as [|x x' a b (M1 & M2 & M3) I1 IH]; constructor; [|exact IH]. split; [exact M1|]. split; [exact M2|]. intros S1. specialize (M3 S1). intuition lia.
    + constructor; [|exact I2]. set (lo := cur - totalsize n - chosen sel l) in *. clearbody lo. clear - I1 Hn Ht.
      induction I1 as [|x x' a b (M1 & M2 & M3) I1 IH]; constructor; [|exact IH]. intros _ S1. rewrite M1 in S1. specialize (M3 S1). unfold apart. cbn. rewrite M1. lia.
  - destruct (IH cur H Hc Hk) as [I1 I2]. destruct (place sel cur l) as [c r]. cbn [snd] in *. split.
    + constructor; [|replace (cur - (0 + chosen sel l)) with (cur - chosen sel l) by lia; exact I1]. split; [reflexivity|]. split; [reflexivity|]. cbn. congruence.
    + constructor; [|exact I2]. apply Forall_forall. cbn. congruence.
Qed.
(** [good done lo hi l]: the locals of the classes done have their places *)
Definition good (done : Z -> bool) (lo hi : Z) (l : list (Z * Z)) : Prop :=
  Forall (fun x => 0 <= fst x) l /\ lo <= hi /\
  Forall (fun x => done (fst x) = true -> lo <= snd x /\ snd x + fst x <= hi /\ snd x mod natural (fst x) = 0) l /\
  ForallOrdPairs (fun x y => done (fst x) = true -> done (fst y) = true -> apart x y) l.
Lemma place_good done sel k l hi cur : good done cur hi l -> 0 < k -> cur mod k = 0 ->
  (forall n, sel n = true -> done n = false /\ (0 <= n -> totalsize n mod k = 0 /\ natural n = k)) ->
  let (c, r) := place sel cur l in c = cur - chosen sel l /\ map fst r = map fst l /\ good (fun n => done n || sel n) c hi r.
Proof.
  intros (H0 & Hle & H1 & H2) Hk0 Hc Hs. destruct (place_sum sel l cur) as [E1 E2].
  destruct (place_moved sel k l Hk0 cur H0 Hc (fun n A B => proj1 (proj2 (Hs n A) B))) as [M N]. pose proof (chosen_nonneg sel l H0) as Hp.
  destruct (place sel cur l) as [c r]. cbn [fst snd] in *. subst c. split; [reflexivity|]. split; [exact E2|].
  set (lo := cur - chosen sel l) in *. assert (Hlo : lo <= cur) by lia. clearbody lo. clear E2 Hp.
  split; [|split; [lia|]].
  { clear - M H0. induction M as [|x x' a b (M1 & M2 & M3) M IH]; constructor; apply Forall_cons_iff in H0 as [A B]; [lia|auto]. }
  induction M as [|x x' a b (M1 & M2 & M3) M IH]; [split; constructor|].
  apply Forall_cons_iff in H0 as [A0 H0]. apply Forall_cons_iff in H1 as [A1 H1].
  assert (HP : Forall (fun y => done (fst x) = true -> done (fst y) = true -> apart x y) a /\ ForallOrdPairs (fun x y => done (fst x) = true -> done (fst y) = true -> apart x y) a)
    by (inversion H2; subst; auto). destruct HP as [HA HP].
  assert (HQ : Forall (fun y => sel (fst x') = true -> sel (fst y) = true -> apart x' y) b /\ ForallOrdPairs (fun x y => sel (fst x) = true -> sel (fst y) = true -> apart x y) b)
    by (inversion N; subst; auto). destruct HQ as [HB HQ].
  destruct (IH H0 H1 HP HQ) as [I1 I2]. split; constructor; auto.
  - rewrite M1. intros D. destruct (sel (fst x)) eqn:E.
    + destruct (M3 eq_refl) as (K1 & K2 & K3). destruct (Hs _ E) as [_ K]. destruct (K A0) as [_ ->]. split; [lia|]. split; [lia|exact K3].
    + rewrite orb_false_r in D. rewrite M2 by reflexivity. specialize (A1 D). intuition lia.
  - clear IH H2 N I1 I2 HP HQ. induction M as [|y y' a b (N1 & N2 & N3) M IH]; constructor.
    + rewrite M1, N1. apply Forall_cons_iff in HA as [HA _]. apply Forall_cons_iff in HB as [HB _]. apply Forall_cons_iff in H1 as [B1 _].
      intros D1 D2. destruct (sel (fst x)) eqn:E1; destruct (sel (fst y)) eqn:E2.
      * apply HB; congruence.
      * rewrite orb_false_r in D2. rewrite N2 by reflexivity. specialize (B1 D2). destruct (M3 eq_refl). unfold apart. rewrite M1. lia.
      * rewrite orb_false_r in D1. rewrite M2 by reflexivity. specialize (A1 D1). destruct (N3 eq_refl). unfold apart. rewrite N1. lia.
      * rewrite orb_false_r in D1, D2. rewrite M2, N2 by reflexivity. auto.
    + apply Forall_cons_iff in HA as [_ HA]. apply Forall_cons_iff in HB as [_ HB]. apply Forall_cons_iff in H0 as [_ H0]. apply Forall_cons_iff in H1 as [_ H1]. auto.
Qed.
Lemma chosen_fst sel l : forall l', map fst l' = map fst l -> chosen sel l' = chosen sel l.
Proof.
  induction l as [|[n o] l IH]; intros [|[n' o'] l'] H; cbn in *; try discriminate; [reflexivity|]. injection H as -> H. rewrite (IH l' H). reflexivity.
Qed.
Lemma chosen_all l : chosen (fun n => n >=? 16) l + chosen (fun n => (n >=? 8) && (n <? 16)) l + chosen (fun n => (n >=? 4) && (n <? 8)) l + chosen (fun n => n <? 4) l = total (map fst l).
Proof.
  induction l as [|[n o] l IH]; [reflexivity|]. cbn [chosen map fst total fold_right]. fold (total (map fst l)).
  destruct (Z.geb_spec n 16); destruct (Z.geb_spec n 8); destruct (Z.ltb_spec n 16); destruct (Z.geb_spec n 4); destruct (Z.ltb_spec n 8); destruct (Z.ltb_spec n 4); cbn [andb]; lia.
Qed.
Lemma good_ext d d' lo hi l : (forall n, d n = d' n) -> good d lo hi l -> good d' lo hi l.
Proof.
  intros E (H0 & H1 & H2 & H3). split; [exact H0|]. split; [exact H1|]. split.
  - eapply Forall_impl; [|exact H2]. intros x G D. apply G. rewrite E. exact D.
  - clear - E H3. induction H3 as [|x l Hx H3 IH]; constructor; [|exact IH]. eapply Forall_impl; [|exact Hx]. intros y G D1 D2. apply G; rewrite E; assumption.
Qed.
Lemma good_nil lo hi l : Forall (fun x => 0 <= fst x) l -> lo <= hi -> good (fun _ => false) lo hi l.
Proof.
  intros H1 H2. split; [exact H1|]. split; [exact H2|]. split.
  - apply Forall_forall. discriminate.
  - clear. induction l; constructor; [|assumption]. apply Forall_forall. discriminate.
Qed.

Definition fours (cur : Z) (l : list (Z * Z)) : Z * list (Z * Z) :=
  let (cur, l) := place (fun n => n >=? 16) cur l in
  let (cur, l) := place (fun n => (n >=? 8) && (n <? 16)) cur l in
  let (cur, l) := place (fun n => (n >=? 4) && (n <? 8)) cur l in
  place (fun n => n <? 4) cur l.
Lemma mod_sub_chosen sel k l cur : 0 < k -> cur mod k = 0 -> Forall (fun x => 0 <= fst x) l -> (forall n, sel n = true -> 0 <= n -> totalsize n mod k = 0) -> (cur - chosen sel l) mod k = 0.
Proof.
  intros Hk Hc H Hs. rewrite Zminus_mod, Hc. replace (chosen sel l mod k) with 0; [apply Z.mod_0_l; lia|].
  induction l as [|[n o] l IH]; cbn [chosen]; [symmetry; apply Z.mod_0_l; lia|]. apply Forall_cons_iff in H as [Hn H]. specialize (IH H). rewrite Zplus_mod, <- IH.
  destruct (sel n) eqn:E; [rewrite (Hs n E Hn)|rewrite (Z.mod_0_l k) by lia]; symmetry; apply (Z.mod_0_l k); lia.
Qed.
Lemma fours_good cur l : Forall (fun x => 0 <= fst x) l -> cur mod 16 = 0 ->
  fst (fours cur l) = cur - total (map fst l) /\ map fst (snd (fours cur l)) = map fst l /\ good (fun _ => true) (cur - total (map fst l)) cur (snd (fours cur l)).
Proof.
  intros H Hc. unfold fours. rewrite <- (chosen_all l).
  set (c1 := chosen (fun n => n >=? 16) l). set (c2 := chosen (fun n => (n >=? 8) && (n <? 16)) l). set (c3 := chosen (fun n => (n >=? 4) && (n <? 8)) l). set (c4 := chosen (fun n => n <? 4) l).
  assert (S16 : forall n, (n >=? 16) = true -> 0 <= n -> totalsize n mod 16 = 0 /\ natural n = 16).
  { intros n E Hn. pose proof (totalsize_ok n Hn). unfold natural in *. rewrite E in *. intuition. }
  assert (S8 : forall n, (n >=? 8) && (n <? 16) = true -> 0 <= n -> totalsize n mod 8 = 0 /\ natural n = 8).
  { intros n E Hn. pose proof (totalsize_ok n Hn). apply andb_true_iff in E as [E1 E2]. unfold natural in *. rewrite E1 in *. destruct (Z.geb_spec n 16); [lia|]. intuition. }
  assert (S4 : forall n, (n >=? 4) && (n <? 8) = true -> 0 <= n -> totalsize n mod 4 = 0 /\ natural n = 4).
  { intros n E Hn. pose proof (totalsize_ok n Hn). apply andb_true_iff in E as [E1 E2]. unfold natural in *. rewrite E1 in *. destruct (Z.geb_spec n 16); [lia|]. destruct (Z.geb_spec n 8); [lia|]. intuition. }
  assert (S1 : forall n, (n <? 4) = true -> 0 <= n -> totalsize n mod 1 = 0 /\ natural n = 1).
  { intros n E Hn. split; [apply Z.mod_1_r|]. unfold natural. destruct (Z.geb_spec n 16); [lia|]. destruct (Z.geb_spec n 8); [lia|]. destruct (Z.geb_spec n 4); lia. }
  assert (M1 : (cur - c1) mod 8 = 0).
  { assert ((cur - c1) mod 16 = 0) by (apply mod_sub_chosen; [lia|exact Hc|exact H|intros n A B; apply (S16 n A B)]). lia. }
  assert (M2 : (cur - c1 - c2) mod 4 = 0).
  { assert ((cur - c1 - c2) mod 8 = 0) by (apply mod_sub_chosen; [lia|exact M1|exact H|intros n A B; apply (S8 n A B)]). lia. }
  pose proof (place_good (fun _ => false) (fun n => n >=? 16) 16 l cur cur (good_nil cur cur l H (Z.le_refl _)) ltac:(lia) Hc (fun n A => conj eq_refl (S16 n A))) as P1.
  destruct (place (fun n => n >=? 16) cur l) as [u1 l1]. destruct P1 as (-> & F1 & G1). fold c1 in G1 |- *.
  pose proof (fun A => place_good _ (fun n => (n >=? 8) && (n <? 16)) 8 l1 cur _ G1 ltac:(lia) M1 (fun n B => conj (A n B) (S8 n B))) as P2.
  specialize (P2 ltac:(intros n B; cbn beta in *; apply andb_true_iff in B as [B1 B2]; destruct (Z.geb_spec n 16); [lia|reflexivity])).
  destruct (place (fun n => (n >=? 8) && (n <? 16)) (cur - c1) l1) as [u2 l2]. destruct P2 as (-> & F2 & G2). rewrite F1 in F2. rewrite (chosen_fst _ l l1 F1) in G2 |- *. fold c2 in G2 |- *.
  pose proof (fun A => place_good _ (fun n => (n >=? 4) && (n <? 8)) 4 l2 cur _ G2 ltac:(lia) M2 (fun n B => conj (A n B) (S4 n B))) as P3.
  specialize (P3 ltac:(intros n B; cbn beta in *; apply andb_true_iff in B as [B1 B2]; destruct (Z.geb_spec n 16); [lia|]; destruct (Z.geb_spec n 8); [lia|reflexivity])).
  destruct (place (fun n => (n >=? 4) && (n <? 8)) (cur - c1 - c2) l2) as [u3 l3]. destruct P3 as (-> & F3 & G3). rewrite F2 in F3. rewrite (chosen_fst _ l l2 F2) in G3 |- *. fold c3 in G3 |- *.
  pose proof (fun A => place_good _ (fun n => n <? 4) 1 l3 cur _ G3 ltac:(lia) (Z.mod_1_r _) (fun n B => conj (A n B) (S1 n B))) as P4.
  specialize (P4 ltac:(intros n B; cbn beta in *; destruct (Z.geb_spec n 16); [lia|]; destruct (Z.geb_spec n 8); [lia|]; destruct (Z.geb_spec n 4); [lia|reflexivity])).
  destruct (place (fun n => n <? 4) (cur - c1 - c2 - c3) l3) as [u4 l4]. destruct P4 as (-> & F4 & G4). rewrite F3 in F4. rewrite (chosen_fst _ l l3 F3) in G4 |- *. fold c4 in G4 |- *. cbn [fst snd].
  split; [lia|]. split; [exact F4|]. replace (cur - (c1 + c2 + c3 + c4)) with (cur - c1 - c2 - c3 - c4) by lia. eapply good_ext; [|exact G4].
  intros n. cbn. destruct (Z.geb_spec n 16); destruct (Z.geb_spec n 8); destruct (Z.ltb_spec n 16); destruct (Z.geb_spec n 4); destruct (Z.ltb_spec n 8); destruct (Z.ltb_spec n 4); cbn; try reflexivity; lia.
Qed.

Lemma fpo_eq o p : o_auto o = true -> check_proc_fpo o false p = negb (needs_frame p).
Proof.
  intros E. unfold check_proc_fpo, needs_frame. rewrite E. destruct (handler p), (forceframe p), (locals p) as [|? ?], (params p) as [|? ?]; cbn; try reflexivity; unfold zlen; cbn [length];
  repeat match goal with |- context [?a >? 0] => destruct (Z.gtb_spec a 0) end; cbn; try reflexivity; lia.
Qed.
Definition resv (o : options) (sym : Z) : Z := if o_autosp o then sym else 0.
Lemma combine_split {A B} (l : list (A * B)) : combine (map fst l) (map snd l) = l.
Proof. induction l as [|[a b] l IH]; [reflexivity|]. cbn. rewrite IH. reflexivity. Qed.
Lemma layout_ok o p pushed sym : o_auto o = true -> Forall (fun n => 0 <= n) (locals p) -> sym mod 16 = 0 -> 0 <= sym ->
  let lay := SetLocalOffsets_RBP o false p pushed sym in
  localsize lay mod 16 = 0 /\ 16 * cntxmm (uses p) <= localsize lay /\ (locals p = [] -> localsize lay = 16 * cntxmm (uses p)) /\
  frameofs lay mod 16 = 0 /\ 0 <= frameofs lay <= 128 /\ frameofs lay <= localsize lay + resv o sym /\ (needs_frame p = false -> frameofs lay = 0) /\
  length (local_ofs lay) = length (locals p) /\
  good (fun _ => true) (resv o sym - frameofs lay) (localsize lay + resv o sym - 16 * cntxmm (uses p) - frameofs lay) (combine (locals p) (local_ofs lay)) /\
  param_ofs lay = map (fun k => 8 * cntstd (uses p) + (if needs_frame p then 16 else 8) + localsize lay + stackadj (negb (needs_frame p)) pushed (localsize lay) + resv o sym - frameofs lay + Z.of_nat k * 8) (seq 0 (length (params p))).
Proof.
  intros Ha Hl Hs Hs0. unfold SetLocalOffsets_RBP. rewrite (fpo_eq o p Ha). fold (resv o sym). rewrite fold_total. set (c := cntxmm (uses p)).
  assert (Hc : 0 <= c) by apply cntxmm_nonneg. clearbody c. destruct (up16 (16 * c + total (locals p))) as [L1 L2]. set (L := ROUND_UP (16 * c + total (locals p)) 16) in *.
  assert (HL : locals p = [] -> L = 16 * c) by (intros E; rewrite E in *; cbn in L2; unfold L in *; lia). clearbody L.
  assert (HR : resv o sym mod 16 = 0 /\ 0 <= resv o sym) by (unfold resv; destruct (o_autosp o); split; lia || reflexivity). destruct HR as [R1 R2]. set (R := resv o sym) in *. clearbody R.
  assert (Hn : Forall (fun x : Z * Z => 0 <= fst x) (map (fun n => (n, 0)) (locals p))) by (apply Forall_map; cbn; exact Hl).
  assert (Ht : 0 <= total (locals p)).
  { clear - Hl. induction Hl as [|n l Hn Hl IH]; cbn [total fold_right]; [lia|]. fold (total l). pose proof (totalsize_ok n Hn). lia. }
  set (f := if negb (needs_frame p) then 0 else _).
  assert (Hf : f mod 16 = 0 /\ 0 <= f <= 128 /\ f <= L + R /\ (needs_frame p = false -> f = 0)).
  { unfold f. destruct (needs_frame p); cbn [negb]; [|split; [reflexivity|]; split; [lia|]; split; [lia|reflexivity]].
    rewrite Z.shiftr_div_pow2 by lia. change (2 ^ 1) with 2. destruct (up16 (L / 2 + R)) as [U1 U2]. destruct (Z.gtb_spec (ROUND_UP (L / 2 + R) 16) 128).
    - split; [reflexivity|]. split; [lia|]. split; [lia|discriminate].
    - split; [exact U1|]. split; [lia|]. split; [lia|discriminate]. }
  destruct Hf as (F1 & F2 & F3 & F4). clearbody f.
  destruct (fours_good (L + R - 16 * c - f) (map (fun n => (n, 0)) (locals p)) Hn ltac:(lia)) as (E1 & E2 & G).
  rewrite map_map in E2. cbn [fst] in E2. rewrite map_id in E2. rewrite map_map in G. cbn [fst] in G. rewrite map_id in G.
  unfold fours in *. destruct (place (fun n => n >=? 16) _ _) as [u1 l1]. destruct (place (fun n => (n >=? 8) && (n <? 16)) _ _) as [u2 l2].
  destruct (place (fun n => (n >=? 4) && (n <? 8)) _ _) as [u3 l3]. destruct (place (fun n => n <? 4) _ _) as [u4 l4]. cbn [fst snd localsize frameofs local_ofs param_ofs] in *.
  split; [exact L1|]. split; [lia|]. split; [exact HL|]. split; [exact F1|]. split; [exact F2|]. split; [exact F3|]. split; [exact F4|].
  split; [rewrite <- E2, !map_length; reflexivity|]. rewrite <- E2, combine_split. split.
  - destruct G as (G0 & G1 & G2 & G3). split; [exact G0|]. split; [lia|]. split; [|exact G3]. eapply Forall_impl; [|exact G2]. intros x A D. specialize (A D). intuition lia.
  - destruct (needs_frame p); reflexivity.
Qed.
