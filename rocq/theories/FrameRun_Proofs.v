(** Proofs about stack frames: what prologue and epilogue do. *)
From Coq Require Import List ZArith Bool Lia.
From Verif Require Import Base Unwind_Model Unwind_Spec Frame_Model Frame_Spec Frame_Proofs.
Import ListNotations.
Open Scope Z_scope.

Local Arguments Z.modulo : simpl never.
Local Arguments Z.div : simpl never.
Local Arguments Z.pow : simpl never.
Local Arguments Z.mul : simpl never.
Local Arguments Z.add : simpl never.
Local Arguments Z.sub : simpl never.

Lemma run_app avx l1 : forall l2 m, run avx m (l1 ++ l2) = run avx (run avx m l1) l2.
Proof. intros l2 m. unfold run. apply fold_left_app. Qed.
Lemma upd_eq {A} (f : Z -> A) k x : upd f k x k = x.
Proof. unfold upd. rewrite Z.eqb_refl. reflexivity. Qed.
Lemma upd_ne {A} (f : Z -> A) k x y : y <> k -> upd f k x y = f y.
Proof. intros H. unfold upd. destruct (Z.eqb_spec y k); [contradiction|reflexivity]. Qed.

(** * Normal forms *)
Definition adj (p : proc) (L : Z) : Z := stackadj (negb (needs_frame p)) (cntstd (uses p)) L.
Definition frame8 (p : proc) : Z := if needs_frame p then 8 else 0.
Lemma adj_ok p L : L mod 16 = 0 -> 0 <= adj p L <= 8 /\ (8 + frame8 p + 8 * cntstd (uses p) + adj p L) mod 16 = 0.
Proof.
  intros H. unfold adj, stackadj, frame8. rewrite H. cbn [Z.eqb negb]. set (c := cntstd (uses p)). destruct (needs_frame p); cbn [negb andb]; destruct (Z.eqb_spec (c mod 2) 0); cbn [negb andb]; lia.
Qed.
Lemma cnt0_saves R l : cntxmm l = 0 -> forall i, save_lines R i l = Ok [].
Proof.
  induction l as [|u l IH]; intros H i; [reflexivity|]. rewrite cntxmm_cons in H. pose proof (cntxmm_nonneg l). destruct u; cbn [units] in H; try lia. cbn. apply IH. lia.
Qed.
Lemma cnt0_loads b a l : cntxmm l = 0 -> forall i, load_lines b a i l = [].
Proof.
  induction l as [|u l IH]; intros H i; [reflexivity|]. rewrite cntxmm_cons in H. pose proof (cntxmm_nonneg l). destruct u; cbn [units] in H; try lia. cbn. apply IH. lia.
Qed.
Definition home (o : options) (p : proc) : list line := if o_save o then SaveRegParams 4 0 (params p) else [].
Definition whole (o : options) (p : proc) (lay : layout) (sym : Z) : Z := localsize lay + adj p (localsize lay) + resv o sym.
Definition alloc (o : options) (T : Z) : list line := if T >? 0 then [LSub (o_lea o) T; LDir (DAllocStack T)] else [].
Lemma prologue_form o p lay sym pro : prologue_RBP o false p lay sym = Ok pro -> localsize lay mod 16 = 0 ->
  o_auto o = true /\ exists saves,
  save_lines (resv o sym) (localsize lay - 16 * cntxmm (uses p)) (uses p) = Ok saves /\
  pro = home o p ++ (if needs_frame p then [LHot; LPush 5; LDir (DPushReg 5)] else []) ++ push_lines (uses p) ++ alloc o (whole o p lay sym) ++ saves ++
    (if needs_frame p then [if negb (frameofs lay =? 0) then LLea 5 (frameofs lay) else LMov 5; LDir (DSetFrame 5 (frameofs lay))] else []) ++ [LDir DEndProlog].
Proof.
  intros H HL. unfold prologue_RBP in H. destruct (o_auto o) eqn:Ha; cbn [negb] in H; [|discriminate]. split; [reflexivity|]. rewrite (fpo_eq o p Ha) in H.
  rewrite !orb_true_r in H. fold (adj p (localsize lay)) in H. fold (resv o sym) in H. rewrite (first_loc_eq _ _ HL) in H. rewrite Z.mul_comm in H.
  set (sv := save_lines (resv o sym) (localsize lay - 16 * cntxmm (uses p)) (uses p)) in *.
  assert (E : (if cntxmm (uses p) =? 0 then Ok [] else sv) = sv).
  { destruct (Z.eqb_spec (cntxmm (uses p)) 0) as [E|]; [|reflexivity]. unfold sv. rewrite cnt0_saves by exact E. reflexivity. }
  rewrite E in H. clear E. destruct sv as [saves| |]; cbn [bindr] in H; try discriminate. exists saves. split; [reflexivity|].
  assert (G : forall a b : list line, Ok a = Ok b -> a = b) by congruence. apply G in H. subst pro. clear G. fold (home o p). f_equal. rewrite negb_involutive. destruct (needs_frame p); cbn [negb]; f_equal; f_equal; f_equal.
  unfold alloc, whole. cbn [orb]. rewrite andb_true_r. destruct (_ || _) eqn:E; [reflexivity|]. apply orb_false_iff in E as [_ E]. unfold resv. rewrite E.
    replace (localsize lay + adj p (localsize lay) + 0) with (adj p (localsize lay) + localsize lay) by lia. reflexivity.
Qed.

Definition gprs (l : list ureg) : list Z := flat_map (fun u => match u with UG r => [r] | _ => [] end) l.
Lemma gprs_cnt l : Z.of_nat (length (gprs l)) = cntstd l.
Proof. induction l as [|u l IH]; [reflexivity|]. rewrite cntstd_cons. destruct u; cbn; fold (gprs l); lia. Qed.
Lemma gprs_rev l : gprs (rev l) = rev (gprs l).
Proof.
  induction l as [|u l IH]; [reflexivity|]. cbn [rev]. unfold gprs in *. rewrite flat_map_app, IH. destruct u; cbn; rewrite ?app_nil_r; reflexivity.
Qed.
Lemma pops_all_map l : pops_all l = map LPop (gprs l).
Proof. induction l as [|u l IH]; [reflexivity|]. destruct u; cbn; unfold pops_all, gprs in IH; rewrite IH; reflexivity. Qed.
Lemma pops_counted_all l : pops_counted (length (gprs l)) l = Ok (pops_all l).
Proof.
  induction l as [|u l IH]; [reflexivity|]. destruct u as [r|r|r|r]; cbn -[pops_counted]; fold (gprs l); fold (pops_all l).
  - cbn [pops_counted]. rewrite IH. reflexivity.
  - destruct (length (gprs l)) eqn:E; [destruct l; exact IH|exact IH].
  - destruct (length (gprs l)) eqn:E; [destruct l; exact IH|exact IH].
  - destruct (length (gprs l)) eqn:E; [destruct l; exact IH|exact IH].
Qed.
Lemma pop_register_eq o l : pop_register o (cntstd l) l = Ok (map LPop (rev (gprs l))).
Proof.
  unfold pop_register. rewrite <- gprs_rev, <- pops_all_map. destruct (o_smart o); [|reflexivity].
  rewrite <- gprs_cnt, Nat2Z.id. rewrite <- (rev_length (gprs l)), <- gprs_rev. apply pops_counted_all.
Qed.
Lemma epilogue_form o p lay sym : o_auto o = true -> localsize lay mod 16 = 0 -> 0 <= localsize lay -> (o_autosp o = false -> sym = 0) -> 0 <= sym ->
  (needs_frame p = false -> frameofs lay = 0) -> 0 <= frameofs lay <= localsize lay + resv o sym ->
  exists free,
  epilogue_RBP o false p lay sym =
    Ok (load_lines (if needs_frame p then 5 else 4) (resv o sym - frameofs lay) (localsize lay - 16 * cntxmm (uses p)) (uses p) ++
        free ++ map LPop (rev (gprs (uses p))) ++ (if needs_frame p then [LPop 5] else [])) /\
  forall avx m, (run avx m free = set_g m 4 (base p m - frameofs lay + whole o p lay sym) \/
    (run avx m free = m /\ sp m = base p m - frameofs lay + whole o p lay sym)) /\ aligned avx m free.
Proof.
  intros Ha HL HL0 Hs Hs0 Hf0 Hf. unfold epilogue_RBP. rewrite Ha, (fpo_eq o p Ha). cbn [negb]. fold (adj p (localsize lay)). fold (resv o sym).
  rewrite (first_loc_eq _ _ HL), pop_register_eq. cbn [bindr]. rewrite (Z.mul_comm (cntxmm (uses p)) 16), negb_involutive.
  assert (E : (if cntxmm (uses p) =? 0 then [] else load_lines (if negb (needs_frame p) then 4 else 5) (resv o sym - frameofs lay) (localsize lay - 16 * cntxmm (uses p)) (uses p))
              = load_lines (if needs_frame p then 5 else 4) (resv o sym - frameofs lay) (localsize lay - 16 * cntxmm (uses p)) (uses p)).
  { replace (if negb (needs_frame p) then 4 else 5) with (if needs_frame p then 5 else 4) by (destruct (needs_frame p); reflexivity).
    destruct (Z.eqb_spec (cntxmm (uses p)) 0) as [E|]; [|reflexivity]. rewrite cnt0_loads by exact E. reflexivity. }
  rewrite E. clear E. set (free := if _ || _ then _ else _). exists free. split; [destruct (needs_frame p); reflexivity|]. intros avx m.
  destruct (adj_ok p _ HL) as [A1 A2]. assert (HR : resv o sym = sym) by (unfold resv; destruct (o_autosp o); [reflexivity|symmetry; auto]).
  unfold free, whole, base. clear free. rewrite HR in *. destruct (needs_frame p); cbn [negb orb].
  - destruct (Z.gtb_spec (localsize lay + adj p (localsize lay) + sym) 0); cbn -[Z.add]; (split; [|tauto]); left; f_equal; lia.
  - rewrite (Hf0 eq_refl) in *. rewrite andb_true_r. destruct (_ || _) eqn:E.
    + destruct (Z.gtb_spec (localsize lay + adj p (localsize lay) + sym) 0); cbn -[Z.add]; (split; [|tauto]).
      * left. unfold sp. f_equal. lia.
      * right. split; [reflexivity|]. unfold sp. lia.
    + apply orb_false_iff in E as [_ E]. specialize (Hs E). subst sym. destruct (Z.gtb_spec (adj p (localsize lay) + localsize lay) 0); cbn -[Z.add]; (split; [|tauto]).
      * left. unfold sp. f_equal. lia.
      * right. split; [reflexivity|]. unfold sp. lia.
Qed.

(** * Home cells *)
Definition homed (m : cpu) (i : nat) (l : list param) (k : nat) (old : Z) : Z :=
  if existsb p_vararg (firstn (S k) l) then merge 8 old (g m (ms64_reg (Z.of_nat (i + k))))
  else match nth_error l k with
       | Some q => if p_used q then merge (bytes_of (p_type q)) old (match p_type q with MReal4 | MReal8 => v m (Z.of_nat (i + k)) 0 | _ => g m (ms64_reg (Z.of_nat (i + k))) end) else old
       | None => old
       end.
Lemma home_var avx n : forall i q l m, p_vararg q = true ->
  let m' := run avx m (SaveRegParams n (Z.of_nat i) (q :: l)) in
  g m' = g m /\ v m' = v m /\
  (forall k, (k < n)%nat -> mm m' (sp m + 8 + 8 * Z.of_nat (i + k)) = merge 8 (mm m (sp m + 8 + 8 * Z.of_nat (i + k))) (g m (ms64_reg (Z.of_nat (i + k))))) /\
  (forall a, (forall k, (k < n)%nat -> a <> sp m + 8 + 8 * Z.of_nat (i + k)) -> mm m' a = mm m a).
Proof.
  induction n as [|n IH]; intros i q l m Hq; [cbn; repeat split; intros; lia|]. cbn [SaveRegParams]. rewrite Hq. cbn [negb].
  replace (Z.of_nat i + 1) with (Z.of_nat (S i)) by lia. cbn [run fold_left]. set (m1 := step avx m (LHome (Z.of_nat i) (ms64_reg (Z.of_nat i)) 8)). fold (run avx m1 (SaveRegParams n (Z.of_nat (S i)) (q :: l))).
  destruct (IH (S i) q l m1 Hq) as (I1 & I2 & I3 & I4). assert (E1 : g m1 = g m) by reflexivity. assert (E2 : v m1 = v m) by reflexivity.
  assert (E3 : sp m1 = sp m) by reflexivity. rewrite E1, E3 in *. rewrite E2 in *. cbn zeta. split; [exact I1|]. split; [exact I2|]. split.
  - intros [|k] Hk.
    + rewrite Nat.add_0_r. rewrite I4 by (intros k _; lia). unfold m1. cbn [step mm put]. rewrite upd_eq. reflexivity.
    + specialize (I3 k ltac:(lia)). rewrite Nat.add_succ_r. rewrite Nat.add_succ_l in I3. rewrite I3. unfold m1. cbn [step mm put]. rewrite upd_ne by lia. reflexivity.
  - intros a Ha. rewrite I4.
    + unfold m1. cbn [step mm put]. apply upd_ne. specialize (Ha 0%nat ltac:(lia)). rewrite Nat.add_0_r in Ha. exact Ha.
    + intros k Hk. specialize (Ha (S k) ltac:(lia)). rewrite Nat.add_succ_r in Ha. exact Ha.
Qed.
Lemma home_run avx n : forall i l m,
  let m' := run avx m (SaveRegParams n (Z.of_nat i) l) in
  g m' = g m /\ v m' = v m /\
  (forall k, (k < n)%nat -> mm m' (sp m + 8 + 8 * Z.of_nat (i + k)) = homed m i l k (mm m (sp m + 8 + 8 * Z.of_nat (i + k)))) /\
  (forall a, (forall k, (k < n)%nat -> a <> sp m + 8 + 8 * Z.of_nat (i + k)) -> mm m' a = mm m a).
Proof.
  induction n as [|n IH]; intros i l m; [cbn; repeat split; intros; lia|]. destruct l as [|q l].
  { cbn. repeat split. intros [|k] _; reflexivity. }
  destruct (p_vararg q) eqn:Hq.
  { destruct (home_var avx (S n) i q l m Hq) as (I1 & I2 & I3 & I4). split; [exact I1|]. split; [exact I2|]. split; [|exact I4]. intros k Hk. rewrite (I3 k Hk). unfold homed. cbn [firstn existsb]. rewrite Hq. reflexivity. }
  cbn [SaveRegParams]. rewrite Hq. cbn [negb]. replace (Z.of_nat i + 1) with (Z.of_nat (S i)) by lia. set (h := if p_used q then _ else []). rewrite run_app. set (m1 := run avx m h).
  set (new := homed m i (q :: l) 0 (mm m (sp m + 8 + 8 * Z.of_nat i))).
  assert (M : g m1 = g m /\ v m1 = v m /\ mm m1 (sp m + 8 + 8 * Z.of_nat i) = new /\ forall a, a <> sp m + 8 + 8 * Z.of_nat i -> mm m1 a = mm m a).
  { unfold m1, h, new, homed. cbn [firstn existsb]. rewrite Hq. cbn [orb nth_error]. rewrite Nat.add_0_r.
    destruct (p_used q); [|cbn; tauto]. destruct (p_type q); cbn [run fold_left step put g v mm]; rewrite upd_eq; (split; [reflexivity|]; split; [reflexivity|]; split; [reflexivity|]; intros a Ha; apply upd_ne; exact Ha). }
  clearbody m1. destruct M as (M1 & M2 & M3 & M4). destruct (IH (S i) l m1) as (I1 & I2 & I3 & I4). assert (E3 : sp m1 = sp m) by (unfold sp; rewrite M1; reflexivity). rewrite E3 in *.
  cbn zeta. split; [congruence|]. split; [congruence|]. split.
  - intros [|k] Hk.
    + rewrite Nat.add_0_r. rewrite I4 by (intros k _; lia). exact M3.
    + specialize (I3 k ltac:(lia)). rewrite Nat.add_succ_r. rewrite Nat.add_succ_l in I3. rewrite I3. rewrite M4 by lia. unfold homed. cbn [firstn existsb nth_error]. rewrite Hq. cbn [orb].
      rewrite Nat.add_succ_r, Nat.add_succ_l, M1, M2. reflexivity.
  - intros a Ha. rewrite I4.
    + apply M4. specialize (Ha 0%nat ltac:(lia)). rewrite Nat.add_0_r in Ha. exact Ha.
    + intros k Hk. specialize (Ha (S k) ltac:(lia)). rewrite Nat.add_succ_r in Ha. exact Ha.
Qed.

(** * Pushes and pops *)
Definition pushes avx (rs : list Z) (m : cpu) : cpu := run avx m (map LPush rs).
Lemma push_lines_run avx l : forall m, run avx m (push_lines l) = pushes avx (gprs l) m.
Proof.
  unfold pushes. induction l as [|u l IH]; intros m; [reflexivity|]. unfold push_lines. cbn [flat_map]. fold (push_lines l). rewrite run_app. destruct u as [r|r|r|r]; try apply IH.
  cbn [gprs flat_map app map]. fold (gprs l). change (run avx m (LPush r :: map LPush (gprs l))) with (run avx (step avx m (LPush r)) (map LPush (gprs l))). rewrite <- IH. f_equal.
  destruct (negb _); reflexivity.
Qed.
Lemma pushes_run avx rs : forall m, ~ In 4 rs -> let m' := pushes avx rs m in
  sp m' = sp m - 8 * Z.of_nat (length rs) /\ (forall r, r <> 4 -> g m' r = g m r) /\ v m' = v m /\
  forall a, (a < sp m' \/ sp m <= a) -> mm m' a = mm m a.
Proof.
  induction rs as [|r rs IH]; intros m H; [cbn; repeat split; lia|]. cbn [length]. unfold pushes. cbn [map].
  change (run avx m (LPush r :: map LPush rs)) with (pushes avx rs (step avx m (LPush r))). set (m1 := step avx m (LPush r)).
  destruct (IH m1 ltac:(cbn in H; tauto)) as (I1 & I2 & I3 & I4). cbn zeta in *. assert (E : sp m1 = sp m - 8) by reflexivity. rewrite E in *.
  split; [lia|]. split; [intros r' Hr; rewrite I2 by exact Hr; unfold m1; cbn [step put g set_g mm]; apply upd_ne; exact Hr|]. split; [exact I3|].
  intros a Ha. rewrite I4 by lia. unfold m1. cbn [step put mm set_g]. apply upd_ne. lia.
Qed.
Lemma pops_run avx rs : forall m m2, ~ In 4 rs -> sp m2 = sp (pushes avx rs m) ->
  (forall a, a mod 8 = sp m mod 8 -> sp m2 <= a < sp m -> mm m2 a = mm (pushes avx rs m) a) ->
  let m3 := run avx m2 (map LPop (rev rs)) in
  sp m3 = sp m /\ (forall r, In r rs -> g m3 r = g m r) /\ (forall r, r <> 4 -> ~ In r rs -> g m3 r = g m2 r) /\ v m3 = v m2 /\ mm m3 = mm m2.
Proof.
  induction rs as [|r rs IH]; intros m m2 H Hsp Hmm; [cbn in *; repeat split; auto; tauto|].
  change (pushes avx (r :: rs) m) with (pushes avx rs (step avx m (LPush r))) in *. set (m1 := step avx m (LPush r)) in *.
  assert (E : sp m1 = sp m - 8) by reflexivity. assert (H' : ~ In 4 rs) by (cbn in H; tauto). assert (Hr4 : r <> 4) by (cbn in H; tauto).
  destruct (pushes_run avx rs m1 H') as (P1 & P2 & P3 & P4). cbn zeta in *.
  destruct (IH m1 m2 H' Hsp) as (I1 & I2 & I3 & I4 & I5). { intros a Ha1 Ha2. apply Hmm; lia. }
  cbn [rev]. rewrite map_app, run_app. cbn [map]. set (m4 := run avx m2 (map LPop (rev rs))) in *. cbn zeta in *.
  change (run avx m4 [LPop r]) with (step avx m4 (LPop r)). cbn [step]. unfold set_g, sp. cbn [g v mm].
  rewrite (upd_ne _ r _ 4) by congruence. rewrite upd_eq. fold (sp m4). fold (sp m). rewrite I1, E. split; [lia|]. split; [|split; [|split; [exact I4|exact I5]]].
  - intros r' Hr'. destruct (Z.eq_dec r' r) as [->|N].
    + rewrite upd_eq, I5. rewrite Hmm by lia. rewrite P4 by lia. unfold m1. cbn [step put g set_g mm]. apply upd_eq.
    + rewrite upd_ne by exact N. destruct Hr' as [|Hr']; [congruence|]. rewrite upd_ne by (intros ->; contradiction). rewrite I2 by exact Hr'. unfold m1. cbn [step put g set_g mm]. apply upd_ne. intros ->. contradiction.
  - intros r' Hr1 Hr2. cbn in Hr2. rewrite !upd_ne by (try exact Hr1; intros ->; tauto). apply I3; tauto.
Qed.

(** * Vector registers *)
Definition vecs (l : list ureg) : list Z := flat_map vec_of l.
Lemma lane_some a k x j : lane_at a k x = Some j -> 0 <= j < k /\ x = a + 8 * j.
Proof.
  unfold lane_at. destruct (Z.eqb_spec ((x - a) mod 8) 0); cbn [andb]; [|discriminate]. destruct (Z.leb_spec 0 ((x - a) / 8)); cbn [andb]; [|discriminate].
  destruct (Z.ltb_spec ((x - a) / 8) k); [|discriminate]. intros E. assert (G : forall x y : Z, Some x = Some y -> x = y) by congruence. apply G in E. lia.
Qed.
Lemma lane_in a k j : 0 <= j < k -> lane_at a k (a + 8 * j) = Some j.
Proof.
  intros H. unfold lane_at. replace (a + 8 * j - a) with (j * 8) by lia. rewrite Z_mod_mult, Z.div_mul by lia. cbn. destruct (Z.leb_spec 0 j); [|lia]. destruct (Z.ltb_spec j k); [|lia]. reflexivity.
Qed.
Definition width (u : ureg) : Z := 8 * lanes_of u.
Lemma width_units u : width u = 16 * units u.
Proof. destruct u; reflexivity. Qed.
Definition is_al (u : ureg) : bool := match u with UX _ => true | _ => false end.
Lemma save_cons R i u l ks : save_lines R i (u :: l) = Ok ks ->
  exists k', save_lines R (i + width u) l = Ok k' /\ ks = flat_map (fun r => [LStore (is_al u) r (lanes_of u) (i + R); LDir (DSaveVec r (i + R))]) (vec_of u) ++ k' /\ (R = 0 -> match u with UZ _ => False | _ => True end).
Proof.
  unfold width. destruct u as [r|r|r|r]; cbn [save_lines lanes_of vec_of flat_map app is_al]; intros H.
  - exists ks. replace (i + 8 * 0) with i by lia. auto.
  - change (8 * 2) with 16. destruct (save_lines R (i + 16) l); cbn in H; try discriminate. exists a. repeat split; congruence.
  - change (8 * 4) with 32. destruct (save_lines R (i + 32) l); cbn in H; try discriminate. exists a. repeat split; congruence.
  - change (8 * 8) with 64. destruct (Z.eqb_spec R 0); [discriminate|]. destruct (save_lines R (i + 64) l); cbn in H; try discriminate. exists a. repeat split; congruence.
Qed.
Lemma load_cons b add i u l : load_lines b add i (u :: l) = map (fun r => LLoad (is_al u) b r (lanes_of u) (i + add)) (vec_of u) ++ load_lines b add (i + width u) l.
Proof. unfold width. destruct u; cbn [load_lines lanes_of vec_of map app is_al]; try reflexivity. replace (i + 8 * 0) with i by lia. reflexivity. Qed.
Lemma save_run avx R l : forall i ks m, save_lines R i l = Ok ks ->
  let m' := run avx m ks in
  g m' = g m /\ v m' = v m /\ (forall a, a < sp m + R + i \/ sp m + R + i + 16 * cntxmm l <= a -> mm m' a = mm m a).
Proof.
  induction l as [|u l IH]; intros i ks m H; [assert (E : ks = []) by (cbn in H; congruence); subst; cbn; auto|].
  apply save_cons in H as (k' & Hk & -> & _). cbn zeta. rewrite run_app. rewrite cntxmm_cons. pose proof (cntxmm_nonneg l) as Hc. pose proof (width_units u) as Hw.
  set (m1 := run avx m _). destruct (IH _ _ m1 Hk) as (I1 & I2 & I3). cbn zeta in *.
  assert (M : g m1 = g m /\ v m1 = v m /\ forall a, a < sp m + R + i \/ sp m + R + i + width u <= a -> mm m1 a = mm m a).
  { unfold m1. clear. unfold width. destruct u as [r|r|r|r]; cbn [vec_of flat_map app run fold_left step g v mm lanes_of]; (split; [reflexivity|]; split; [reflexivity|]; intros a Ha); [reflexivity| | |];
    (destruct (lane_at _ _ a) eqn:E; [apply lane_some in E; lia|reflexivity]). }
  destruct M as (M1 & M2 & M3). assert (E : sp m1 = sp m) by (unfold sp; congruence). rewrite E in *. split; [congruence|]. split; [congruence|].
  intros a Ha. assert (0 <= units u) by (destruct u; cbn; lia). rewrite I3 by lia. apply M3. lia.
Qed.
Lemma load_run avx R l : forall i ks m m2 b add, save_lines R i l = Ok ks -> NoDup (vecs l) -> g m2 b + add = sp m + R ->
  (forall a, a mod 8 = (sp m + R + i) mod 8 -> sp m + R + i <= a < sp m + R + i + 16 * cntxmm l -> mm m2 a = mm (run avx m ks) a) ->
  let m3 := run avx m2 (load_lines b add i l) in
  g m3 = g m2 /\ mm m3 = mm m2 /\ (forall r, ~ In r (vecs l) -> v m3 r = v m2 r) /\
  (forall u r j, In u l -> In r (vec_of u) -> 0 <= j < lanes_of u -> v m3 r j = v m r j).
Proof.
  induction l as [|u l IH]; intros i ks m m2 b add H Hd Hb Hm; [cbn; repeat split; auto; intros u r j []|].
  apply save_cons in H as (k' & Hk & -> & _). cbn zeta. rewrite load_cons, run_app. rewrite cntxmm_cons in Hm. pose proof (cntxmm_nonneg l) as Hc. pose proof (width_units u) as Hw.
  assert (Hu : 0 <= units u) by (destruct u; cbn; lia). unfold vecs in Hd. cbn [flat_map] in Hd. fold (vecs l) in Hd.
  assert (Hd' : NoDup (vecs l)) by (clear - Hd; destruct u; cbn in Hd; [exact Hd| | |]; inversion Hd; assumption).
  assert (Hn : forall r, In r (vec_of u) -> ~ In r (vecs l)). { clear - Hd. intros r Hr. destruct u; cbn in *; [contradiction| | |]; destruct Hr as [<-|[]]; inversion Hd; assumption. }
  rewrite run_app in Hm. set (m1 := run avx m _) in *.
  assert (M : g m1 = g m /\ v m1 = v m /\ forall r j, In r (vec_of u) -> 0 <= j < lanes_of u -> mm m1 (sp m + R + i + 8 * j) = v m r j).
  { unfold m1. clear. destruct u as [r|r|r|r]; cbn [vec_of flat_map app run fold_left step g v mm lanes_of]; (split; [reflexivity|]; split; [reflexivity|]; intros r' j Hr Hj); [contradiction| | |];
    (destruct Hr as [<-|[]]; replace (sp m + R + i + 8 * j) with (sp m + (i + R) + 8 * j) by lia; rewrite lane_in by exact Hj; reflexivity). }
  destruct M as (M1 & M2 & M3). assert (E : sp m1 = sp m) by (unfold sp; congruence).
  destruct (save_run avx R l _ _ m1 Hk) as (S1 & S2 & S3). cbn zeta in *. rewrite E in S3.
  set (m4 := run avx m2 _).
  assert (L : g m4 = g m2 /\ mm m4 = mm m2 /\ (forall r, ~ In r (vec_of u) -> v m4 r = v m2 r) /\ forall r j, In r (vec_of u) -> 0 <= j < lanes_of u -> v m4 r j = mm m2 (g m2 b + add + i + 8 * j)).
  { unfold m4. clear. destruct u as [r|r|r|r]; cbn [vec_of map run fold_left step g v mm lanes_of]; (split; [reflexivity|]; split; [reflexivity|]; split); try (intros; reflexivity); try (intros r' j []; fail);
    try (intros r' Hr'; apply upd_ne; intros ->; apply Hr'; left; reflexivity); intros r' j [<-|[]] Hj; rewrite upd_eq; destruct (Z.leb_spec 0 j); try lia;
    match goal with |- context [j <? ?k] => destruct (Z.ltb_spec j k); [|lia] end; cbn [andb]; f_equal; lia. }
  destruct L as (L1 & L2 & L3 & L4).
  destruct (IH (i + width u) k' m1 m4 b add Hk Hd') as (I1 & I2 & I3 & I4).
  { rewrite L1, E. exact Hb. }
  { intros a Ha1 Ha2. rewrite L2. rewrite E in *. apply Hm; [|lia]. rewrite Ha1. unfold width. replace (sp m + R + (i + 8 * lanes_of u)) with (sp m + R + i + lanes_of u * 8) by lia. apply Z_mod_plus_full. }
  cbn zeta in *. split; [congruence|]. split; [congruence|]. split.
  - intros r Hr. unfold vecs in Hr. cbn [flat_map] in Hr. fold (vecs l) in Hr. rewrite in_app_iff in Hr. rewrite I3 by tauto. apply L3. tauto.
  - intros u' r j [<-|Hu'] Hr Hj.
    + rewrite I3 by (apply Hn; exact Hr). rewrite L4 by assumption. rewrite <- (M3 r j Hr Hj). replace (g m2 b + add + i + 8 * j) with (sp m + R + i + 8 * j) by lia.
      unfold width in Hw. rewrite Hm; [apply S3; unfold width; lia| |lia]. replace (sp m + R + i + 8 * j) with (sp m + R + i + j * 8) by lia. apply Z_mod_plus_full.
    + rewrite I4 with (u := u') by assumption. rewrite M2. reflexivity.
Qed.

(** * The space for arguments *)
Lemma fcstart_ok o s n : s mod 16 = 0 -> 0 <= s -> let s' := snd (ms64_fcstart o s n) in
  s' mod 16 = 0 /\ s <= s' /\ (o_autosp o = true -> 32 <= s' /\ 8 * n <= s') /\ (o_autosp o = false -> s' = s).
Proof.
  intros H H0. unfold ms64_fcstart. cbn zeta. set (k := if n <? 4 then 4 else if Z.odd n then n + 1 else n).
  assert (K : k mod 2 = 0 /\ 4 <= k /\ n <= k).
  { unfold k. destruct (Z.ltb_spec n 4); [lia|]. pose proof (Zmod_odd n). destruct (Z.odd n); lia. }
  clearbody k. cbn [snd]. destruct (o_autosp o); [|split; [lia|split; [lia|split; [discriminate|reflexivity]]]].
  destruct (Z.gtb_spec (k * 8) s); (split; [lia|split; [lia|split; [lia|discriminate]]]).
Qed.
Lemma reserved_ok o invokes : reserved o invokes mod 16 = 0 /\ 0 <= reserved o invokes /\ (o_autosp o = true -> enough (reserved o invokes) invokes) /\ (o_autosp o = false -> reserved o invokes = 0).
Proof.
  unfold reserved, enough. assert (G : forall l s, s mod 16 = 0 -> 0 <= s -> let s' := fold_left (fun s n => snd (ms64_fcstart o s n)) l s in
    s' mod 16 = 0 /\ s <= s' /\ (o_autosp o = true -> Forall (fun n => 32 <= s' /\ 8 * n <= s') l) /\ (o_autosp o = false -> s' = s)).
  { induction l as [|n l IH]; intros s H H0; [cbn; repeat split; auto; lia|]. cbn [fold_left]. destruct (fcstart_ok o s n H H0) as (A1 & A2 & A3 & A4). cbn zeta in *.
    destruct (IH (snd (ms64_fcstart o s n)) A1 ltac:(lia)) as (B1 & B2 & B3 & B4). cbn zeta in *. split; [exact B1|]. split; [lia|]. split.
    - intros E. specialize (A3 E). constructor; [lia|]. auto.
    - intros E. rewrite B4, A4 by exact E. reflexivity. }
  destruct (G invokes 0 eq_refl (Z.le_refl 0)) as (A1 & A2 & A3 & A4). cbn zeta in *. tauto.
Qed.

(** * All passes *)
Lemma assembled_form o n p invokes r : assembled o n p invokes = Ok r -> frame_pass o false p (cntstd (uses p)) (reserved o invokes) = Ok r.
Proof.
  unfold assembled. destruct (frame_pass o true p 0 0); cbn [bindr]; try discriminate. induction n as [|n IH]; cbn [later]; [auto|].
  destruct (frame_pass o false p _ _) as [x| |] eqn:E; cbn [bindr]; try discriminate. intros H. specialize (IH H). exact IH.
Qed.
Definition state_after (o : options) (p : proc) (lay : layout) (sym : Z) (m0 m1 : cpu) : Prop :=
  sp m1 = sp m0 - frame8 p - 8 * cntstd (uses p) - whole o p lay sym /\
  base p m1 = sp m1 + frameofs lay /\ (needs_frame p = false -> g m1 5 = g m0 5) /\ (forall r, r <> 4 -> r <> 5 -> g m1 r = g m0 r) /\
  v m1 = v m0 /\
  (forall a, sp m0 <= a -> (o_save o = true -> forall k, (k < 4)%nat -> a <> sp m0 + 8 + 8 * Z.of_nat k) -> mm m1 a = mm m0 a) /\
  (forall k, (k < 4)%nat -> o_save o = true -> mm m1 (sp m0 + 8 + 8 * Z.of_nat k) = homed m0 0 (params p) k (mm m0 (sp m0 + 8 + 8 * Z.of_nat k))).
Definition layout_facts (o : options) (p : proc) (lay : layout) (sym : Z) : Prop :=
  localsize lay mod 16 = 0 /\ 16 * cntxmm (uses p) <= localsize lay /\ frameofs lay mod 16 = 0 /\ 0 <= frameofs lay <= 128 /\ frameofs lay <= localsize lay + resv o sym /\ (needs_frame p = false -> frameofs lay = 0) /\
  length (local_ofs lay) = length (locals p) /\
  good (fun _ => true) (resv o sym - frameofs lay) (localsize lay + resv o sym - 16 * cntxmm (uses p) - frameofs lay) (combine (locals p) (local_ofs lay)) /\
  param_ofs lay = map (fun k => 8 * cntstd (uses p) + 8 + frame8 p + whole o p lay sym - frameofs lay + Z.of_nat k * 8) (seq 0 (length (params p))).
Lemma pass_layout o p sym lay pro epi : frame_pass o false p (cntstd (uses p)) sym = Ok (lay, pro, epi) -> proc_ok p -> sym mod 16 = 0 -> 0 <= sym ->
  o_auto o = true /\ layout_facts o p lay sym /\ prologue_RBP o false p lay sym = Ok pro /\ epilogue_RBP o false p lay sym = Ok epi.
Proof.
  intros H Hp Hs Hs0. unfold frame_pass in H. set (lay' := SetLocalOffsets_RBP _ _ _ _ _) in *.
  destruct (prologue_RBP o false p lay' sym) as [a| |] eqn:E1; cbn [bindr] in H; try discriminate.
  destruct (epilogue_RBP o false p lay' sym) as [b| |] eqn:E2; cbn [bindr] in H; try discriminate.
  assert (G : forall a b : layout * list line * list line, Ok a = Ok b -> a = b) by congruence. apply G in H.
  apply pair_equal_spec in H as [H <-]. apply pair_equal_spec in H as [<- <-].
  assert (Ha : o_auto o = true) by (unfold prologue_RBP in E1; destruct (o_auto o); [reflexivity|discriminate]).
  split; [exact Ha|]. split; [|split; assumption]. destruct Hp as (_ & _ & Hl). destruct (layout_ok o p (cntstd (uses p)) sym Ha Hl Hs Hs0) as (L1 & L2 & _ & L3 & L4 & L5 & L6 & L7 & L8 & L9).
  cbn zeta in *. fold lay' in L1, L2, L3, L4, L5, L6, L7, L8, L9. clearbody lay'. unfold layout_facts. repeat (split; [tauto|]). rewrite L9. apply map_ext. intros k. unfold whole, frame8. fold (adj p (localsize lay')). destruct (needs_frame p); lia.
Qed.
Lemma no4 p : proc_ok p -> ~ In 4 (gprs (uses p)).
Proof.
  intros (H & _). induction H as [|u l Hu H IH]; [auto|]. unfold gprs. cbn [flat_map]. fold (gprs l). rewrite in_app_iff. destruct u; cbn; intuition.
Qed.
(** the state before the vector registers are stored *)
Definition before_saves avx o p T m0 : cpu :=
  run avx (pushes avx (gprs (uses p)) (run avx (run avx m0 (home o p)) (if needs_frame p then [LHot; LPush 5; LDir (DPushReg 5)] else []))) (alloc o T).
Lemma home_ok avx o p m0 : let mh := run avx m0 (home o p) in
  g mh = g m0 /\ v mh = v m0 /\
  (forall a, (o_save o = true -> forall k, (k < 4)%nat -> a <> sp m0 + 8 + 8 * Z.of_nat k) -> mm mh a = mm m0 a) /\
  (forall k, (k < 4)%nat -> o_save o = true -> mm mh (sp m0 + 8 + 8 * Z.of_nat k) = homed m0 0 (params p) k (mm m0 (sp m0 + 8 + 8 * Z.of_nat k))).
Proof.
  unfold home. destruct (o_save o); [|cbn; repeat split; auto; discriminate]. destruct (home_run avx 4 0 (params p) m0) as (H1 & H2 & H3 & H4). cbn zeta in *. change (Z.of_nat 0) with 0 in *.
  split; [exact H1|]. split; [exact H2|]. split; [intros a Ha; apply H4; intros k Hk; apply Ha; auto|]. intros k Hk _. apply H3. exact Hk.
Qed.
Lemma enter_run avx p m : let m' := run avx m (if needs_frame p then [LHot; LPush 5; LDir (DPushReg 5)] else []) in
  sp m' = sp m - frame8 p /\ (forall r, r <> 4 -> g m' r = g m r) /\ v m' = v m /\ (forall a, (a < sp m' \/ sp m <= a) -> mm m' a = mm m a) /\ (needs_frame p = true -> mm m' (sp m - 8) = g m 5).
Proof.
  unfold frame8. destruct (needs_frame p); cbn [run fold_left step].
  - unfold put, set_g, sp. cbn [g v mm]. rewrite upd_eq. split; [reflexivity|]. split; [intros r Hr; apply upd_ne; exact Hr|]. split; [reflexivity|]. split; [intros a Ha; apply upd_ne; lia|]. intros _. apply upd_eq.
  - split; [lia|]. repeat split; auto. discriminate.
Qed.
Lemma alloc_run avx o T m : 0 <= T -> run avx m (alloc o T) = m /\ T = 0 \/ run avx m (alloc o T) = set_g m 4 (sp m - T).
Proof. intros H. unfold alloc. destruct (Z.gtb_spec T 0); cbn; [right; reflexivity|left; split; [reflexivity|lia]]. Qed.
Lemma alloc_run' avx o T m : 0 <= T -> let m' := run avx m (alloc o T) in sp m' = sp m - T /\ (forall r, r <> 4 -> g m' r = g m r) /\ v m' = v m /\ mm m' = mm m.
Proof.
  intros H. cbn zeta. destruct (alloc_run avx o T m H) as [[-> ->]| ->]; [repeat split; auto; lia|]. unfold set_g, sp. cbn [g v mm]. rewrite upd_eq.
  split; [reflexivity|]. split; [intros r Hr; apply upd_ne; exact Hr|]. auto.
Qed.
Lemma setfp_run avx p f m : (needs_frame p = false -> f = 0) ->
  let m' := run avx m ((if needs_frame p then [if negb (f =? 0) then LLea 5 f else LMov 5; LDir (DSetFrame 5 f)] else []) ++ [LDir DEndProlog]) in
  sp m' = sp m /\ base p m' = sp m + f /\ (needs_frame p = false -> g m' 5 = g m 5) /\ (forall r, r <> 5 -> g m' r = g m r) /\ v m' = v m /\ mm m' = mm m.
Proof.
  intros Hf. unfold base. destruct (needs_frame p).
  - destruct (Z.eqb_spec f 0) as [->|N]; cbn [negb app run fold_left step]; unfold set_g, sp; cbn [g v mm]; rewrite upd_eq, (upd_ne _ 5 _ 4) by lia;
    (split; [reflexivity|]; split; [lia|]; split; [discriminate|]; split; [intros r Hr; apply upd_ne; exact Hr|auto]).
  - rewrite (Hf eq_refl). cbn. repeat split; auto. lia.
Qed.
Lemma whole_nonneg o p lay sym : layout_facts o p lay sym -> 0 <= sym -> 0 <= localsize lay /\ 0 <= resv o sym /\ 0 <= adj p (localsize lay) /\ 0 <= whole o p lay sym.
Proof.
  intros (L1 & L2 & _) Hs. destruct (adj_ok p _ L1) as [A _]. pose proof (cntxmm_nonneg (uses p)). unfold whole. assert (0 <= resv o sym) by (unfold resv; destruct (o_autosp o); lia). lia.
Qed.
Lemma before_ok avx o p T m0 : proc_ok p -> 0 <= T -> let mb := before_saves avx o p T m0 in
  let me := run avx (run avx m0 (home o p)) (if needs_frame p then [LHot; LPush 5; LDir (DPushReg 5)] else []) in
  sp me = sp m0 - frame8 p /\ (forall r, r <> 4 -> g me r = g m0 r) /\ (needs_frame p = true -> mm me (sp m0 - 8) = g m0 5) /\
  sp mb = sp m0 - frame8 p - 8 * cntstd (uses p) - T /\ (forall r, r <> 4 -> g mb r = g m0 r) /\ v mb = v m0 /\
  (forall a, sp me <= a -> mm mb a = mm me a) /\
  (forall a, sp me - 8 * cntstd (uses p) <= a < sp me -> mm mb a = mm (pushes avx (gprs (uses p)) me) a) /\
  (forall a, sp m0 <= a -> (o_save o = true -> forall k, (k < 4)%nat -> a <> sp m0 + 8 + 8 * Z.of_nat k) -> mm mb a = mm m0 a) /\
  (forall k, (k < 4)%nat -> o_save o = true -> mm mb (sp m0 + 8 + 8 * Z.of_nat k) = homed m0 0 (params p) k (mm m0 (sp m0 + 8 + 8 * Z.of_nat k))).
Proof.
  intros Hp HT. cbn zeta. unfold before_saves. destruct (home_ok avx o p m0) as (H1 & H2 & H3 & H4). set (mh := run avx m0 (home o p)) in *. clearbody mh.
  destruct (enter_run avx p mh) as (E1 & E2 & E3 & E4 & E5). set (me := run avx mh _) in *. clearbody me. cbn zeta in *.
  destruct (pushes_run avx (gprs (uses p)) me (no4 p Hp)) as (P1 & P2 & P3 & P4). set (mq := pushes avx (gprs (uses p)) me) in *. clearbody mq. cbn zeta in *. rewrite gprs_cnt in P1.
  destruct (alloc_run' avx o T mq HT) as (A1 & A2 & A3 & A4). set (mb := run avx mq _) in *. clearbody mb.
  assert (Hs : sp mh = sp m0) by (unfold sp; congruence). rewrite Hs in *. assert (Hf : 0 <= frame8 p) by (unfold frame8; destruct (needs_frame p); lia).
  split; [lia|]. split; [intros r Hr; rewrite E2 by exact Hr; congruence|]. split; [intros N; rewrite (E5 N); congruence|]. split; [lia|].
  split; [intros r Hr; rewrite A2, P2, E2, H1 by exact Hr; reflexivity|]. split; [congruence|].
  split; [intros a Ha; rewrite A4; apply P4; lia|]. split; [intros a Ha; rewrite A4; reflexivity|]. split.
  - intros a Ha1 Ha2. rewrite A4, P4, E4 by lia. apply H3. exact Ha2.
  - intros k Hk Hsv. rewrite A4, P4, E4 by lia. apply H4; assumption.
Qed.
Lemma prologue_run avx o p sym lay pro m0 : layout_facts o p lay sym -> prologue_RBP o false p lay sym = Ok pro -> proc_ok p -> 0 <= sym ->
  state_after o p lay sym m0 (run avx m0 pro) /\
  exists saves, save_lines (resv o sym) (localsize lay - 16 * cntxmm (uses p)) (uses p) = Ok saves /\
    mm (run avx m0 pro) = mm (run avx (before_saves avx o p (whole o p lay sym) m0) saves) /\ sp (run avx m0 pro) = sp (before_saves avx o p (whole o p lay sym) m0).
Proof.
  intros HF H Hp Hs. pose proof (whole_nonneg _ _ _ _ HF Hs) as (W1 & W2 & W3 & W4). destruct HF as (L1 & L2 & L3 & L4 & L5 & L6 & L7 & L8 & L9).
  destruct (prologue_form o p lay sym pro H L1) as (Ha & saves & Hsv & ->). rewrite !run_app. rewrite push_lines_run. rewrite <- (run_app avx _ [LDir DEndProlog]).
  set (T := whole o p lay sym) in *. fold (before_saves avx o p T m0).
  destruct (before_ok avx o p T m0 Hp W4) as (B1 & B2 & B3 & B4 & B5 & B6 & B7 & B8 & B9 & B10). set (mb := before_saves avx o p T m0) in *. clearbody mb. cbn zeta in *.
  destruct (save_run avx _ _ _ _ mb Hsv) as (S1 & S2 & S3). set (ms := run avx mb saves) in *.
  destruct (setfp_run avx p (frameofs lay) ms L6) as (F1 & F2 & F3 & F4 & F5 & F6). set (m1 := run avx ms _) in *. clearbody m1. cbn zeta in *.
  assert (E : sp ms = sp mb) by (unfold sp; congruence). rewrite E in *. pose proof (cntstd_nonneg (uses p)). assert (Hf : 0 <= frame8 p) by (unfold frame8; destruct (needs_frame p); lia).
  split; [|exists saves; split; [exact Hsv|]; split; [exact F6|exact F1]].
  split; [lia|]. split; [lia|]. split; [intros N; rewrite (F3 N), S1; apply B5; lia|]. split; [intros r Hr1 Hr2; rewrite F4, S1 by exact Hr2; apply B5; exact Hr1|]. split; [congruence|].
  unfold T, whole in B4. split.
  - intros a Ha1 Ha2. rewrite F6, S3 by lia. apply B9; assumption.
  - intros k Hk Hsave. rewrite F6, S3 by lia. apply B10; assumption.
Qed.
Lemma returns avx o p sym lay pro epi m0 m2 : frame_pass o false p (cntstd (uses p)) sym = Ok (lay, pro, epi) -> proc_ok p -> sym mod 16 = 0 -> 0 <= sym -> (o_autosp o = false -> sym = 0) ->
  sp m0 mod 8 = 0 -> body m0 (run avx m0 pro) m2 p lay (resv o sym) ->
  let m3 := run avx m2 epi in
  sp m3 = sp m0 /\ mm m3 (sp m0) = mm m0 (sp m0) /\ mm m3 = mm m2 /\
  (forall r, In (UG r) (uses p) \/ needs_frame p = true /\ r = 5 -> g m3 r = g m0 r) /\
  (forall r, r <> 4 -> ~ (In (UG r) (uses p) \/ needs_frame p = true /\ r = 5) -> g m3 r = g m2 r) /\
  (forall u r j, In u (uses p) -> In r (vec_of u) -> 0 <= j < lanes_of u -> v m3 r j = v m0 r j) /\
  (forall r, ~ In r (flat_map vec_of (uses p)) -> v m3 r = v m2 r).
Proof.
  intros H Hp Hs Hs0 Hsa Hal [Hb Hm]. destruct (pass_layout _ _ _ _ _ _ H Hp Hs Hs0) as (Ha & HF & Hpro & Hepi).
  destruct (prologue_run avx o p sym lay pro m0 HF Hpro Hp Hs0) as ((T1 & T2 & T3 & T4 & T5 & T6 & T7) & saves & Hsv & Hmm & Hspb). set (m1 := run avx m0 pro) in *. clearbody m1.
  pose proof (whole_nonneg _ _ _ _ HF Hs0) as (W1 & W2 & W3 & W4). pose proof HF as (L1 & L2 & L3 & L4 & L5 & L6 & L7 & L8 & L9).
  set (T := whole o p lay sym) in *. destruct (before_ok avx o p T m0 Hp W4) as (B1 & B2 & B3 & B4 & B5 & B6 & B7 & B8 & B9 & B10). cbn zeta in *.
  set (mb := before_saves avx o p T m0) in *. set (me := run avx (run avx m0 (home o p)) _) in *. clearbody me mb.
  pose proof (cntstd_nonneg (uses p)) as Hc. assert (Hf : 0 <= frame8 p) by (unfold frame8; destruct (needs_frame p); lia).
  pose proof (cntxmm_nonneg (uses p)) as Hx.
  (* what the body cannot have changed *)
  assert (K : forall a, a mod 8 = 0 -> sp m1 + resv o sym + (localsize lay - 16 * cntxmm (uses p)) <= a -> a < sp m0 + 8 -> mm m2 a = mm m1 a).
  { intros a A1 A2 A3. apply Hm; [exact A1|]. unfold may_write. intros [X|[(r & X1 & X2 & X3)|X]]; try lia.
    unfold ranges in X1. apply in_map_iff in X1 as ([n ofs] & <- & X1). cbn in X2, X3. destruct L8 as (_ & _ & G2 & _). rewrite Forall_forall in G2. specialize (G2 _ X1 eq_refl). cbn in G2. lia. }
  assert (M8 : frame8 p mod 8 = 0) by (unfold frame8; destruct (needs_frame p); reflexivity).
  assert (MT : T mod 8 = 0). { unfold T, whole. destruct (adj_ok p _ L1) as [_ X]. assert (resv o sym mod 16 = 0) by (unfold resv; destruct (o_autosp o); [exact Hs|reflexivity]). lia. }
  assert (MR : resv o sym mod 16 = 0) by (unfold resv; destruct (o_autosp o); [exact Hs|reflexivity]).
  destruct (epilogue_form o p lay sym Ha L1 W1 Hsa Hs0 L6 ltac:(lia)) as (free & E & Hfree). rewrite E in Hepi. clear E.
  assert (G : forall a b : list line, Ok a = Ok b -> a = b) by congruence. apply G in Hepi. subst epi. clear G. cbn zeta. rewrite !run_app.
  assert (Hb5 : g m2 (if needs_frame p then 5 else 4) = base p m2) by (unfold base, sp; destruct (needs_frame p); reflexivity).
  destruct (load_run avx (resv o sym) (uses p) _ saves mb m2 (if needs_frame p then 5 else 4) (resv o sym - frameofs lay) Hsv) as (D1 & D2 & D3 & D4).
  { apply Hp. } { rewrite Hb5. lia. }
  { intros a A1 A2. rewrite <- Hmm. unfold T, whole in *. apply K; [|lia|lia]. rewrite A1. lia. }
  cbn zeta in *. set (m4 := run avx m2 (load_lines _ _ _ _)) in *. clearbody m4.
  assert (F : let m5 := run avx m4 free in sp m5 = base p m4 - frameofs lay + T /\ (forall r, r <> 4 -> g m5 r = g m4 r) /\ v m5 = v m4 /\ mm m5 = mm m4).
  { cbn zeta. destruct (Hfree avx m4) as [[-> |[-> X]] _]; [|auto]. unfold set_g, sp. cbn [g v mm]. rewrite upd_eq. repeat split. intros r Hr. apply upd_ne. exact Hr. }
  cbn zeta in F. set (m5 := run avx m4 free) in *. clearbody m5. destruct F as (F1 & F2 & F3 & F4).
  assert (Hb4 : base p m4 = base p m2) by (unfold base, sp; rewrite D1; reflexivity). rewrite Hb4 in *.
  destruct (pushes_run avx (gprs (uses p)) me (no4 p Hp)) as (Q1 & Q2 & Q3 & Q4). cbn zeta in *. rewrite gprs_cnt in Q1.
  destruct (pops_run avx (gprs (uses p)) me m5 (no4 p Hp)) as (P1 & P2 & P3 & P4 & P5).
  { lia. }
  { intros a A1 A2. rewrite <- B8 by lia. rewrite F4, D2. rewrite K by (unfold T, whole in *; lia). rewrite Hmm. destruct (save_run avx _ _ _ _ mb Hsv) as (_ & _ & X). cbn zeta in X. apply X. unfold T, whole in *. lia. }
  cbn zeta in *. set (m6 := run avx m5 _) in *. clearbody m6.
  assert (HU : forall r, In r (gprs (uses p)) <-> In (UG r) (uses p)).
  { intros r. unfold gprs. rewrite in_flat_map. split; [intros (u & U1 & U2); destruct u; cbn in U2; try contradiction; destruct U2 as [<-|[]]; exact U1|]. intros U. exists (UG r). split; [exact U|left; reflexivity]. }
  assert (HM : mm m6 = mm m2) by congruence. assert (HV : v m6 = v m4) by congruence.
  assert (Hret : mm m2 (sp m0) = mm m0 (sp m0)). { rewrite K by (unfold T, whole in *; lia). apply T6; [lia|]. intros _ k _. lia. }
  assert (H6 : forall r, In (UG r) (uses p) -> g m6 r = g m0 r).
  { intros r Hr. apply HU in Hr. rewrite (P2 r Hr). apply B2. intros ->. exact (no4 p Hp Hr). }
  assert (H7 : forall r, r <> 4 -> ~ In (UG r) (uses p) -> g m6 r = g m2 r).
  { intros r Hr1 Hr2. rewrite P3, F2, D1 by (try exact Hr1; rewrite HU; exact Hr2). reflexivity. }
  destruct (needs_frame p) eqn:N.
  - change (run avx m6 [LPop 5]) with (step avx m6 (LPop 5)). cbn [step]. unfold set_g, sp. cbn [g v mm]. fold (sp m6). fold (sp m0). rewrite (upd_ne _ 5 _ 4) by lia. rewrite upd_eq.
    assert (X : mm m6 (sp m6) = g m0 5).
    { unfold frame8 in *. rewrite N in *. rewrite HM. rewrite K by (unfold T, whole in *; lia). rewrite Hmm. destruct (save_run avx _ _ _ _ mb Hsv) as (_ & _ & X). cbn zeta in X. rewrite X by (unfold T, whole in *; lia).
      rewrite B7 by lia. rewrite P1, B1. apply B3. reflexivity. }
    split; [unfold frame8 in *; rewrite N in *; lia|]. split; [rewrite HM; exact Hret|]. split; [exact HM|]. split; [|split; [|split]].
    + intros r [Hr|[_ ->]]; [|rewrite upd_eq; exact X]. destruct (Z.eq_dec r 5) as [->|N5]; [rewrite upd_eq; exact X|]. rewrite upd_ne by exact N5. rewrite upd_ne; [apply H6; exact Hr|]. intros ->. apply HU in Hr. exact (no4 p Hp Hr).
    + intros r Hr1 Hr2. rewrite !upd_ne by (try exact Hr1; intros ->; tauto). apply H7; tauto.
    + intros u r j U1 U2 U3. rewrite HV. rewrite (D4 u r j U1 U2 U3). rewrite B6. reflexivity.
    + intros r Hr. rewrite HV. apply D3. exact Hr.
  - cbn [run fold_left]. split; [unfold frame8 in *; rewrite N in *; lia|]. split; [rewrite HM; exact Hret|]. split; [exact HM|]. split; [|split; [|split]].
    + intros r [Hr|[X _]]; [apply H6; exact Hr|discriminate].
    + intros r Hr1 Hr2. apply H7; tauto.
    + intros u r j U1 U2 U3. rewrite HV. rewrite (D4 u r j U1 U2 U3). rewrite B6. reflexivity.
    + intros r Hr. rewrite HV. apply D3. exact Hr.
Qed.
