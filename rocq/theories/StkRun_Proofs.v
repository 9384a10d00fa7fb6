(** Proofs about the stack frames of 16-bit and 32-bit procedures: what prologue and
    epilogue do. *)
From Coq Require Import List ZArith Bool Lia.
From Verif Require Import Base Stk_Model Stk_Spec Stk_Proofs.
Import ListNotations.
Open Scope Z_scope.

Local Arguments Z.modulo : simpl never.
Local Arguments Z.div : simpl never.
Local Arguments Z.pow : simpl never.
Local Arguments Z.mul : simpl never.
Local Arguments Z.add : simpl never.
Local Arguments Z.sub : simpl never.
Local Arguments swrap : simpl never.
Local Arguments le_bytes : simpl never.
Local Arguments low : simpl never.
Local Arguments load : simpl never.
Local Arguments store : simpl never.
Local Arguments Z.to_nat : simpl never.

Lemma upd_eq f k x : upd f k x k = x.
Proof. unfold upd. rewrite Z.eqb_refl. reflexivity. Qed.
Lemma upd_ne f k x y : y <> k -> upd f k x y = f y.
Proof. intros H. unfold upd. destruct (Z.eqb_spec y k); [contradiction|reflexivity]. Qed.
Lemma run_app o d l1 : forall l2 m, run o d m (l1 ++ l2) = run o d (run o d m l1) l2.
Proof. intros l2 m. unfold run. apply fold_left_app. Qed.

(** * Memory *)
Lemma load_ext m m' a n : (forall x, a <= x < a + Z.of_nat n -> m x = m' x) -> load m a n = load m' a n.
Proof. intros H. unfold load. f_equal. apply map_ext_in. intros k Hk. apply in_seq in Hk. apply H. lia. Qed.
Lemma map_nth_seq (l : list Z) : map (fun k => nth k l 0) (seq 0 (length l)) = l.
Proof.
  apply nth_ext with (d := 0) (d' := 0); rewrite map_length, seq_length; [reflexivity|]. intros n Hn. rewrite nth_indep with (d' := nth 0%nat l 0) by (rewrite map_length, seq_length; exact Hn).
  rewrite (map_nth (fun k => nth k l 0)). rewrite seq_nth by exact Hn. reflexivity.
Qed.
Lemma load_store m a n v : load (store m a n v) a n = v mod 2 ^ (8 * Z.of_nat n).
Proof.
  rewrite <- le_val_le_bytes. unfold load. f_equal. rewrite <- (map_nth_seq (le_bytes n v)) at 1. rewrite le_bytes_length. apply map_ext_in. intros k Hk. apply in_seq in Hk.
  unfold store. destruct (Z.leb_spec a (a + Z.of_nat k)); [|lia]. destruct (Z.ltb_spec (a + Z.of_nat k) (a + Z.of_nat n)); [|lia]. cbn [andb]. f_equal. lia.
Qed.
Lemma store_out m a n v x : x < a \/ a + Z.of_nat n <= x -> store m a n v x = m x.
Proof. intros H. unfold store. destruct (Z.leb_spec a x), (Z.ltb_spec x (a + Z.of_nat n)); try reflexivity; lia. Qed.

(** * Registers *)
Lemma low_low n k v : (n = 2 \/ n = 4) -> (k = 2 \/ k = 4) -> low n (low k v) = low (Z.min n k) v.
Proof.
  unfold low. intros [->| ->] [->| ->]; cbn [Z.min Z.compare Pos.compare Pos.compare_cont]; change (2 ^ (8 * 2)) with 65536; change (2 ^ (8 * 4)) with 4294967296; lia.
Qed.
Lemma low_range n v : (n = 2 \/ n = 4) -> 0 <= low n v < 2 ^ (8 * n).
Proof. intros H. unfold low. apply Z.mod_pos_bound. destruct H as [->| ->]; vm_compute; reflexivity. Qed.
Lemma low_small n v : 0 <= v < 2 ^ (8 * n) -> low n v = v.
Proof. intros H. unfold low. apply Z.mod_small. exact H. Qed.
(** the low [n] bytes written, the low [k] bytes read *)
Lemma set_low_le n k x v : (n = 2 \/ n = 4) -> (k = 2 \/ k = 4) -> k <= n -> low k (set_low n x v) = low k v.
Proof.
  unfold low, set_low, low. intros [->| ->] [->| ->] H; change (2 ^ (8 * 2)) with 65536; change (2 ^ (8 * 4)) with 4294967296; lia.
Qed.
Lemma set_low_gt x v : low 4 (set_low 2 x v) = low 4 x - low 2 x + low 2 v.
Proof. unfold low, set_low, low. change (2 ^ (8 * 2)) with 65536; change (2 ^ (8 * 4)) with 4294967296. lia. Qed.
Lemma low2_of_4 x y : low 4 x = low 4 y -> low 2 x = low 2 y.
Proof. intros H. pose proof (low_low 2 4 x) as A. pose proof (low_low 2 4 y) as B. change (Z.min 2 4) with 2 in A, B. rewrite <- A, <- B, H by auto. reflexivity. Qed.
Lemma set_low_keep n k x v y : (n = 2 \/ n = 4) -> (k = 2 \/ k = 4) -> low n v = low n y -> low k x = low k y -> low k (set_low n x v) = low k y.
Proof.
  intros Hn Hk Hv Hx. destruct Hn as [->| ->].
  - destruct Hk as [->| ->]; [rewrite set_low_le by auto with zarith; exact Hv|]. rewrite set_low_gt, Hv, Hx. rewrite (low2_of_4 x y Hx). lia.
  - rewrite set_low_le by (auto; destruct Hk as [->| ->]; lia). destruct Hk as [->| ->]; [apply low2_of_4; exact Hv|exact Hv].
Qed.
Definition rok (u : ureg) : Prop := match u with UG n r => (n = 2 \/ n = 4) | US r => True end.
Lemma width_ok w u : (w = 2 \/ w = 4) -> rok u -> width w u = 2 \/ width w u = 4.
Proof. destruct u; cbn; auto. Qed.
Lemma value_low m u : rok u -> forall w, (w = 2 \/ w = 4) -> value m u mod 2 ^ (8 * width w u) = value m u.
Proof.
  intros H w Hw. destruct u as [n r|r]; cbn [value width]; unfold low.
  - apply Z.mod_mod. cbn in H. destruct H as [->| ->]; vm_compute; discriminate.
  - apply Z.mod_small. change (2 ^ (8 * 2)) with 65536. destruct Hw as [->| ->]; [change (2 ^ (8 * 2)) with 65536|change (2 ^ (8 * 4)) with 4294967296]; lia.
Qed.
Lemma value_set m u v u' : rok u -> rok u' -> forall mr, v = value mr u -> value m u' = value mr u' -> value (set_reg m u v) u' = value mr u'.
Proof.
  intros H H' mr -> E. destruct u as [n r|r], u' as [n' r'|r']; cbn [value set_reg g sg] in *; try exact E.
  - destruct (Z.eq_dec r' r) as [->|N]; [rewrite upd_eq|rewrite upd_ne by exact N; exact E]. apply set_low_keep; auto. rewrite low_low by auto. f_equal. lia.
  - destruct (Z.eq_dec r' r) as [->|N]; [rewrite upd_eq|rewrite upd_ne by exact N; exact E]. rewrite !low_low by auto. reflexivity.
Qed.
Lemma value_set_self m u v : rok u -> forall mr, v = value mr u -> value (set_reg m u v) u = value mr u.
Proof.
  intros H mr ->. destruct u as [n r|r]; cbn [value set_reg g sg] in *; rewrite upd_eq.
  - rewrite set_low_le by (auto; lia). rewrite low_low by auto. f_equal. lia.
  - rewrite !low_low by auto. reflexivity.
Qed.
Lemma value_set_other m u v u' : (match u, u' with UG _ r, UG _ r' => r <> r' | US r, US r' => r <> r' | _, _ => True end) -> value (set_reg m u v) u' = value m u'.
Proof. intros H. destruct u as [n r|r], u' as [n' r'|r']; cbn [value set_reg g sg]; try reflexivity; rewrite upd_ne by auto; reflexivity. Qed.

(** * Pushing and popping *)
Definition widths (w : Z) (l : list ureg) : Z := fold_right (fun u s => width w u + s) 0 l.
Lemma widths_app w l r : widths w (l ++ r) = widths w l + widths w r.
Proof. induction l as [|u l IH]; [reflexivity|]. cbn [app widths fold_right]. fold (widths w (l ++ r)). fold (widths w l). lia. Qed.
Lemma widths_rev w l : widths w (rev l) = widths w l.
Proof. induction l as [|u l IH]; [reflexivity|]. cbn [rev]. rewrite widths_app, IH. cbn [widths fold_right]. fold (widths w l). lia. Qed.
Lemma widths_nonneg w l : (w = 2 \/ w = 4) -> Forall rok l -> 0 <= widths w l.
Proof. intros Hw. induction 1 as [|u l H _ IH]; [cbn; lia|]. cbn [widths fold_right]. fold (widths w l). pose proof (width_ok w u Hw H). lia. Qed.
(** the values of registers in the order they are popped *)
Fixpoint holds (w : Z) (mm : Z -> Z) (a : Z) (l : list ureg) (mr : machine) : Prop :=
  match l with [] => True | u :: r => load mm a (Z.to_nat (width w u)) = value mr u /\ holds w mm (a + width w u) r mr end.
Lemma holds_ext w l mr : (w = 2 \/ w = 4) -> Forall rok l -> forall mm mm' a, (forall x, a <= x < a + widths w l -> mm x = mm' x) -> holds w mm a l mr -> holds w mm' a l mr.
Proof.
  intros Hw. induction 1 as [|u l H HF IH]; intros mm mm' a He; [trivial|]. cbn [holds widths fold_right] in *. fold (widths w l) in He. pose proof (width_ok w u Hw H). pose proof (widths_nonneg w l Hw HF). intros [G1 G2]. split.
  - rewrite <- G1. apply load_ext. intros x Hx. symmetry. apply He. lia.
  - eapply IH; [|exact G2]. intros x Hx. apply He. lia.
Qed.
Lemma holds_regs w l mm a mr mr' : (forall u, In u l -> value mr u = value mr' u) -> holds w mm a l mr -> holds w mm a l mr'.
Proof. revert a. induction l as [|u l IH]; intros a H; [trivial|]. cbn [holds]. intros [H1 H2]. split; [rewrite H1; apply H; left; reflexivity|]. apply IH; [|exact H2]. intros v Hv. apply H. right. exact Hv. Qed.
Lemma push_one o d m u : (ws o = 2 \/ ws o = 4) -> rok u -> let m' := step o d m (LPush u) in
  sp m' = sp m - width (ws o) u /\ g m' = g m /\ sg m' = sg m /\ load (mem m') (sp m') (Z.to_nat (width (ws o) u)) = value m u /\
  forall x, x < sp m' \/ sp m <= x -> mem m' x = mem m x.
Proof.
  intros Hw H. cbn [step push]. unfold push. cbn [sp g sg mem]. pose proof (width_ok _ u Hw H) as W. repeat split.
  - rewrite load_store. rewrite Z2Nat.id by lia. apply value_low; assumption.
  - intros x Hx. apply store_out. rewrite Z2Nat.id by lia. lia.
Qed.
Lemma value_eq m m' u : g m' = g m -> sg m' = sg m -> value m' u = value m u.
Proof. intros H1 H2. destruct u; cbn [value]; rewrite ?H1, ?H2; reflexivity. Qed.
Lemma pushes o d l : (ws o = 2 \/ ws o = 4) -> Forall rok l -> forall m done, holds (ws o) (mem m) (sp m) done m -> Forall rok done ->
  let m' := run o d m (map LPush l) in
  sp m' = sp m - widths (ws o) l /\ g m' = g m /\ sg m' = sg m /\ holds (ws o) (mem m') (sp m') (rev l ++ done) m /\ (forall x, sp m <= x -> mem m' x = mem m x).
Proof.
  intros Hw. induction 1 as [|u l H HF IH]; intros m done Hd Ho.
  - cbn. repeat split; auto. lia.
  - cbn [map]. change (run o d m (LPush u :: map LPush l)) with (run o d (step o d m (LPush u)) (map LPush l)). destruct (push_one o d m u Hw H) as (P1 & P2 & P3 & P4 & P5). set (m1 := step o d m (LPush u)) in *. clearbody m1.
    assert (V : forall v, value m1 v = value m v) by (intros v; apply value_eq; assumption). pose proof (width_ok _ u Hw H) as W.
    destruct (IH m1 (u :: done)) as (Q1 & Q2 & Q3 & Q4 & Q5).
    + cbn [holds]. rewrite V. split; [exact P4|]. rewrite P1. replace (sp m - width (ws o) u + width (ws o) u) with (sp m) by lia. apply holds_regs with (mr := m); [intros v _; symmetry; apply V|].
      eapply holds_ext; [exact Hw|exact Ho| |exact Hd]. intros x Hx. symmetry. apply P5. lia.
    + constructor; assumption.
    + cbn zeta in *. cbn [widths fold_right]. fold (widths (ws o) l). repeat split.
      * lia.
      * congruence.
      * congruence.
      * cbn [rev]. rewrite <- app_assoc. cbn [app]. eapply holds_regs; [|exact Q4]. intros v _. apply V.
      * intros x Hx. rewrite Q5 by lia. apply P5. lia.
Qed.
Lemma pop_one o d m u mr : (ws o = 2 \/ ws o = 4) -> rok u -> load (mem m) (sp m) (Z.to_nat (width (ws o) u)) = value mr u ->
  let m' := step o d m (LPop u) in
  sp m' = sp m + width (ws o) u /\ mem m' = mem m /\ value m' u = value mr u /\
  (forall v, rok v -> value m v = value mr v -> value m' v = value mr v) /\
  (forall v, (match u, v with UG _ r, UG _ r' => r <> r' | US r, US r' => r <> r' | _, _ => True end) -> value m' v = value m v) /\
  (forall r, (match u with UG _ r' => r' <> r | US _ => True end) -> g m' r = g m r) /\ (forall r, (match u with US r' => r' <> r | UG _ _ => True end) -> sg m' r = sg m r).
Proof.
  intros Hw H E. cbn [step]. unfold pop. rewrite E. set (m1 := set_sp m (sp m + width (ws o) u)).
  split; [destruct u; reflexivity|]. split; [destruct u; reflexivity|]. split; [apply value_set_self; auto|]. split.
  - intros v Hv Ev. apply value_set; auto.
  - split; [intros v Hv; rewrite value_set_other by exact Hv; reflexivity|]. split; intros r Hr; destruct u; cbn; try reflexivity; apply upd_ne; congruence.
Qed.
Lemma pops o d mr l : (ws o = 2 \/ ws o = 4) -> Forall rok l -> forall m, holds (ws o) (mem m) (sp m) l mr ->
  let m' := run o d m (map LPop l) in
  sp m' = sp m + widths (ws o) l /\ mem m' = mem m /\ (forall u, In u l -> value m' u = value mr u) /\
  (forall u, rok u -> value m u = value mr u -> value m' u = value mr u) /\
  (forall r, (forall n, ~ In (UG n r) l) -> g m' r = g m r) /\ (forall r, ~ In (US r) l -> sg m' r = sg m r).
Proof.
  intros Hw. induction 1 as [|u l H HF IH]; intros m Hm.
  - cbn. repeat split; auto; try contradiction. lia.
  - cbn [map]. change (run o d m (LPop u :: map LPop l)) with (run o d (step o d m (LPop u)) (map LPop l)). cbn [holds] in Hm. destruct Hm as [Hm1 Hm2].
    destruct (pop_one o d m u mr Hw H Hm1) as (P1 & P2 & P3 & P4 & P5 & P6 & P7). set (m1 := step o d m (LPop u)) in *. clearbody m1.
    destruct (IH m1) as (Q1 & Q2 & Q3 & Q4 & Q5 & Q6); [rewrite P1, P2; exact Hm2|]. cbn zeta in *. cbn [widths fold_right]. fold (widths (ws o) l).
    split; [lia|]. split; [congruence|]. split; [|split; [|split]].
    + intros v [<-|Hv]; [|apply Q3; exact Hv]. apply Q4; [exact H|exact P3].
    + intros v Hv Ev. apply Q4; [exact Hv|]. apply P4; assumption.
    + intros r Hr. rewrite Q5 by (intros n X; apply (Hr n); right; exact X). apply P6. destruct u as [n r'|]; [|exact Logic.I]. intros ->. apply (Hr n). left. reflexivity.
    + intros r Hr. rewrite Q6 by (intros X; apply Hr; right; exact X). apply P7. destruct u as [|r']; [exact Logic.I|]. intros ->. apply Hr. left. reflexivity.
Qed.

(** * Normal forms *)
Definition framed (o : options) (p : proc) : bool := has_frame o p && negb (uses_sp o).
Definition fb (o : options) (p : proc) : Z := if framed o p then ws o else 0.
Definition ld (o : options) (p : proc) : Z := if loadds p then ws o else 0.
Lemma placed_tight w n l m ofs : placed w n l m ofs -> m + 4 * zlen l <= n + need l.
Proof. induction 1 as [|n x r k m ofs H1 H2 H3 _ IH]; [change (n + 4 * 0 <= n + 0); lia|]. rewrite zlen_cons. cbn [need fold_right]. fold (need r). lia. Qed.
Lemma whole_ok o p : opts_ok o -> locals_ok p ->
  0 <= whole o p < 2 ^ 31 /\ whole o p mod ws o = 0 /\ (whole o p = 0 <-> locals p = []) /\
  exists n, placed (ws o) 0 (locals p) n (raw o p) /\ 0 <= n <= whole o p.
Proof.
  intros (Hw & _) (Hg & Hb). change (Forall good (locals p)) in Hg. change (need (locals p) < 2 ^ 31) in Hb. pose proof (loop_placed o (locals p) Hw Hg 0 (Z.le_refl 0)) as HP. specialize (HP ltac:(lia)).
  unfold whole, raw. destruct (local_loop o 0 (locals p)) as [n ofs] eqn:E. cbn [fst snd]. pose proof (placed_range _ _ _ _ _ HP Hg) as R.
  assert (Hr : ws o = 1 \/ ws o = 2 \/ ws o = 4) by tauto. pose proof (round_spec n (ws o) Hr) as [R1 R2]. assert (P31 : 2 ^ 31 = 2147483648) by reflexivity.
  assert (N8 : locals p <> [] -> n + 4 <= need (locals p)).
  { intros Hn. pose proof (placed_tight _ _ _ _ _ HP) as T. destruct (locals p) as [|x r]; [contradiction|]. rewrite zlen_cons in T. pose proof (zlen_nonneg r). lia. }
  assert (S0 : swrap 32 (ROUND_UP n (ws o)) = ROUND_UP n (ws o)).
  { apply swrap_small; [lia|]. change (32 - 1) with 31. destruct (locals p) as [|x r] eqn:El; [cbn in E; apply pair_equal_spec in E as [<- <-]|specialize (N8 ltac:(discriminate))]; lia. }
  rewrite S0. split; [|split; [exact R2|]].
  - destruct (locals p) as [|x r] eqn:El; [cbn in E; apply pair_equal_spec in E as [<- <-]|specialize (N8 ltac:(discriminate))]; lia.
  - split; [|exists n; split; [exact HP|lia]]. split.
    + intros H0. destruct (locals p) as [|x r] eqn:El; [reflexivity|]. exfalso. pose proof (placed_pos _ _ _ _ _ HP Hg ltac:(discriminate)). lia.
    + intros H0. rewrite H0 in E. cbn in E. apply pair_equal_spec in E as [<- <-]. destruct Hw as [-> | ->]; reflexivity.
Qed.
Definition alloc (o : options) (p : proc) : list line := if whole o p =? 0 then [] else [if o_lea o then LLea (- whole o p) else LSub (whole o p)].
Definition enter_lines (o : options) (p : proc) : list line :=
  (if framed o p then [LPush (frame_reg o); LMov] else []) ++ alloc o p ++ (if loadds p then [LPush (US 3); LLoadDs] else []) ++ map LPush (uses p).
Lemma fpo_frame o p : lang_ok p -> final_fpo o p = true -> uses_sp o = false -> has_frame o p = false.
Proof.
  intros Hl H U. unfold final_fpo in H. rewrite U in H. cbn [orb] in H. apply andb_true_iff in H as [H H3]. apply andb_true_iff in H as [H1 H2]. destruct (has_frame o p) eqn:F; [|reflexivity]. exfalso. apply has_frame_eq in F; [|exact Hl].
  destruct F as [F|[(k & Hk & _)|F]].
  - destruct (locals p); [congruence|discriminate].
  - destruct (params p); [cbn in Hk; lia|discriminate].
  - rewrite F in H1. discriminate.
Qed.
Lemma framed_fpo o p : lang_ok p -> framed o p = has_frame o p && negb (final_fpo o p).
Proof.
  intros Hl. unfold framed. destruct (uses_sp o) eqn:U; [unfold final_fpo; rewrite U; reflexivity|]. cbn [negb]. destruct (final_fpo o p) eqn:F; [|reflexivity]. rewrite (fpo_frame o p Hl F U). reflexivity.
Qed.
Lemma prologue_form o p i : proc_ok o p -> settled o p i -> forallb (line_ok o) (generic_prologue o false p i) = true -> generic_prologue o false p i = enter_lines o p.
Proof.
  intros (Ho & _ & _ & Hl & Hg & Hd) (S1 & S2 & _ & _) Hok. destruct (whole_ok o p Ho Hl) as (W1 & W2 & W3 & _). unfold generic_prologue in *. rewrite S1, S2 in *. destruct (_ && negb (final_fpo o p)) eqn:E.
  - rewrite !andb_true_iff, !negb_true_iff in E. destruct E as [[[[[E1 E2] E3] E4] E5] E6]. apply Z.eqb_eq in E2. assert (L0 : locals p = []) by tauto. destruct (uses p) as [|u r] eqn:U; [|discriminate].
    unfold enter_lines, alloc. rewrite E2, U. cbn [Z.eqb map]. assert (F : has_frame o p = false) by (unfold has_frame; rewrite L0, E3, E4, E1; reflexivity). unfold framed. rewrite F. cbn [andb app].
    destruct (loadds p) eqn:D; [|reflexivity]. exfalso. destruct (Hd D) as (_ & Us & _ & [X|[X|X]]); [congruence|apply has_frame_eq in X; [congruence|exact Hg]|].
    unfold final_fpo in E6. rewrite Us, X, L0, E1 in E6. discriminate.
  - match goal with |- ?A ++ _ = _ => assert (X : A = []) end.
    { rewrite forallb_app in Hok. apply andb_true_iff in Hok as [Hok _]. match type of Hok with forallb _ (if ?b then _ else _) = true => destruct b end; [discriminate|reflexivity]. }
    rewrite X. cbn [app]. unfold enter_lines, alloc. rewrite (framed_fpo o p Hg). destruct (whole o p =? 0); reflexivity.
Qed.
Definition leave_lines (o : options) (p : proc) : list line :=
  if framed o p then (if pe_type o then [LLeave] else (if whole o p =? 0 then [] else [LMovSp]) ++ [LPop (frame_reg o)])
  else if has_frame o p then (if o_lea o then [LLea (whole o p)] else if whole o p =? 0 then [] else [LAdd (whole o p)]) else [].
Lemma epilogue_form o p i : lang_ok p -> settled o p i ->
  generic_epilogue o p i = map LPop (rev (uses p)) ++ (if loadds p then [LPop (US 3)] else []) ++ leave_lines o p.
Proof.
  intros Hg (S1 & S2 & _ & _). unfold generic_epilogue, leave_lines. rewrite S1, S2. rewrite (framed_fpo o p Hg). f_equal. f_equal. destruct (has_frame o p); cbn [negb andb]; [|reflexivity].
  destruct (final_fpo o p); cbn [negb]; [rewrite andb_false_r|rewrite andb_true_r]; destruct (whole o p =? 0); reflexivity.
Qed.

(** * Entering *)
Lemma rok_of o l : Forall (reg_ok o) l -> Forall rok l.
Proof. intros H. eapply Forall_impl; [|exact H]. intros [n r|r]; cbn; tauto. Qed.
Lemma run_alloc o p d m : run o d m (alloc o p) = set_sp m (sp m - whole o p).
Proof.
  unfold alloc. destruct (Z.eqb_spec (whole o p) 0) as [E|E]; [rewrite E; destruct m; unfold set_sp; cbn; f_equal; lia|]. destruct (o_lea o); cbn; [f_equal; lia|reflexivity].
Qed.
Lemma base_value o m : value m (frame_reg o) = the_base o m.
Proof. reflexivity. Qed.
Lemma to_nat_w o : (ws o = 2 \/ ws o = 4) -> Z.of_nat (Z.to_nat (ws o)) = ws o.
Proof. lia. Qed.
Lemma enters o p d m0 : proc_ok o p -> room o p (whole o p) m0 -> let m1 := run o d m0 (enter_lines o p) in
  sp m1 = sp m0 - fb o p - whole o p - ld o p - widths (ws o) (uses p) /\
  (framed o p = true -> the_base o m1 = sp m0 - ws o /\ g m1 (basereg o) = set_low (ws o) (g m0 (basereg o)) (sp m0 - ws o)) /\
  (forall r, (framed o p = true -> r <> basereg o) -> (loadds p = true -> r <> 0) -> g m1 r = g m0 r) /\
  (loadds p = true -> g m1 0 = set_low 2 (g m0 0) d /\ sg m1 3 = low 2 d) /\
  (forall r, (loadds p = true -> r <> 3) -> sg m1 r = sg m0 r) /\
  holds (ws o) (mem m1) (sp m1) (rev (uses p)) m1 /\
  (loadds p = true -> load (mem m1) (sp m0 - fb o p - whole o p - ws o) (Z.to_nat (ws o)) = value m0 (US 3)) /\
  (framed o p = true -> load (mem m1) (sp m0 - ws o) (Z.to_nat (ws o)) = value m0 (frame_reg o)) /\
  (forall x, sp m0 <= x -> mem m1 x = mem m0 x).
Proof.
  intros (Ho & Hr & _ & Hl & Hg & Hd) Hroom. destruct (whole_ok o p Ho Hl) as (W1 & _). pose proof Ho as (Hw & Hb & _). apply rok_of in Hr. pose proof (widths_nonneg _ _ Hw Hr) as Wn.
  unfold room, saved_bytes in Hroom. fold (widths (ws o) (uses p)) in Hroom. change (if loadds p then ws o else 0) with (ld o p) in Hroom. cbv zeta. unfold enter_lines.
  (* the frame *)
  rewrite run_app. set (ma := run o d m0 (if framed o p then _ else _)).
  assert (A : sp ma = sp m0 - fb o p /\ sg ma = sg m0 /\ (forall r, (framed o p = true -> r <> basereg o) -> g ma r = g m0 r) /\
    (framed o p = true -> g ma (basereg o) = set_low (ws o) (g m0 (basereg o)) (sp m0 - ws o) /\ load (mem ma) (sp m0 - ws o) (Z.to_nat (ws o)) = value m0 (frame_reg o)) /\
    (forall x, sp m0 <= x -> mem ma x = mem m0 x)).
  { unfold ma, fb. destruct (framed o p).
    - change (run o d m0 [LPush (frame_reg o); LMov]) with (step o d (step o d m0 (LPush (frame_reg o))) LMov). destruct (push_one o d m0 (frame_reg o) Hw) as (P1 & P2 & P3 & P4 & P5); [exact Hw|]. set (m' := step o d m0 (LPush (frame_reg o))) in *. clearbody m'.
      cbn [width frame_reg] in *. cbn [step set_reg sp g sg mem]. rewrite P1, P2 in *. repeat split; auto.
      + intros r Hn. apply upd_ne. auto.
      + rewrite upd_eq. reflexivity.
    - cbn. repeat split; auto; try discriminate. lia. }
  clearbody ma. destruct A as (A1 & A2 & A3 & A4 & A5).
  (* the locals *)
  rewrite run_app, run_alloc. rewrite run_app. set (mb := set_sp ma _). set (mc := run o d mb (if loadds p then _ else _)).
  assert (C : sp mc = sp m0 - fb o p - whole o p - ld o p /\
    (forall r, (loadds p = true -> r <> 0) -> g mc r = g ma r) /\ (forall r, (loadds p = true -> r <> 3) -> sg mc r = sg ma r) /\
    (loadds p = true -> g mc 0 = set_low 2 (g ma 0) d /\ sg mc 3 = low 2 d /\ load (mem mc) (sp m0 - fb o p - whole o p - ws o) (Z.to_nat (ws o)) = value m0 (US 3)) /\
    (forall x, sp m0 - fb o p - whole o p <= x -> mem mc x = mem ma x)).
  { unfold mc, ld. assert (B1 : sp mb = sp m0 - fb o p - whole o p) by (unfold mb; cbn; lia). destruct (loadds p).
    - change (run o d mb [LPush (US 3); LLoadDs]) with (step o d (step o d mb (LPush (US 3))) LLoadDs). destruct (push_one o d mb (US 3) Hw Logic.I) as (P1 & P2 & P3 & P4 & P5). set (m' := step o d mb (LPush (US 3))) in *. clearbody m'.
      cbn [width] in *. rewrite P1, B1 in P4. cbn [step set_reg sp g sg mem]. rewrite P1, P2, P3 in *. rewrite B1. repeat split.
      + intros r Hn. apply upd_ne. auto.
      + intros r Hn. apply upd_ne. auto.
      + rewrite P4. cbn [value]. unfold mb. cbn [set_sp sg]. rewrite A2. reflexivity.
      + intros x Hx. rewrite P5 by lia. reflexivity.
    - cbn [run fold_left]. repeat split; auto; try discriminate. lia. }
  clearbody mc. clear mb. destruct C as (C1 & C2 & C3 & C4 & C5).
  (* the registers *)
  destruct (pushes o d (uses p) Hw Hr mc [] Logic.I (Forall_nil _)) as (Q1 & Q2 & Q3 & Q4 & Q5). set (m1 := run o d mc (map LPush (uses p))) in *. clearbody m1. rewrite app_nil_r in Q4. cbn zeta in *.
  assert (F0 : 0 <= fb o p <= ws o) by (unfold fb; destruct (framed o p); lia). assert (L0 : 0 <= ld o p <= ws o) by (unfold ld; destruct (loadds p); lia).
  assert (BN : loadds p = true -> basereg o <> 0) by (intros X; apply Hd in X; tauto).
  split; [lia|]. split; [|split; [|split; [|split; [|split; [|split; [|split]]]]]].
  - intros F. assert (E : g m1 (basereg o) = set_low (ws o) (g m0 (basereg o)) (sp m0 - ws o)) by (rewrite Q2, C2 by auto; apply A4; exact F). split; [|exact E].
    unfold the_base. rewrite E. rewrite set_low_le by (auto; lia). apply low_small. lia.
  - intros r R1 R2. rewrite Q2, C2 by exact R2. apply A3. exact R1.
  - intros D. rewrite Q2, Q3. destruct (C4 D) as (E1 & E2 & _). rewrite E1, E2. split; [|reflexivity]. f_equal. apply A3. intros _ X. apply (BN D). congruence.
  - intros r R1. rewrite Q3, C3 by exact R1. rewrite A2. reflexivity.
  - eapply holds_regs; [|exact Q4]. intros u _. symmetry. apply value_eq; assumption.
  - intros D. destruct (C4 D) as (_ & _ & E3). rewrite <- E3. apply load_ext. intros x Hx. rewrite Q5; [reflexivity|]. unfold ld in C1. rewrite D in C1. rewrite to_nat_w in Hx by exact Hw. lia.
  - intros F. destruct (A4 F) as [_ E]. rewrite <- E. apply load_ext. intros x Hx. unfold fb in *. rewrite F in *. rewrite to_nat_w in Hx by exact Hw. rewrite Q5 by lia. apply C5. lia.
  - intros x Hx. rewrite Q5 by lia. rewrite C5 by lia. apply A5. exact Hx.
Qed.

(** * Addresses *)
Lemma word_widths o l : Forall (word_reg o) l -> widths (ws o) l = zlen l * ws o.
Proof.
  induction 1 as [|u l H _ IH]; [reflexivity|]. cbn [widths fold_right]. fold (widths (ws o) l). rewrite zlen_cons, IH. destruct u; cbn [width word_reg] in *; lia.
Qed.
Definition at_entry (o : options) (p : proc) (m0 m1 : machine) : Prop :=
  sp m1 = sp m0 - fb o p - whole o p - ld o p - widths (ws o) (uses p) /\ (framed o p = true -> the_base o m1 = sp m0 - ws o).
Lemma base_sp o p m0 m1 : proc_ok o p -> at_entry o p m0 m1 -> uses_sp o = true -> base o m1 = sp m0 - whole o p - zlen (uses p) * ws o.
Proof.
  intros (Ho & Hr & Hws & _ & _ & Hd) (E1 & _) U. unfold base. rewrite U. rewrite E1, (word_widths o (uses p) (Hws U)). unfold fb, framed, ld. rewrite U. rewrite andb_false_r. destruct (loadds p) eqn:D; [|lia].
  destruct (Hd D) as (_ & X & _). congruence.
Qed.
Lemma base_frame o p m0 m1 : lang_ok p -> at_entry o p m0 m1 -> uses_sp o = false -> needs_frame o p -> base o m1 = sp m0 - ws o.
Proof. intros Hg (_ & E) U N. unfold base. rewrite U. apply E. unfold framed. rewrite U. apply has_frame_eq in N; [|exact Hg]. rewrite N. reflexivity. Qed.
Lemma needs_framed o p : lang_ok p -> needs_frame o p -> uses_sp o = false -> framed o p = true.
Proof. intros Hg N U. unfold framed. rewrite U. apply has_frame_eq in N; [|exact Hg]. rewrite N. reflexivity. Qed.
Lemma framed_needs o p : lang_ok p -> framed o p = true -> needs_frame o p /\ uses_sp o = false.
Proof. intros Hg N. unfold framed in N. apply andb_true_iff in N as [N1 N2]. split; [apply has_frame_eq; assumption|]. destruct (uses_sp o); [discriminate|reflexivity]. Qed.
Lemma local_addr o p m0 m1 : proc_ok o p -> at_entry o p m0 m1 ->
  map (fun x => base o m1 + x) (final_local o p) = map (fun x => sp m0 - fb o p + x) (raw o p).
Proof.
  intros Hp He. unfold final_local. destruct (uses_sp o) eqn:U.
  - rewrite (base_sp o p m0 m1 Hp He U). rewrite map_map. apply map_ext. intros x. unfold fb, framed. rewrite U, andb_false_r. lia.
  - destruct Hp as (Ho & _ & _ & Hl & Hg & _). destruct (locals p) as [|x r] eqn:L; [unfold raw; rewrite L; reflexivity|].
    assert (N : needs_frame o p) by (left; rewrite L; discriminate). rewrite (base_frame o p m0 m1 Hg He U N). unfold fb. rewrite (needs_framed o p Hg N U). apply map_ext. intros y. lia.
Qed.
Lemma ranges_map p l b : ranges p l b = map (fun '(x, a) => (a, a + size_of x)) (combine (locals p) (map (fun y => b + y) l)).
Proof. unfold ranges. generalize (locals p). induction l as [|y l IH]; intros [|x ls]; try reflexivity. cbn [combine map]. rewrite IH. reflexivity. Qed.
Lemma ranges_eq o p m0 m1 : proc_ok o p -> at_entry o p m0 m1 -> ranges p (final_local o p) (base o m1) = ranges p (raw o p) (sp m0 - fb o p).
Proof. intros Hp He. rewrite !ranges_map. rewrite (local_addr o p m0 m1 Hp He). reflexivity. Qed.
Lemma Forall2_map_r {A B C} (P : A -> C -> Prop) (f : B -> C) l1 l2 : Forall2 P l1 (map f l2) <-> Forall2 (fun a b => P a (f b)) l1 l2.
Proof.
  split.
  - revert l2. induction l1 as [|a l1 IH]; intros [|b l2] H; inversion H; subst; constructor; auto.
  - induction 1; constructor; auto.
Qed.
Lemma locals_at o p m0 m1 : proc_ok o p -> at_entry o p m0 m1 ->
  Forall2 (fun l x => let a := base o m1 + x in sp m0 - fb o p - whole o p <= a /\ a + size_of l <= sp m0 - fb o p /\ (sp m0 mod ws o = 0 -> a mod natural (ws o) (l_elem l) = 0)) (locals p) (final_local o p) /\
  ForallOrdPairs (fun x y => fst x <= snd x /\ fst y <= snd y /\ (snd x <= fst y \/ snd y <= fst x)) (ranges p (final_local o p) (base o m1)).
Proof.
  intros Hp He. rewrite (ranges_eq o p m0 m1 Hp He). pose proof (local_addr o p m0 m1 Hp He) as LA. destruct Hp as (Ho & _ & _ & Hl & Hg & _). destruct (whole_ok o p Ho Hl) as (W1 & W2 & W3 & n & HP & Hn). pose proof Ho as (Hw & _).
  destruct Hl as [Hgd _]. change (Forall good (locals p)) in Hgd. split; [|exact (placed_apart _ _ _ _ _ _ Hw HP Hgd)].
  apply (Forall2_map_r (fun l a => sp m0 - fb o p - whole o p <= a /\ a + size_of l <= sp m0 - fb o p /\ (sp m0 mod ws o = 0 -> a mod natural (ws o) (l_elem l) = 0)) (fun x => base o m1 + x)). rewrite LA. apply Forall2_map_r.
  pose proof (placed_all _ _ _ _ _ Hw HP Hgd) as H. clear - H Hw Hn Hgd. induction H as [|l x ls xs (H1 & H2 & H3) _ IH]; constructor; [|apply IH; apply Forall_cons_iff in Hgd; tauto].
  split; [lia|]. split; [lia|]. intros Hs. apply Forall_cons_iff in Hgd as [[X1 _] _]. pose proof (natural_ok (ws o) (l_elem l) Hw X1) as N.
  assert (D : exists k, ws o = k * natural (ws o) (l_elem l)).
  { unfold natural in *. destruct (Z.geb_spec (l_elem l) (ws o)); [exists 1; lia|]. destruct Hw as [Hw|Hw]; rewrite Hw in *; cbn [Z.eqb Pos.eqb andb] in *; [exists 2; lia|]. destruct (l_elem l =? 3); [exists 1; lia|]. exists (4 / l_elem l). destruct N as [N|[N|N]]; rewrite N; reflexivity. }
  destruct D as [k Dk]. set (q := natural (ws o) (l_elem l)) in *. assert (A : (sp m0 - fb o p) mod ws o = 0) by (unfold fb; destruct (framed o p); destruct Hw as [Hw|Hw]; rewrite Hw in *; lia).
  apply Z.mod_divide in A; [|lia]. destruct A as [j A]. rewrite A. apply Z.mod_divide in H3; [|lia]. destruct H3 as [i H3]. rewrite H3, Dk. replace (j * (k * q) + i * q) with ((j * k + i) * q) by lia. apply Z_mod_mult.
Qed.
Lemma params_at o p m0 m1 k : proc_ok o p -> at_entry o p m0 m1 -> (k < length (params p))%nat ->
  nth_error (in_source_order o p (final_para o p)) k = Some (if in_register o p k then None else Some (sp m0 + arg_place o p k - base o m1)).
Proof.
  intros Hp He Hk. pose proof Hp as (Ho & _ & _ & _ & Hg & _). pose proof (para_start_nth o p k Ho Hk) as N. unfold final_para. destruct (uses_sp o) eqn:U.
  - rewrite in_source_map, nth_error_map, N. cbn [option_map]. rewrite (base_sp o p m0 m1 Hp He U). destruct (in_register o p k); cbn [option_map]; [reflexivity|]. f_equal. f_equal. lia.
  - rewrite N. destruct (in_register o p k) eqn:R; [reflexivity|]. assert (NF : needs_frame o p) by (right; left; exists k; auto). rewrite (base_frame o p m0 m1 Hg He U NF). f_equal. f_equal. lia.
Qed.

(** * Leaving *)
Lemma leave_run o p d m0 m : proc_ok o p ->
  sp m = sp m0 - fb o p - whole o p -> (framed o p = true -> the_base o m = sp m0 - ws o /\ load (mem m) (sp m0 - ws o) (Z.to_nat (ws o)) = value m0 (frame_reg o)) ->
  let m' := run o d m (leave_lines o p) in
  sp m' = sp m0 /\ mem m' = mem m /\ sg m' = sg m /\ (forall r, (framed o p = true -> r <> basereg o) -> g m' r = g m r) /\
  (framed o p = true -> g m' (basereg o) = set_low (ws o) (g m (basereg o)) (value m0 (frame_reg o))).
Proof.
  intros (Ho & _ & _ & Hl & Hg & _) Hs Hf. pose proof Ho as (Hw & _). destruct (whole_ok o p Ho Hl) as (_ & _ & W3 & _). unfold leave_lines, fb in *. destruct (framed o p) eqn:F.
  - destruct (Hf eq_refl) as [B1 B2]. cbv zeta.
    assert (G : forall x, sp x = sp m0 - ws o -> mem x = mem m -> sg x = sg m -> g x = g m -> let m' := pop (ws o) x (UG (ws o) (basereg o)) in
      sp m' = sp m0 /\ mem m' = mem m /\ sg m' = sg m /\ (forall r, (true = true -> r <> basereg o) -> g m' r = g m r) /\ (true = true -> g m' (basereg o) = set_low (ws o) (g m (basereg o)) (value m0 (frame_reg o)))).
    { intros x X1 X2 X3 X4. cbv zeta. unfold pop. cbn [width set_reg set_sp sp g sg mem]. rewrite X1, X2, X3, X4, B2. repeat split; auto; [lia|intros r Hr; apply upd_ne; auto|intros _; apply upd_eq]. }
    destruct (pe_type o); [apply (G (set_sp m (the_base o m))); auto|]. destruct (whole o p =? 0) eqn:W.
    + apply (G m); auto. apply Z.eqb_eq in W. lia.
    + apply (G (set_sp m (the_base o m))); auto.
  - assert (Z0 : has_frame o p = false -> whole o p = 0). { intros H. apply W3. unfold has_frame in H. rewrite !orb_false_iff in H. destruct H as [[[H _] _] _]. destruct (locals p); [reflexivity|discriminate]. }
    cbv zeta. destruct (has_frame o p).
    + destruct (o_lea o); [cbn; repeat split; auto; try discriminate; lia|]. destruct (Z.eqb_spec (whole o p) 0) as [E|E]; cbn; repeat split; auto; try discriminate; lia.
    + cbn. rewrite (Z0 eq_refl) in Hs. repeat split; auto; try discriminate. lia.
Qed.

Lemma returns o p d m0 m2 : proc_ok o p -> room o p (whole o p) m0 ->
  body o p m0 (run o d m0 (enter_lines o p)) m2 (final_local o p) ->
  let m3 := run o d m2 (map LPop (rev (uses p)) ++ (if loadds p then [LPop (US 3)] else []) ++ leave_lines o p) in
  sp m3 = sp m0 /\ mem m3 = mem m2 /\ (forall a, sp m0 <= a < sp m0 + ra o p -> mem m3 a = mem m0 a) /\
  (forall u, kept o p u -> value m3 u = value m0 u) /\
  (forall r, (forall n, ~ kept o p (UG n r)) -> g m3 r = g m2 r) /\ (forall r, ~ kept o p (US r) -> sg m3 r = sg m2 r).
Proof.
  intros Hp Hroom Hb. destruct (enters o p d m0 Hp Hroom) as (E1 & E2 & E3 & E4 & E5 & E6 & E7 & E8 & E9). set (m1 := run o d m0 (enter_lines o p)) in *. clearbody m1. cbv zeta in *.
  assert (He : at_entry o p m0 m1) by (split; [exact E1|intros F; apply E2; exact F]). destruct Hb as (B1 & B2 & B3). rewrite (ranges_eq o p m0 m1 Hp He) in B3.
  pose proof Hp as (Ho & Hr & _ & Hl & Hg & Hd). destruct (whole_ok o p Ho Hl) as (W1 & W2 & W3 & n & HP & Hn). pose proof Ho as (Hw & Hbr & _). apply rok_of in Hr. pose proof (widths_nonneg _ _ Hw Hr) as Wn.
  assert (F0 : 0 <= fb o p) by (unfold fb; destruct (framed o p); lia). assert (L0 : 0 <= ld o p) by (unfold ld; destruct (loadds p); lia).
  assert (R0 : 0 < ra o p) by (unfold ra; destruct (far p); lia).
  assert (B4 : forall a, sp m1 <= a < sp m0 + ra o p -> a < sp m0 - fb o p - whole o p \/ sp m0 - fb o p <= a -> mem m2 a = mem m1 a).
  { intros a Ha Hx. apply B3; [exact Ha|]. intros [x y] Hin Hc. cbn [fst snd] in Hc. apply in_map_iff in Hin as ([l ofs] & E & Hin). apply pair_equal_spec in E as [<- <-].
    assert (Q : - n <= ofs /\ ofs + size_of l <= 0).
    { destruct Hl as [Hgd _]. pose proof (placed_all _ _ _ _ _ Hw HP Hgd) as PA. clear - PA Hin. induction PA as [|a b la lb Hab _ IH]; cbn in Hin; [contradiction|]. destruct Hin as [E|Hin]; [apply pair_equal_spec in E as [<- <-]; lia|apply IH; exact Hin]. }
    lia. }
  assert (Hh : holds (ws o) (mem m2) (sp m2) (rev (uses p)) m1).
  { rewrite B1. eapply holds_ext; [exact Hw|apply Forall_rev; exact Hr| |exact E6]. intros x Hx. rewrite widths_rev in Hx. symmetry. apply B4; lia. }
  rewrite run_app. destruct (pops o d m1 (rev (uses p)) Hw (Forall_rev Hr) m2 Hh) as (P1 & P2 & P3 & P4 & P5 & P6). set (ma := run o d m2 (map LPop (rev (uses p)))) in *. clearbody ma. rewrite widths_rev in P1. cbv zeta in *.
  rewrite run_app. set (mb := run o d ma (if loadds p then _ else _)).
  assert (C : sp mb = sp m0 - fb o p - whole o p /\ mem mb = mem m2 /\ g mb = g ma /\ (loadds p = true -> sg mb 3 = low 2 (sg m0 3)) /\ (forall r, (loadds p = true -> r <> 3) -> sg mb r = sg ma r)).
  { unfold mb, ld in *. destruct (loadds p) eqn:D.
    - change (run o d ma [LPop (US 3)]) with (step o d ma (LPop (US 3))). cbn [step]. unfold pop. cbn [width set_reg set_sp sp g sg mem]. rewrite P1, P2, B1, E1.
      assert (LD : load (mem m2) (sp m0 - fb o p - whole o p - ws o - widths (ws o) (uses p) + widths (ws o) (uses p)) (Z.to_nat (ws o)) = value m0 (US 3)).
      { replace (sp m0 - fb o p - whole o p - ws o - widths (ws o) (uses p) + widths (ws o) (uses p)) with (sp m0 - fb o p - whole o p - ws o) by lia. rewrite <- (E7 eq_refl). apply load_ext. intros x Hx. rewrite to_nat_w in Hx by exact Hw. apply B4; lia. }
      rewrite LD. repeat split; auto; [lia| |intros r Hn'; apply upd_ne; auto]. intros _. rewrite upd_eq. cbn [value]. apply low_low; auto.
    - cbn [run fold_left]. repeat split; auto; try discriminate. lia. }
  clearbody mb. destruct C as (C1 & C2 & C3 & C4 & C5).
  assert (LV : framed o p = true -> the_base o mb = sp m0 - ws o /\ load (mem mb) (sp m0 - ws o) (Z.to_nat (ws o)) = value m0 (frame_reg o)).
  { intros F. destruct (framed_needs o p Hg F) as [NF US]. destruct (E2 F) as [X1 _]. split.
    - unfold the_base. rewrite C3. change (value ma (frame_reg o) = sp m0 - ws o). rewrite P4; [exact X1|exact Hw|]. exact (B2 NF).
    - rewrite C2, <- (E8 F). apply load_ext. intros x Hx. rewrite to_nat_w in Hx by exact Hw. unfold fb in *. rewrite F in *. apply B4; lia. }
  destruct (leave_run o p d m0 mb Hp C1 LV) as (M1 & M2 & M3 & M4 & M5). set (m3 := run o d mb (leave_lines o p)) in *. clearbody m3. cbv zeta in *.
  assert (KB : framed o p = true -> value m3 (frame_reg o) = value m0 (frame_reg o)).
  { intros F. cbn [value frame_reg]. rewrite (M5 F). rewrite set_low_le by (auto; lia). cbn [value frame_reg]. rewrite low_low by auto. rewrite Z.min_id. reflexivity. }
  assert (IR : forall u, In u (uses p) -> value m3 u = value m0 u).
  { intros u Hu. pose proof (P3 u (proj1 (in_rev _ _) Hu)) as V. assert (RU : rok u) by (rewrite Forall_forall in Hr; auto). destruct u as [k r|r].
    - assert (NA : loadds p = true -> r <> 0). { intros D. destruct (Hd D) as (X & _). rewrite Forall_forall in X. exact (X _ Hu). }
      cbn [value] in *. cbn in RU. destruct (framed o p) eqn:F; [destruct (Z.eq_dec r (basereg o)) as [->|N]|].
      + rewrite (M5 eq_refl). rewrite C3. destruct (E2 eq_refl) as [X1 X2]. rewrite X2 in V. cbn [value frame_reg]. destruct (Z.le_gt_cases k (ws o)) as [L|L].
        * rewrite set_low_le by auto. rewrite low_low by auto. rewrite Z.min_l by lia. reflexivity.
        * assert (K4 : k = 4) by lia. assert (W4 : ws o = 2) by lia. rewrite K4, W4 in *. rewrite set_low_gt in *. pose proof (low2_of_4 (g ma (basereg o)) (set_low 2 (g m0 (basereg o)) (sp m0 - 2))) as X. rewrite set_low_gt in X. specialize (X V). rewrite X. rewrite set_low_le by (auto; lia). rewrite low_low by auto. change (Z.min 2 2) with 2. lia.
      + rewrite M4 by auto. rewrite C3, V. f_equal. apply E3; auto.
      + rewrite M4 by (intros; discriminate). rewrite C3, V. f_equal. apply E3; auto; discriminate.
    - cbn [value] in *. rewrite M3. destruct (loadds p) eqn:D; [destruct (Z.eq_dec r 3) as [->|N]|].
      + rewrite (C4 eq_refl). apply low_low; auto.
      + rewrite C5 by auto. rewrite V. f_equal. apply E5. auto.
      + rewrite C5 by (intros; discriminate). rewrite V. f_equal. apply E5. intros; discriminate. }
  split; [exact M1|]. split; [congruence|]. split; [|split; [|split]].
  - intros a Ha. rewrite M2, C2. rewrite B4 by lia. apply E9. lia.
  - intros u [Hu|[(Hu & U & ->)|(Hu & ->)]]; [apply IR; exact Hu|apply KB; apply needs_framed; assumption|].
    cbn [value]. rewrite M3, (C4 Hu). apply low_low; auto.
  - intros r Hk. rewrite M4.
    + rewrite C3. apply P5. intros k Hin. apply (Hk k). left. apply in_rev. exact Hin.
    + intros F ->. destruct (framed_needs o p Hg F) as [NF US]. apply (Hk (ws o)). right. left. auto.
  - intros r Hk. rewrite M3. rewrite C5.
    + apply P6. intros Hin. apply Hk. left. apply in_rev. exact Hin.
    + intros D ->. apply Hk. right. right. auto.
Qed.
