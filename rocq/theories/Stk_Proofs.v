(** Proofs about the stack frames of 16-bit and 32-bit procedures. *)
From Coq Require Import List ZArith Bool Lia.
From Verif Require Import Base Stk_Model Stk_Spec.
Import ListNotations.
Open Scope Z_scope.

Local Arguments Z.modulo : simpl never.
Local Arguments Z.div : simpl never.
Local Arguments Z.pow : simpl never.
Local Arguments Z.mul : simpl never.
Local Arguments Z.add : simpl never.
Local Arguments Z.sub : simpl never.
Local Arguments swrap : simpl never.
Local Arguments wrap : simpl never.
Local Arguments le_bytes : simpl never.

(** * Rounding *)
Lemma round_pow k i : 0 <= k -> ROUND_UP i (2 ^ k) = (i + (2 ^ k - 1)) / 2 ^ k * 2 ^ k.
Proof.
  intros Hk. unfold ROUND_UP. rewrite <- Z.ldiff_land. replace (2 ^ k - 1) with (Z.ones k) by (rewrite Z.ones_equiv; lia). rewrite Z.ldiff_ones_r by exact Hk.
  rewrite Z.shiftl_mul_pow2, Z.shiftr_div_pow2 by exact Hk. reflexivity.
Qed.
Lemma round_eq i r : r = 1 \/ r = 2 \/ r = 4 -> ROUND_UP i r = (i + r - 1) / r * r.
Proof.
  intros H. destruct H as [->|[->| ->]].
  - change 1 with (2 ^ 0). rewrite round_pow by lia. f_equal. f_equal. change (2 ^ 0) with 1. lia.
  - change 2 with (2 ^ 1). rewrite round_pow by lia. f_equal. f_equal. change (2 ^ 1) with 2. lia.
  - change 4 with (2 ^ 2). rewrite round_pow by lia. f_equal. f_equal. change (2 ^ 2) with 4. lia.
Qed.
Lemma round_spec i r : r = 1 \/ r = 2 \/ r = 4 -> i <= ROUND_UP i r < i + r /\ ROUND_UP i r mod r = 0.
Proof. intros H. rewrite round_eq by exact H. split; [destruct H as [->|[->| ->]]; lia|]. apply Z_mod_mult. Qed.
Lemma slot_round w n : w = 2 \/ w = 4 -> ROUND_UP n w = slot w n.
Proof. intros H. rewrite round_eq by tauto. reflexivity. Qed.

(** * Locals *)
Lemma natural_ok w n : w = 2 \/ w = 4 -> 0 < n -> natural w n = 1 \/ natural w n = 2 \/ natural w n = 4.
Proof.
  intros Hw Hn. unfold natural. destruct (Z.geb_spec n w); [tauto|]. destruct Hw as [->| ->]; cbn [Z.eqb Pos.eqb andb]; [lia|]. destruct (Z.eqb_spec n 3); lia.
Qed.
Definition need (l : list local) : Z := fold_right (fun l s => size_of l + 8 + s) 0 l.
Definition good (l : local) : Prop := 0 < l_elem l /\ 0 < l_count l.
Lemma need_nonneg l : Forall good l -> 0 <= need l.
Proof. induction 1 as [|x r [H1 H2] _ IH]; [cbn; lia|]. cbn [need fold_right]. fold (need r). unfold size_of. assert (0 < l_elem x * l_count x) by nia. lia. Qed.
Lemma total_eq x : good x -> size_of x < 2 ^ 31 -> total_size x = size_of x /\ itemsize x = l_elem x.
Proof.
  intros [H1 H2] H. unfold size_of in H. assert (H3 : 0 < l_elem x * l_count x) by nia. assert (P : 2 ^ 31 < 2 ^ 32) by (vm_compute; reflexivity).
  assert (E : total_size x = size_of x). { unfold total_size, size_of. apply wrap_small. lia. }
  split; [exact E|]. unfold itemsize. rewrite E. unfold size_of. destruct (Z.eqb_spec (l_elem x * l_count x) 0) as [X|_]; [lia|]. rewrite wrap_small by nia. apply Z.div_mul. lia.
Qed.
(** the offsets below [n] *)
Inductive placed (w : Z) : Z -> list local -> Z -> list Z -> Prop :=
| placed_nil n : placed w n [] n []
| placed_cons n x r k m ofs : n + size_of x <= k -> k <= n + size_of x + 4 -> k mod natural w (l_elem x) = 0 -> placed w k r m ofs -> placed w n (x :: r) m (- k :: ofs).
Lemma loop_placed o l : (ws o = 2 \/ ws o = 4) -> Forall good l -> forall n, 0 <= n -> n + need l < 2 ^ 31 ->
  let (m, ofs) := local_loop o n l in placed (ws o) n l m ofs.
Proof.
  intros Hw. induction l as [|x r IH]; intros Hg n Hn Hb; [constructor|]. apply Forall_cons_iff in Hg as [Hx Hg]. cbn [local_loop]. cbn [need fold_right] in Hb. fold (need r) in Hb.
  pose proof (need_nonneg r Hg) as Hr. assert (P31 : 2 ^ 31 = 2147483648) by reflexivity. destruct (total_eq x Hx) as [E1 E2]; [lia|]. rewrite E1, E2. destruct Hx as [X1 X2].
  assert (Hs : 0 < size_of x) by (unfold size_of; nia).
  rewrite (swrap_small 32 (n + size_of x)) by (change (32 - 1) with 31; lia).
  set (k := if l_elem x >? ws o then _ else _).
  assert (K : k = ROUND_UP (n + size_of x) (natural (ws o) (l_elem x))).
  { unfold k, natural. clear k. assert (B : forall r, r = 1 \/ r = 2 \/ r = 4 -> swrap 32 (ROUND_UP (n + size_of x) r) = ROUND_UP (n + size_of x) r).
    { intros q Hq. pose proof (round_spec (n + size_of x) q Hq) as [G1 _]. apply swrap_small; [lia|]. change (32 - 1) with 31. lia. }
    destruct (Z.gtb_spec (l_elem x) (ws o)) as [G|G].
    - destruct (Z.geb_spec (l_elem x) (ws o)); [|lia]. apply B. tauto.
    - destruct (Z.eqb_spec (l_elem x) 0); [lia|]. cbn [negb]. destruct (Z.geb_spec (l_elem x) (ws o)) as [G2|G2].
      + replace (l_elem x) with (ws o) by lia. replace ((ws o =? 4) && (ws o =? 3)) with false by (destruct Hw as [-> | ->]; reflexivity). apply B. tauto.
      + destruct Hw as [Hw|Hw]; rewrite Hw in *; cbn [Z.eqb Pos.eqb andb].
        * apply B. lia.
        * destruct (Z.eqb_spec (l_elem x) 3); apply B; lia. }
  clearbody k. subst k. pose proof (natural_ok (ws o) (l_elem x) Hw X1) as Hq. pose proof (round_spec (n + size_of x) _ Hq) as [G1 G2].
  assert (Hq8 : natural (ws o) (l_elem x) <= 4) by lia.
  specialize (IH Hg (ROUND_UP (n + size_of x) (natural (ws o) (l_elem x)))). destruct (local_loop o _ r) as [m ofs]. constructor; [lia|lia|exact G2|]. apply IH; lia.
Qed.
Lemma placed_range w n l m ofs : placed w n l m ofs -> Forall good l -> n <= m <= n + need l.
Proof.
  induction 1 as [|n x r k m ofs H1 H2 H3 _ IH]; intros Hg; [cbn; lia|]. apply Forall_cons_iff in Hg as [[X1 X2] Hg]. specialize (IH Hg). cbn [need fold_right]. fold (need r).
  assert (0 < size_of x) by (unfold size_of; nia). lia.
Qed.
Lemma placed_pos w n l m ofs : placed w n l m ofs -> Forall good l -> l <> [] -> n < m.
Proof.
  intros H Hg Hl. destruct H as [|n x r k m ofs H1 H2 H3 H4]; [contradiction|]. apply Forall_cons_iff in Hg as [[X1 X2] Hg]. pose proof (placed_range _ _ _ _ _ H4 Hg).
  assert (0 < size_of x) by (unfold size_of; nia). lia.
Qed.
Lemma placed_all w n l m ofs : (w = 2 \/ w = 4) -> placed w n l m ofs -> Forall good l ->
  Forall2 (fun x o => - m <= o /\ o + size_of x <= - n /\ o mod natural w (l_elem x) = 0) l ofs.
Proof.
  intros Hw. induction 1 as [|n x r k m ofs H1 H2 H3 H4 IH]; intros Hg; [constructor|]. apply Forall_cons_iff in Hg as [X Hg]. pose proof (placed_range _ _ _ _ _ H4 Hg). constructor.
  - split; [lia|]. split; [lia|]. apply Z.mod_opp_l_z; [|exact H3]. destruct X as [X1 _]. pose proof (natural_ok w (l_elem x) Hw X1). lia.
  - specialize (IH Hg). assert (Hs : 0 < size_of x) by (destruct X; unfold size_of; nia). clear - IH H1 Hs. induction IH as [|a b la lb Hab _ IH2]; constructor; [lia|exact IH2].
Qed.
Lemma placed_apart w n l m ofs b : (w = 2 \/ w = 4) -> placed w n l m ofs -> Forall good l ->
  ForallOrdPairs (fun x y => fst x <= snd x /\ fst y <= snd y /\ (snd x <= fst y \/ snd y <= fst x)) (map (fun '(l, x) => (b + x, b + x + size_of l)) (combine l ofs)).
Proof.
  intros Hw. induction 1 as [|n x r k m ofs H1 H2 H3 H4 IH]; intros Hg; [constructor|]. apply Forall_cons_iff in Hg as [X Hg]. cbn [combine map]. constructor; [|apply IH; exact Hg].
  pose proof (placed_all _ _ _ _ _ Hw H4 Hg) as Ha. assert (Hs : 0 < size_of x) by (destruct X; unfold size_of; nia). apply Forall_forall. intros y Hy. apply in_map_iff in Hy as ([l' o'] & <- & Hy).
  assert (G : - m <= o' /\ o' + size_of l' <= - k /\ good l').
  { clear - Ha Hy Hg. induction Ha as [|a c la lc Hac _ IH2]; cbn in Hy; [contradiction|]. apply Forall_cons_iff in Hg as [X Hg]. destruct Hy as [E|Hy]; [|apply IH2; assumption]. apply pair_equal_spec in E as [<- <-]. intuition lia. }
  destruct G as (G1 & G2 & [G3 G4]). assert (0 < size_of l') by (unfold size_of; nia). cbn [fst snd]. lia.
Qed.

(** * Parameters *)
Lemma fits_pcheck o q used : ms32_pcheck o q used = fits o q && (used <? ms32_maxreg o).
Proof.
  unfold ms32_pcheck, fits. rewrite Z.gtb_ltb, Z.geb_leb. destruct (Z.ltb_spec (ws o) (p_size q)), (Z.leb_spec (p_size q) (ws o)); try lia; destruct (Z.leb_spec (ms32_maxreg o) used), (Z.ltb_spec used (ms32_maxreg o)); try lia; destruct (p_real q); reflexivity.
Qed.
Definition regs_of (o : options) (l : lang) : Z := match l with LFastcall => ms32_maxreg o | _ => 0 end.
Lemma regs_eq o l : Z.of_nat (registers o l) = regs_of o l.
Proof. destruct l; try reflexivity. unfold registers, regs_of, ms32_maxreg. destruct (ws o =? 2); reflexivity. Qed.
Definition cnt (o : options) (l : list param) : Z := zlen (filter (fits o) l).
Lemma cnt_nonneg o l : 0 <= cnt o l.
Proof. apply zlen_nonneg. Qed.
Lemma classify_nth o lg ps : forall used k, 0 <= used ->
  nth_error (classify o lg used ps) k = match nth_error ps k with Some q => Some (q, fits o q && (used + cnt o (firstn k ps) <? regs_of o lg)) | None => None end.
Proof.
  induction ps as [|q r IH]; intros used k Hu; [destruct k; reflexivity|]. destruct lg.
  7: {
    cbn [classify]. rewrite fits_pcheck. unfold regs_of in *. destruct k as [|k].
    - cbn [nth_error firstn]. change (cnt o []) with 0. rewrite Z.add_0_r. destruct (fits o q), (used <? ms32_maxreg o); reflexivity.
    - cbn [nth_error firstn]. unfold cnt. cbn [filter]. destruct (fits o q) eqn:F; cbn [andb].
      + destruct (Z.ltb_spec used (ms32_maxreg o)) as [L|L]; cbn [nth_error]; rewrite IH by lia; destruct (nth_error r k) as [q'|]; try reflexivity; rewrite zlen_cons; fold (cnt o (firstn k r)).
        * f_equal. f_equal. f_equal. f_equal. lia.
        * pose proof (cnt_nonneg o (firstn k r)). f_equal. f_equal. f_equal. destruct (Z.ltb_spec (used + cnt o (firstn k r)) (ms32_maxreg o)), (Z.ltb_spec (used + (1 + cnt o (firstn k r))) (ms32_maxreg o)); lia || reflexivity.
      + cbn [nth_error]. rewrite IH by lia. reflexivity. }
  all: cbn [classify]; destruct k as [|k]; cbn [nth_error]; [unfold regs_of; pose proof (cnt_nonneg o (firstn 0 (q :: r))); destruct (Z.ltb_spec (used + cnt o (firstn 0 (q :: r))) 0); [lia|]; rewrite andb_false_r; reflexivity|];
    rewrite IH by lia; destruct (nth_error r k); [|reflexivity]; unfold regs_of; pose proof (cnt_nonneg o (firstn k r)); pose proof (cnt_nonneg o (firstn (S k) (q :: r)));
    destruct (Z.ltb_spec (used + cnt o (firstn k r)) 0); [lia|]; destruct (Z.ltb_spec (used + cnt o (firstn (S k) (q :: r))) 0); [lia|]; reflexivity.
Qed.
Definition cls (o : options) (p : proc) : list (param * bool) := classify o (plang p) 0 (params p).
Lemma cls_nth o p k : nth_error (cls o p) k = match nth_error (params p) k with Some q => Some (q, in_register o p k) | None => None end.
Proof.
  unfold cls. rewrite classify_nth by lia. unfold in_register. destruct (nth_error (params p) k) as [q|]; [|reflexivity]. f_equal. f_equal. f_equal. rewrite Z.add_0_l. rewrite <- regs_eq. unfold cnt, zlen.
  destruct (Nat.ltb_spec (length (filter (fits o) (firstn k (params p)))) (registers o (plang p))), (Z.ltb_spec (Z.of_nat (length (filter (fits o) (firstn k (params p))))) (Z.of_nat (registers o (plang p)))); lia || reflexivity.
Qed.
Lemma cls_length o p : length (cls o p) = length (params p).
Proof. unfold cls. generalize 0. induction (params p) as [|q r IH]; intros u; [reflexivity|]. cbn [classify length]. destruct (plang p); try (cbn [length]; rewrite IH; reflexivity). destruct (ms32_pcheck o q u); cbn [length]; rewrite IH; reflexivity. Qed.
(** bytes on the stack, as a list *)
Definition sz (o : options) (x : param * bool) : Z := if snd x then 0 else ROUND_UP (p_size (fst x)) (ws o).
Definition lsum (l : list Z) : Z := fold_right Z.add 0 l.
Lemma lsum_app l r : lsum (l ++ r) = lsum l + lsum r.
Proof. induction l as [|x l IH]; [reflexivity|]. cbn [app lsum fold_right]. fold (lsum (l ++ r)). fold (lsum l). lia. Qed.
Lemma lsum_rev l : lsum (rev l) = lsum l.
Proof. induction l as [|x l IH]; [reflexivity|]. cbn [rev]. rewrite lsum_app, IH. cbn [lsum fold_right]. fold (lsum l). lia. Qed.
Lemma bytes_sz o p k : opts_ok o -> stack_bytes o p k = match nth_error (cls o p) k with Some x => sz o x | None => 0 end.
Proof.
  intros (Hw & _). rewrite cls_nth. unfold stack_bytes. destruct (nth_error (params p) k) as [q|]; [|reflexivity]. unfold sz. cbn [fst snd]. destruct (in_register o p k); [reflexivity|]. rewrite slot_round by exact Hw. reflexivity.
Qed.
Lemma sum_sz o p a n : opts_ok o -> sum (stack_bytes o p) (seq a n) = lsum (firstn n (skipn a (map (sz o) (cls o p)))).
Proof.
  intros Ho. revert a. induction n as [|n IH]; intros a; [reflexivity|]. cbn [seq sum fold_right]. fold (sum (stack_bytes o p) (seq (S a) n)). rewrite IH, bytes_sz by exact Ho. clear IH.
  revert a. induction (cls o p) as [|x l IH]; intros a.
  - rewrite !skipn_nil, !firstn_nil. destruct a; reflexivity.
  - destruct a as [|a]; [reflexivity|]. cbn [nth_error map skipn]. apply IH.
Qed.
Lemma args_sz o p : opts_ok o -> args_size o p = lsum (map (sz o) (cls o p)).
Proof. intros Ho. unfold args_size. rewrite sum_sz by exact Ho. rewrite skipn_O, firstn_all2; [reflexivity|]. rewrite map_length, cls_length. lia. Qed.
Lemma para_loop_nth o l : forall s k, nth_error (para_loop o s l) k = match nth_error l k with Some x => Some (if snd x then None else Some (s + lsum (firstn k (map (sz o) l)))) | None => None end.
Proof.
  induction l as [|[q b] r IH]; intros s k; [destruct k; reflexivity|]. destruct b; cbn [para_loop]; destruct k as [|k]; cbn [nth_error firstn map lsum fold_right snd].
  - reflexivity.
  - rewrite IH. destruct (nth_error r k) as [[q' []]|]; cbn [snd]; reflexivity || (unfold sz at 2; cbn [snd fst]; f_equal; f_equal; fold (lsum (firstn k (map (sz o) r))); lia).
  - f_equal. f_equal. lia.
  - rewrite IH. destruct (nth_error r k) as [[q' []]|]; cbn [snd]; reflexivity || (unfold sz at 2; cbn [snd fst]; f_equal; f_equal; fold (lsum (firstn k (map (sz o) r))); lia).
Qed.
Lemma para_loop_length o l : forall s, length (para_loop o s l) = length l.
Proof. induction l as [|[q []] r IH]; intros s; cbn; rewrite ?IH; reflexivity. Qed.
Lemma nth_error_rev {A} (l : list A) k : (k < length l)%nat -> nth_error (rev l) k = nth_error l (length l - S k).
Proof.
  revert k. induction l as [|x l IH] using rev_ind; intros k H; [cbn in H; lia|]. rewrite rev_app_distr. cbn [rev app]. rewrite app_length in *. cbn [length] in *. destruct k as [|k]; cbn [nth_error].
  - rewrite nth_error_app2 by lia. replace (length l + 1 - 1 - length l)%nat with 0%nat by lia. reflexivity.
  - rewrite IH by lia. rewrite nth_error_app1 by lia. f_equal. lia.
Qed.
Lemma firstn_rev' {A} (l : list A) k : firstn k (rev l) = rev (skipn (length l - k) l).
Proof. rewrite <- (rev_involutive (firstn k (rev l))). f_equal. pose proof (skipn_rev (length l - k) (rev l)) as H. rewrite rev_involutive, rev_length in H. rewrite H. f_equal.
  destruct (Nat.le_gt_cases k (length l)) as [L|L]; [f_equal; lia|]. rewrite !firstn_all2; rewrite ?rev_length; reflexivity || lia.
Qed.
(** the offsets in the order of the source, as ParseParams computes them *)
Lemma order_eq o l : left_to_right o l = pascal_order o l.
Proof. destruct l; reflexivity. Qed.
Lemma para_start_nth o p k : opts_ok o -> (k < length (params p))%nat ->
  nth_error (in_source_order o p (para_start o p)) k = Some (if in_register o p k then None else Some (arg_place o p k + ws o)).
Proof.
  intros Ho Hk. unfold in_source_order, para_start, paralist. fold (cls o p). unfold arg_place. rewrite <- (order_eq o (plang p)). set (st := (2 + _) * ws o). assert (St : st = ra o p + ws o) by (unfold st, ra; destruct (far p); lia).
  assert (Hq : exists q, nth_error (params p) k = Some q) by (destruct (nth_error (params p) k) as [q|] eqn:E; [eauto|apply nth_error_None in E; lia]). destruct Hq as [q Hq].
  pose proof (cls_nth o p k) as Hc. rewrite Hq in Hc. destruct (left_to_right o (plang p)).
  - rewrite nth_error_rev by (rewrite para_loop_length, rev_length, cls_length; exact Hk). rewrite para_loop_nth, para_loop_length, rev_length, cls_length.
    rewrite nth_error_rev by (rewrite cls_length; lia). rewrite cls_length. replace (length (params p) - S (length (params p) - S k))%nat with k by lia. rewrite Hc. cbn [snd].
    destruct (in_register o p k); [reflexivity|]. rewrite sum_sz by exact Ho. f_equal. f_equal. rewrite map_rev, firstn_rev', lsum_rev, map_length, cls_length.
    replace (length (params p) - (length (params p) - S k))%nat with (S k) by lia. rewrite firstn_all2 by (rewrite skipn_length, map_length, cls_length; lia). lia.
  - rewrite !rev_involutive. rewrite para_loop_nth, Hc. cbn [snd]. destruct (in_register o p k); [reflexivity|]. rewrite sum_sz by exact Ho. rewrite skipn_O. f_equal. f_equal. lia.
Qed.
Lemma para_start_length o p : length (para_start o p) = length (params p).
Proof. unfold para_start. rewrite rev_length, para_loop_length, rev_length. unfold paralist. fold (cls o p). destruct (left_to_right o (plang p)); rewrite ?rev_length; apply cls_length. Qed.
Lemma in_source_map {A B} o p (f : A -> B) l : in_source_order o p (map f l) = map f (in_source_order o p l).
Proof. unfold in_source_order. destruct (left_to_right o (plang p)); [reflexivity|]. rewrite map_rev. reflexivity. Qed.

(** which procedures have a frame *)
Lemma stackparam_eq o p : stackparam o p = true <-> on_stack o p.
Proof.
  unfold stackparam, paralist. fold (cls o p). assert (E : existsb (fun x : param * bool => negb (snd x)) (if left_to_right o (plang p) then cls o p else rev (cls o p)) = true <-> exists x, In x (cls o p) /\ snd x = false).
  { rewrite existsb_exists. split; intros (x & H1 & H2); exists x; (split; [|destruct (snd x); cbn in *; congruence]); destruct (left_to_right o (plang p)); auto. apply in_rev. exact H1. apply in_rev in H1. exact H1. }
  rewrite E. clear E. split.
  - intros ([q b] & H1 & H2). cbn in H2. subst b. apply In_nth_error in H1 as [k Hk]. exists k. rewrite cls_nth in Hk. destruct (nth_error (params p) k) as [q'|] eqn:F; [|discriminate]. split; [apply nth_error_Some; congruence|]. congruence.
  - intros (k & H1 & H2). pose proof (cls_nth o p k) as Hc. destruct (nth_error (params p) k) as [q|] eqn:F; [|apply nth_error_None in F; lia]. exists (q, in_register o p k). split; [eapply nth_error_In; exact Hc|exact H2].
Qed.
Lemma vararg_stack o p : lang_ok p -> has_vararg p = true -> stackparam o p = true.
Proof.
  intros (_ & H) Hv. apply stackparam_eq. pose proof Hv as Hv'. unfold has_vararg in Hv'. apply existsb_exists in Hv' as (q & Hq & _). apply In_nth_error in Hq as [k Hk]. exists k. split; [apply nth_error_Some; congruence|].
  unfold in_register. rewrite Hk. destruct (H Hv) as [-> | ->]; cbn [registers]; rewrite andb_false_r; reflexivity.
Qed.
Lemma has_frame_eq o p : lang_ok p -> has_frame o p = true <-> needs_frame o p.
Proof.
  intros Hl. unfold has_frame, needs_frame. rewrite !orb_true_iff, negb_true_iff, stackparam_eq. split.
  - intros [[[H|H]|H]|H]; [left; destruct (locals p); [discriminate|congruence]|tauto| |tauto]. right. left. apply stackparam_eq. apply vararg_stack; assumption.
  - intros [H|[H|H]]; [|tauto|tauto]. left. left. left. destruct (locals p); [congruence|reflexivity].
Qed.

(** * The passes *)
Definition whole (o : options) (p : proc) : Z := swrap 32 (ROUND_UP (fst (local_loop o 0 (locals p))) (ws o)).
Definition raw (o : options) (p : proc) : list Z := snd (local_loop o 0 (locals p)).
Definition final_local (o : options) (p : proc) : list Z :=
  if uses_sp o then map (fun x => x + (whole o p + zlen (uses p) * ws o)) (raw o p) else raw o p.
Definition final_para (o : options) (p : proc) : list (option Z) :=
  if uses_sp o then map (option_map (fun x => x + (whole o p + zlen (uses p) * ws o - ws o))) (para_start o p) else para_start o p.
Definition inv (o : options) (p : proc) (i : info) : Prop :=
  (uses_sp o = true -> fpo i = true) /\ (uses_sp o = false -> fpo i = true -> params p = [] /\ locals p = []) /\
  (adjusted i = false -> para_ofs i = para_start o p) /\ (adjusted i = true -> para_ofs i = final_para o p).
Definition final_fpo (o : options) (p : proc) : bool := uses_sp o || (negb (forceframe p) && is_nil (params p) && is_nil (locals p)).
Definition settled (o : options) (p : proc) (i : info) : Prop :=
  fpo i = final_fpo o p /\ localsize i = whole o p /\ local_ofs i = final_local o p /\ para_ofs i = final_para o p.
Lemma zlen_gtb {A} (l : list A) : (zlen l >? 0) = negb (is_nil l).
Proof. destruct l as [|x l]; [reflexivity|]. rewrite zlen_cons. pose proof (zlen_nonneg l). cbn [is_nil negb]. apply Z.gtb_lt. lia. Qed.
Lemma zlen_eqb {A} (l : list A) : (zlen l =? 0) = is_nil l.
Proof. destruct l as [|x l]; [reflexivity|]. rewrite zlen_cons. pose proof (zlen_nonneg l). cbn [is_nil]. apply Z.eqb_neq. lia. Qed.
Lemma fpo_eq o p b : opts_ok o -> check_proc_fpo o false p b = final_fpo o p.
Proof.
  intros (Hw & _ & H4). unfold check_proc_fpo, final_fpo, uses_sp. rewrite !zlen_gtb, !zlen_eqb. destruct (Z.eqb_spec (basereg o) 4) as [E|E]; cbn [andb orb].
  - rewrite (H4 E). reflexivity.
  - destruct (forceframe p); [reflexivity|]. cbn [negb andb]. destruct (is_nil (params p)), (is_nil (locals p)); reflexivity.
Qed.
Lemma one_pass_ok o p i : opts_ok o -> inv o p i -> let j := fst (fst (one_pass o p false i)) in inv o p j /\ settled o p j.
Proof.
  intros Ho (I1 & I2 & I3 & I4). cbv zeta. unfold one_pass. cbn [fst]. rewrite fpo_eq by exact Ho. unfold SetLocalOffsets. cbn [fpo localsize adjusted local_ofs para_ofs].
  unfold inv, settled, whole, raw, final_local, final_para in *. unfold whole, raw in *. destruct (local_loop o 0 (locals p)) as [n ofs] eqn:El. cbn [fst snd] in *.
  assert (F : final_fpo o p = true -> uses_sp o = false -> params p = [] /\ locals p = []).
  { unfold final_fpo. intros H H0. rewrite H0 in H. cbn [orb] in H. apply andb_true_iff in H as [H H2]. apply andb_true_iff in H as [_ H]. destruct (params p), (locals p); try discriminate. auto. }
  destruct (uses_sp o) eqn:U.
  - rewrite (I1 eq_refl). cbn [fpo localsize adjusted local_ofs para_ofs]. assert (T : final_fpo o p = true) by (unfold final_fpo; rewrite U; reflexivity). rewrite T.
    assert (PE : (if adjusted i then para_ofs i else map (option_map (fun x : Z => x + (swrap 32 (ROUND_UP n (ws o)) + zlen (uses p) * ws o - ws o))) (para_ofs i)) =
      map (option_map (fun x : Z => x + (swrap 32 (ROUND_UP n (ws o)) + zlen (uses p) * ws o - ws o))) (para_start o p)).
    { destruct (adjusted i); [apply I4; reflexivity|]. rewrite (I3 eq_refl). reflexivity. }
    split; [split; [auto|split; [discriminate|split; [discriminate|intros _; exact PE]]]|]. auto.
  - destruct (fpo i) eqn:Fi; cbn [fpo localsize adjusted local_ofs para_ofs].
    + destruct (I2 eq_refl eq_refl) as [P0 L0]. assert (N0 : para_start o p = []) by (apply length_zero_iff_nil; rewrite para_start_length, P0; reflexivity).
      rewrite L0 in El. cbn in El. apply pair_equal_spec in El as [<- <-]. rewrite N0 in *.
      assert (PE : (if adjusted i then para_ofs i else map (option_map (fun x : Z => x + (swrap 32 (ROUND_UP 0 (ws o)) + zlen (uses p) * ws o - ws o))) (para_ofs i)) = []).
      { destruct (adjusted i); [apply I4; reflexivity|]. rewrite (I3 eq_refl). reflexivity. }
      rewrite PE. cbn [map]. repeat split; auto; try discriminate.
    + assert (PE : para_ofs i = para_start o p) by (destruct (adjusted i); auto). rewrite PE. repeat split; auto; try discriminate; intros; apply F; auto.
Qed.
Lemma pass1_inv o p : opts_ok o -> inv o p (fst (fst (one_pass o p true (info0 o p)))).
Proof.
  intros (Hw & _ & H4). unfold one_pass, info0. cbn [fst]. unfold SetLocalOffsets. cbn [fpo localsize adjusted local_ofs para_ofs]. destruct (local_loop o 0 (locals p)) as [n ofs].
  unfold inv. cbn [fpo localsize adjusted local_ofs para_ofs]. unfold check_proc_fpo, uses_sp. rewrite !zlen_gtb, !zlen_eqb. repeat split; intros; try discriminate.
  - apply Z.eqb_eq in H. rewrite H, (H4 H). reflexivity.
  - rewrite H in H0. cbn [andb] in H0. destruct (forceframe p); [discriminate|]. destruct (params p); [reflexivity|]. discriminate.
  - rewrite H in H0. cbn [andb] in H0. destruct (forceframe p); [discriminate|]. destruct (params p), (locals p); reflexivity || discriminate.
Qed.
Lemma later_inv o p n : opts_ok o -> forall i, inv o p i -> inv o p (later_passes n o p i).
Proof. intros Ho. induction n as [|n IH]; intros i H; [exact H|]. cbn [later_passes]. apply IH. exact (proj1 (one_pass_ok o p i Ho H)). Qed.
Lemma assembled_form o n p arg i pro epi : opts_ok o -> assembled o n p arg = Ok (i, pro, epi) ->
  settled o p i /\ pro = generic_prologue o false p i /\ epi = generic_epilogue o p i ++ [RetInstr o p arg] /\
  forallb (line_ok o) (generic_prologue o false p i ++ generic_epilogue o p i) = true.
Proof.
  intros Ho H. unfold assembled in H. destruct (one_pass o p true (info0 o p)) as [[i1 pro1] epi1] eqn:E1. destruct (one_pass o p false (later_passes n o p i1)) as [[i2 pro2] epi2] eqn:E2.
  destruct (forallb _ _) eqn:F; [|discriminate]. assert (G : forall a b : info * list line * list line, Ok a = Ok b -> a = b) by congruence. apply G in H. clear G. apply pair_equal_spec in H as [H <-]. apply pair_equal_spec in H as [<- <-].
  assert (I1 : inv o p i1). { pose proof (pass1_inv o p Ho) as X. rewrite E1 in X. exact X. }
  pose proof (one_pass_ok o p _ Ho (later_inv o p n Ho i1 I1)) as X. cbv zeta in X. rewrite E2 in X. cbn [fst] in X. destruct X as [_ X]. split; [exact X|].
  unfold one_pass in E2. apply pair_equal_spec in E2 as [E2 <-]. apply pair_equal_spec in E2 as [E2 <-]. rewrite E2 in *.
  split; [reflexivity|]. split; [reflexivity|]. rewrite !forallb_app in F. rewrite forallb_app. rewrite !andb_true_iff in *. tauto.
Qed.
