(** ELF: symbol indices, symbol entries, relocations. *)
From Verif Require Import Base Elf_Model Elf_Spec Elf_Proofs ElfLay_Proofs.
From Coq Require Import Lia Arith.

(** * indices *)
Lemma nth_snoc {A} (l : list A) x i y : nth_error (l ++ [x]) i = Some y -> nth_error l i = Some y \/ (i = length l /\ y = x).
Proof.
  intros H. destruct (Nat.lt_ge_cases i (length l)) as [L|L]; [left; now rewrite nth_error_app1 in H|].
  right. rewrite nth_error_app2 in H by lia. destruct (i - length l)%nat as [|k] eqn:E; cbn [nth_error] in H; [split; [lia|congruence]|]. now destruct k.
Qed.
Record inv (base : Z) (t : symtab) (L : list nat) : Prop := {
  i_count : symindex t = base + zlen L;
  i_idx : forall i n, nth_error L i = Some n -> ext_idx t n = base + Z.of_nat i }.
Lemma set_idx_inv base t L n : inv base t L -> ~ In n L -> 0 <= base -> base + zlen L + 1 < 2 ^ 32 -> inv base (set_idx t n) (L ++ [n]).
Proof.
  intros [C X] N B R. pose proof (zlen_nonneg L) as Ln. split; cbn [set_idx symindex ext_idx].
  - rewrite C, zlen_app. change (zlen [n]) with 1. rewrite wrap_small by lia. lia.
  - intros i k H. apply nth_snoc in H as [H|[-> ->]].
    + destruct (Nat.eqb_spec k n) as [->|_]; [exfalso; apply N; eapply nth_error_In; eauto|]. now apply X.
    + rewrite Nat.eqb_refl, C. reflexivity.
Qed.
Definition mem (L : list nat) (k : nat) : bool := existsb (Nat.eqb k) L.
Lemma mem_In L k : mem L k = true <-> In k L.
Proof. unfold mem. rewrite existsb_exists. split; [intros (x & H & E); apply Nat.eqb_eq in E; now subst|intros H; exists k; split; [exact H|apply Nat.eqb_refl]]. Qed.
Lemma filter_filter {A} (p q : A -> bool) l : filter p (filter q l) = filter (fun x => q x && p x) l.
Proof. induction l as [|a l IH]; [reflexivity|]. cbn [filter]. destruct (q a); cbn [filter andb]; [destruct (p a)|]; now rewrite ?IH. Qed.
Lemma filter_ext' {A} (p q : A -> bool) l : (forall x, p x = q x) -> filter p l = filter q l. Proof. intros H. apply filter_ext. exact H. Qed.
Lemma mem_snoc L n k : mem (L ++ [n]) k = mem L k || Nat.eqb k n.
Proof. unfold mem. rewrite existsb_app. cbn [existsb]. now rewrite orb_false_r. Qed.
Definition refs (fs : list fixup) : list nat := flat_map (fun f => match f_ref f with RSym n => [n] | _ => [] end) fs.
Lemma used_refs m : used m = refs (fixups m).
Proof. unfold used, refs, fixups. induction (m_secs m) as [|s ss IH]; [reflexivity|]. cbn [flat_map]. now rewrite IH, flat_map_app. Qed.
Definition fresh (L l : list nat) : list nat := filter (fun k => negb (mem L k)) (once l).
Lemma fresh_cons_in L n l : In n L -> fresh L (n :: l) = fresh L l.
Proof.
  intros H. unfold fresh. cbn [once filter]. assert (mem L n = true) as -> by now apply mem_In. cbn [negb]. rewrite filter_filter. apply filter_ext'. intros k.
  destruct (Nat.eqb_spec k n) as [->|_]; [|reflexivity]. assert (mem L n = true) as -> by now apply mem_In. reflexivity.
Qed.
Lemma fresh_cons_out L n l : ~ In n L -> fresh L (n :: l) = n :: fresh (L ++ [n]) l.
Proof.
  intros H. unfold fresh. cbn [once filter]. assert (mem L n = false) as -> by (destruct (mem L n) eqn:E; [apply mem_In in E; contradiction|reflexivity]). cbn [negb]. f_equal.
  rewrite filter_filter. apply filter_ext'. intros k. rewrite mem_snoc. destruct (mem L k), (Nat.eqb k n); reflexivity.
Qed.
Lemma fresh_nil l : fresh [] l = once l.
Proof. unfold fresh. induction (once l) as [|a r IH]; [reflexivity|]. cbn [filter]. change (mem [] a) with false. cbn [negb]. now rewrite IH. Qed.
Lemma once_In l n : In n (once l) <-> In n l.
Proof.
  induction l as [|a l IH]; [reflexivity|]. cbn [once In]. rewrite filter_In, IH. destruct (Nat.eqb_spec n a) as [->|N]; cbn [negb]; [|split; intros [A|A]; [auto|tauto|auto|auto]].
  split; [intros [A|[_ A]]; [now left|discriminate]|intros _; now left].
Qed.
Lemma once_NoDup l : NoDup (once l).
Proof.
  induction l as [|a l IH]; [constructor|]. cbn [once]. constructor; [|now apply NoDup_filter]. rewrite filter_In, Nat.eqb_refl. intros [_ A]. discriminate.
Qed.
Lemma filter_le {A} (p : A -> bool) l : zlen (filter p l) <= zlen l. Proof. induction l as [|a l IH]; [reflexivity|]. cbn [filter]. destruct (p a); rewrite ?zlen_cons; lia. Qed.
Lemma once_le l : zlen (once l) <= zlen l.
Proof.
  induction l as [|a l IH]; [reflexivity|]. cbn [once]. rewrite !zlen_cons. pose proof (filter_le (fun k => negb (Nat.eqb k a)) (once l)). lia.
Qed.
(** the fixups *)
Lemma scan_ok m base fs : 0 <= base -> Forall (fun f => f_ref f <> RNone) fs -> (forall n, In n (refs fs) -> y_included (sym m n) = false) -> forall t L,
  inv base t L -> locals t = L -> (forall n, included t n = y_included (sym m n) || mem L n) ->
  base + zlen L + zlen fs + 1 < 2 ^ 32 ->
  exists t', scan_fixups m t fs = Ok t' /\ let L' := L ++ fresh L (filter (private m) (refs fs)) in inv base t' L' /\ locals t' = L'.
Proof.
  intros B N. induction N as [|f fs Hf _ IH]; intros NI t L V EL ET R; cbn [scan_fixups].
  - exists t. split; [reflexivity|]. cbn [refs flat_map filter]. unfold fresh. cbn [once filter]. rewrite app_nil_r. now split.
  - rewrite zlen_cons in R. pose proof (zlen_nonneg fs) as Fn. pose proof (zlen_nonneg L) as Ln.
    assert (forall t', inv base t' L -> locals t' = L -> (forall n, included t' n = y_included (sym m n) || mem L n) ->
      fresh L (filter (private m) (refs (f :: fs))) = fresh L (filter (private m) (refs fs)) ->
      exists t'', scan_fixups m t' fs = Ok t'' /\ let L' := L ++ fresh L (filter (private m) (refs (f :: fs))) in inv base t'' L' /\ locals t'' = L') as Skip.
    { intros t' V' E1 E2 E3. destruct (IH ltac:(intros n Hn; apply NI; unfold refs; cbn [flat_map]; apply in_or_app; now right) t' L V' E1 E2 ltac:(lia)) as (t'' & S1 & S2). exists t''. split; [exact S1|]. now rewrite E3. }
    unfold scan_fixup. destruct (f_ref f) as [|n|k|k] eqn:Ef; [contradiction| | |].
    + assert (refs (f :: fs) = n :: refs fs) as Er by (unfold refs; cbn [flat_map]; now rewrite Ef).
      assert (y_included (sym m n) = false) as Yn by (apply NI; rewrite Er; now left).
      rewrite ET, Yn, orb_false_l. assert (is_internal (sym m n) && negb (mem L n) && negb (y_public (sym m n)) = private m n && negb (mem L n)) as ->.
      { unfold is_internal, private. destruct (y_state (sym m n)); cbn [andb]; [|reflexivity..]. apply andb_comm. }
      destruct (private m n) eqn:Pn; cbn [andb].
      * destruct (mem L n) eqn:Ml; cbn [negb bindr].
        -- apply Skip; auto. rewrite Er. cbn [filter]. rewrite Pn. apply fresh_cons_in. now apply mem_In.
        -- assert (~ In n L) as Nl by (intros X; apply mem_In in X; congruence).
           pose proof (set_idx_inv base t L n V Nl B ltac:(lia)) as [V1 V2].
           destruct (IH ltac:(intros n' Hn; apply NI; rewrite Er; now right) (add_local t n) (L ++ [n])) as (t'' & S1 & S2 & S3).
           ++ split; assumption.
           ++ cbn [add_local locals set_idx]. now rewrite EL.
           ++ intros n'. cbn [add_local included set_idx]. rewrite mem_snoc. destruct (Nat.eqb_spec n' n) as [->|_]; [now rewrite !orb_true_r|]. now rewrite orb_false_r, ET.
           ++ rewrite zlen_app. change (zlen [n]) with 1. lia.
           ++ exists t''. split; [exact S1|]. rewrite Er. cbn [filter]. rewrite Pn, fresh_cons_out by assumption. cbn zeta. replace (L ++ n :: fresh (L ++ [n]) (filter (private m) (refs fs))) with ((L ++ [n]) ++ fresh (L ++ [n]) (filter (private m) (refs fs))) by (rewrite <- app_assoc; reflexivity). now split.
      * cbn [bindr]. apply Skip; auto. rewrite Er. cbn [filter]. now rewrite Pn.
    + cbn [bindr]. apply Skip; auto. unfold refs. cbn [flat_map]. now rewrite Ef.
    + cbn [bindr]. apply Skip; auto. unfold refs. cbn [flat_map]. now rewrite Ef.
Qed.
Lemma fold_set_idx base t L l : inv base t L -> NoDup l -> (forall n, In n l -> ~ In n L) -> 0 <= base -> base + zlen L + zlen l + 1 < 2 ^ 32 ->
  inv base (fold_left set_idx l t) (L ++ l) /\ locals (fold_left set_idx l t) = locals t.
Proof.
  intros V ND. revert t L V. induction ND as [|n l N _ IH]; intros t L V D B R; cbn [fold_left]; [rewrite app_nil_r; now split|].
  rewrite zlen_cons in R. pose proof (zlen_nonneg l).
  destruct (IH (set_idx t n) (L ++ [n])) as [V' E'].
  - apply set_idx_inv; [exact V|apply D; now left|exact B|lia].
  - intros k Hk. rewrite in_app_iff. intros [X|[X|[]]]; [apply (D k); [now right|exact X]|]. now subst k.
  - exact B.
  - rewrite zlen_app. change (zlen [n]) with 1. lia.
  - rewrite <- app_assoc in V'. cbn [app] in V'. now split.
Qed.
Lemma fold_count_ext m l t : fold_left (count_ext m) l t = fold_left set_idx (filter (fun n => negb (skipped (sym m n))) l) t.
Proof. revert t. induction l as [|n l IH]; intros t; [reflexivity|]. cbn [fold_left filter]. unfold count_ext at 2. destruct (skipped (sym m n)); cbn [negb]; [apply IH|]. cbn [fold_left]. apply IH. Qed.
Lemma external_eq m : filter (fun n => negb (skipped (sym m n))) (m_ext m) = external_symbols m.
Proof. unfold external_symbols. apply filter_ext'. intros n. unfold skipped. destruct (y_comm (sym m n)), (y_weak (sym m n)); reflexivity. Qed.
(** all symbols, in the order of their entries *)
Definition order (m : module) : list nat := private_symbols m ++ external_symbols m ++ m_pub m.
Lemma private_In m n : In n (private_symbols m) <-> In n (used m) /\ private m n = true.
Proof. unfold private_symbols. now rewrite once_In, filter_In. Qed.
Lemma external_In m n : In n (external_symbols m) -> In n (m_ext m). Proof. unfold external_symbols. rewrite filter_In. tauto. Qed.
Lemma refs_le fs : zlen (refs fs) <= zlen fs.
Proof.
  induction fs as [|f r IH]; [reflexivity|]. unfold refs in *. cbn [flat_map]. rewrite zlen_app, (zlen_cons f r).
  destruct (f_ref f) as [|n0|k0|k0]; [|change (zlen [n0]) with 1| |]; try change (zlen (@nil nat)) with 0; lia.
Qed.
Lemma nsyms_order m : 2 + zlen (m_secs m) + zlen (order m) <= nsyms m.
Proof.
  unfold order, nsyms, private_symbols, external_symbols. rewrite !zlen_app, used_refs.
  pose proof (once_le (filter (private m) (refs (fixups m)))). pose proof (filter_le (private m) (refs (fixups m))). pose proof (filter_le (fun n => y_comm (sym m n) || negb (y_weak (sym m n))) (m_ext m)).
  pose proof (refs_le (fixups m)).
  lia.
Qed.
Lemma set_indices_ok m : module_ok m -> nsyms m + 1 < 2 ^ 32 -> Forall (fun f => f_ref f <> RNone) (fixups m) ->
  exists t, set_indices m = Ok (t, 2 + zlen (m_secs m) + zlen (private_symbols m)) /\ inv (2 + zlen (m_secs m)) t (order m) /\ locals t = private_symbols m.
Proof.
  intros K R N. unfold set_indices. set (base := 2 + zlen (m_secs m)). pose proof (zlen_nonneg (m_secs m)) as Sn. pose proof (zlen_nonneg (m_ext m)) as En. pose proof (zlen_nonneg (m_pub m)) as Pn.
  pose proof (zlen_nonneg (fixups m)) as Fn. pose proof (nsyms_order m) as O. unfold order in O. rewrite !zlen_app in O. pose proof (zlen_nonneg (external_symbols m)) as Xn. pose proof (zlen_nonneg (private_symbols m)) as Vn.
  unfold nsyms in R, O. fold base in R, O. fold (fixups m). rewrite (wrap_small 32 base) by (unfold base in *; lia).
  destruct (scan_ok m base (fixups m)) with (t := {| symindex := base; ext_idx := fun _ => 0; included := fun n => y_included (sym m n); locals := [] |}) (L := @nil nat) as (t & E & V & EL).
  - unfold base; lia.
  - exact N.
  - intros n Hn. rewrite <- used_refs in Hn. exact (proj1 (Forall_forall _ _) (k_new _ K) n Hn).
  - split; cbn [symindex]; [change (zlen (@nil nat)) with 0; lia|]. intros [|i] n H; discriminate.
  - reflexivity.
  - intros n. cbn [included mem existsb]. now rewrite orb_false_r.
  - change (zlen (@nil nat)) with 0. lia.
  - cbn zeta in V, EL. rewrite E. cbn [bindr]. rewrite fresh_nil, <- used_refs in V, EL. fold (private_symbols m) in V, EL. cbn [app] in V, EL.
    rewrite (i_count _ _ _ V). rewrite fold_count_ext, external_eq.
    destruct (fold_set_idx base t (private_symbols m) (external_symbols m) V) as [V1 E1].
    + unfold external_symbols. apply NoDup_filter. apply (k_ext _ K).
    + intros n Hn Hp. apply external_In in Hn. apply private_In in Hp as [_ Hp]. pose proof (proj1 (Forall_forall _ _) (proj2 (k_ext _ K)) n Hn) as X. cbv beta in X. unfold private in Hp. rewrite X in Hp. discriminate.
    + unfold base; lia.
    + lia.
    + destruct (fold_set_idx base _ _ (m_pub m) V1) as [V2 E2].
      * apply (k_pub _ K).
      * intros n Hn. pose proof (proj1 (Forall_forall _ _) (proj2 (k_pub _ K)) n Hn) as [X1 X2]. rewrite in_app_iff. intros [Hp|Hp].
        -- apply private_In in Hp as [_ Hp]. unfold private in Hp. rewrite X1, X2 in Hp. discriminate.
        -- apply external_In in Hp. pose proof (proj1 (Forall_forall _ _) (proj2 (k_ext _ K)) n Hp) as X. cbv beta in X. congruence.
      * unfold base; lia.
      * rewrite zlen_app. lia.
      * eexists. split; [reflexivity|]. split; [unfold order; now rewrite app_assoc|]. now rewrite E2, E1.
Qed.
Lemma scan_none m fs : Exists (fun f => f_ref f = RNone) fs -> forall t, scan_fixups m t fs = UB.
Proof.
  induction 1 as [f fs Hf|f fs _ IH]; intros t; cbn [scan_fixups]; unfold scan_fixup; [now rewrite Hf|]. destruct (f_ref f); [reflexivity| |cbn [bindr]; apply IH..].
  destruct (_ && _); cbn [bindr]; apply IH.
Qed.
