(** Types, flags, the order of the segments, and what follows from the layout. *)
From Coq Require Import ZArith List Bool Lia Permutation Sorted.
From Verif Require Import Base Sort_Model Sort_Spec Sort_Proofs Pe_Model Pe_Spec PeReloc_Proofs PePlace_Proofs PeTable_Proofs PeAll_Proofs PeImage_Proofs PeWhole_Proofs PeLoad_Proofs.
Import ListNotations.
Open Scope Z_scope.

Local Arguments Z.pow : simpl never.
Local Arguments Z.div : simpl never.
Local Arguments Z.modulo : simpl never.

(** ** Types *)

Lemma rsrc_ok : forall n, starts_rsrc n = true <-> rsrc_name n.
Proof.
  intro n. unfold rsrc_name. split.
  - intro H. unfold starts_rsrc in H.
    repeat match type of H with
    | match ?l with [] => _ | _ :: _ => _ end = true => destruct l as [|? ?]; try discriminate
    | match ?z with Z0 => _ | Zpos _ => _ | Zneg _ => _ end = true => destruct z as [|?|?]; try discriminate
    | match ?p with xI _ => _ | xO _ => _ | xH => _ end = true => destruct p as [?|?|]; try discriminate
    end.
    + left. reflexivity.
    + apply Z.eqb_eq in H. subst. right. eexists. reflexivity.
  - intros [->|[r ->]]; reflexivity.
Qed.

Lemma type_ok : forall s t, type_of s t <-> retype s = t.
Proof.
  intros s t. unfold type_of, retype. destruct (p_stack s) eqn:ST.
  - split; [intros [[_ H]|[H _]]; congruence|intros <-; left; split; reflexivity].
  - destruct (p_type s =? T_DATA) eqn:D.
    + apply Z.eqb_eq in D.
      assert (DU : p_type s <> T_UNDEF) by (rewrite D; discriminate).
      destruct (p_ro s || (p_chars s =? 0x40)) eqn:RC.
      * assert (RC' : p_ro s = true \/ p_chars s = 64) by (apply orb_prop in RC as [H|H]; [left; exact H|right; apply Z.eqb_eq; exact H]).
        split; [|intros <-; right; split; [reflexivity|left; tauto]].
        intros [[H _]|[_ [H|[H|[H|[H|H]]]]]]; try discriminate; try tauto; [destruct H as (_ & _ & H); congruence|].
        destruct H as (_ & H1 & H2 & _). destruct RC'; [congruence|tauto].
      * apply orb_false_elim in RC as [R1 R2]. apply Z.eqb_neq in R2.
        destruct (p_const s) eqn:PC.
        -- split; [|intros <-; right; split; [reflexivity|left; tauto]].
           intros [[H _]|[_ [H|[H|[H|[H|H]]]]]]; try discriminate; try tauto; [destruct H as (_ & _ & H); congruence|].
           destruct H as (_ & _ & _ & H & _). discriminate.
        -- split; [|intros <-; right; split; [reflexivity|right; left; tauto]].
           intros [[H _]|[_ [H|[H|[H|[H|H]]]]]]; try discriminate; try tauto.
           ++ destruct H as (_ & [H|[H|H]] & _); [congruence|tauto|discriminate].
           ++ destruct H as (_ & _ & _ & _ & H). congruence.
    + apply Z.eqb_neq in D. destruct (p_type s =? T_UNDEF) eqn:U; cbn [andb].
      * apply Z.eqb_eq in U. destruct (starts_rsrc (p_name s)) eqn:SR.
        -- apply rsrc_ok in SR. split; [|intros <-; right; split; [reflexivity|right; right; left; tauto]].
           intros [[H _]|[_ [H|[H|[H|[H|H]]]]]]; try discriminate; try tauto. destruct H as (_ & _ & H). congruence.
        -- assert (NR : ~ rsrc_name (p_name s)) by (rewrite <- rsrc_ok; congruence).
           split; [|intros <-; right; split; [reflexivity|right; right; right; left; tauto]].
           intros [[H _]|[_ [H|[H|[H|[H|H]]]]]]; try discriminate; try tauto. destruct H as (_ & _ & H). congruence.
      * apply Z.eqb_neq in U. split; [|intros <-; right; split; [reflexivity|right; right; right; right; tauto]].
        intros [[H _]|[_ [H|[H|[H|[H|H]]]]]]; try discriminate; try tauto. destruct H as (_ & _ & H). congruence.
Qed.

Lemma other_type : forall segs, Forall (fun s => p_type s <> T_RELOC) segs -> Forall (fun s => retype s <> T_RELOC) segs.
Proof.
  intros segs F. eapply Forall_impl; [|exact F]. intros s H. cbv beta in *. unfold retype.
  destruct (p_stack s); [discriminate|]. destruct (p_type s =? T_DATA); [destruct (p_ro s || _); [discriminate|destruct (p_const s); discriminate]|].
  destruct (_ && _); [discriminate|exact H].
Qed.

(** ** Flags *)

Lemma low25 : forall r i, 0 <= i -> Z.testbit (Z.land r 0x1FFFFFF) i = (i <? 25) && Z.testbit r i.
Proof.
  intros r i I0. change 0x1FFFFFF with (Z.ones 25). rewrite Z.land_spec. destruct (i <? 25) eqn:E.
  - apply Z.ltb_lt in E. rewrite Z.ones_spec_low by lia. apply andb_true_r.
  - apply Z.ltb_ge in E. rewrite Z.ones_spec_high by lia. apply andb_false_r.
Qed.

Lemma flags_ok : forall s i, 0 <= i -> 0 <= p_chars s < 256 -> Z.testbit (characteristics s) i = flag s i.
Proof.
  intros s i I0 C. unfold characteristics, flag.
  assert (ST : (if p_type s =? T_CODE then 0x60000020 else if p_type s =? T_BSS then 0xC0000080 else if p_stack s && (p_written s =? 0) then 0xC0000080
    else if p_ro s then 0x40000040 else if p_const s then 0x40000040 else 0xC0000040) = standard s).
  { unfold standard, bss. destruct (p_type s =? T_CODE); [reflexivity|]. destruct (p_type s =? T_BSS); [reflexivity|]. cbn [orb].
    destruct (p_stack s && _); [reflexivity|]. destruct (p_ro s), (p_const s); reflexivity. }
  rewrite ST. cbv zeta. destruct (p_chars s =? 0); [reflexivity|].
  rewrite Z.lor_spec, low25 by exact I0. rewrite Z.shiftl_spec by exact I0.
  destruct (i <? 25) eqn:E.
  - apply Z.ltb_lt in E. cbn [andb]. destruct (Z.eq_dec i 24) as [->|N].
    + assert (T : Z.testbit (Z.land (p_chars s) 254) (24 - 24) = false) by (rewrite Z.land_spec; apply andb_false_r). rewrite T. apply orb_false_r.
    + rewrite (Z.testbit_neg_r _ (i - 24)) by lia. apply orb_false_r.
  - apply Z.ltb_ge in E. cbn [andb orb]. rewrite Z.land_spec.
    destruct (i <? 32) eqn:E2.
    + apply Z.ltb_lt in E2. assert (T : Z.testbit 254 (i - 24) = true).
      { assert (i = 25 \/ i = 26 \/ i = 27 \/ i = 28 \/ i = 29 \/ i = 30 \/ i = 31) as Q by lia. repeat (destruct Q as [->|Q]; [reflexivity|]). subst; reflexivity. }
      rewrite T. apply andb_true_r.
    + apply Z.ltb_ge in E2. rewrite <- (Z.mod_small (p_chars s) (2 ^ 8)) by exact C. rewrite Z.mod_pow2_bits_high by lia. reflexivity.
Qed.

(** ** The order *)

Lemma typed_spec : forall segs, Forall2 (fun s t => type_of s (p_type t) /\ same_but_type s t) segs (typed segs).
Proof.
  induction segs as [|s r IH]; [constructor|]. cbn [typed map]. constructor; [|exact IH].
  split; [apply type_ok; reflexivity|constructor; reflexivity].
Qed.

Lemma order_ok : forall relocs k m segs, 0 <= k <= 16 -> Forall (fun s => p_type s <> T_RELOC) segs ->
  exists v ts, pe_set_values relocs (2 ^ k) (2 ^ m) segs = Some v /\
    Forall2 (fun s t => type_of s (p_type t) /\ same_but_type s t) segs ts /\
    if relocs then exists r, reloc_section r /\ stably_sorted behind (ts ++ [r]) (map q_s (v_segs v))
    else stably_sorted behind ts (map q_s (v_segs v)).
Proof.
  intros relocs k m segs K NR0. pose proof (other_type segs NR0) as NR. pose proof (typed_other segs NR) as NT.
  destruct relocs.
  - destruct (values_relocs k m segs K) as (l & ST & VR). pose proof (place_segs k (2 ^ m) l true (-1) 0 0) as PS.
    destruct (place k (2 ^ m) true (-1) 0 0 l) as [pl rva]. cbn [fst] in PS. destruct (base_relocs pl) as [size b].
    eexists. exists (typed segs). split; [exact VR|]. split; [apply typed_spec|]. cbn [values_of v_segs].
    assert (LM : map q_s (map (set_reloc size b) pl) = map (with_relocs size b) l).
    { rewrite <- PS, !map_map. apply map_ext. intro. apply set_reloc_seg. }
    rewrite LM. exists (with_relocs size b reloc_seg). split; [constructor; try reflexivity; discriminate|].
    apply (stably_ext _ gt_model behind); [exact order_eq|].
    assert (L1 : map (with_relocs size b) (typed segs ++ [reloc_seg]) = typed segs ++ [with_relocs size b reloc_seg]).
    { rewrite map_app. cbn [map]. f_equal. rewrite <- (map_id (typed segs)) at 2. apply map_ext_in. intros s X. unfold with_relocs.
      rewrite Forall_forall in NT. specialize (NT s X). apply Z.eqb_neq in NT. rewrite NT. reflexivity. }
    rewrite <- L1. apply stably_map; [apply with_key|exact ST].
  - destruct (values_plain k m segs K) as (l & ST & VR). pose proof (place_segs k (2 ^ m) l true (-1) 0 0) as PS.
    destruct (place k (2 ^ m) true (-1) 0 0 l) as [pl rva]. cbn [fst] in PS.
    eexists. exists (typed segs). split; [exact VR|]. split; [apply typed_spec|]. cbn [values_of v_segs]. rewrite PS.
    apply (stably_ext _ gt_model behind); [exact order_eq|exact ST].
Qed.

Lemma asc_v : forall relocs k m segs v, 0 <= k <= 16 -> Forall (fun s => p_type s <> T_RELOC) segs ->
  pe_set_values relocs (2 ^ k) (2 ^ m) segs = Some v -> ascending (-1) (map q_s (v_segs v)).
Proof.
  intros relocs k m segs v K NR E. destruct (order_ok relocs k m segs K NR) as (v' & ts & E' & _ & H). rewrite E in E'. injection E' as <-.
  assert (SS : StronglySorted (fun a b => behind a b = false) (map q_s (v_segs v))) by (destruct relocs; [destruct H as (r & _ & _ & H & _)|destruct H as (_ & H & _)]; exact H).
  apply sorted_neg. clear - SS. induction SS as [|a r S1 IH S2]; constructor; [exact IH|]. eapply Forall_impl; [|exact S2]. intros b B. cbv beta in *. unfold gt_model. rewrite order_eq. exact B.
Qed.

(** ** Sections and segments *)

Lemma bases_pairs : forall k m R b f, 0 <= k -> 0 <= m -> Forall (okrun k) R ->
  ForallOrdPairs (fun x y : sect => t_va x + t_vsize x <= t_va y) (map (section_of (2 ^ k)) (bases (2 ^ k) (2 ^ m) b f R)).
Proof.
  intros k m. induction R as [|r R IH]; intros b f K M OK; [constructor|]. inversion OK as [|? ? [O1 O2] O3]; subst.
  cbn [bases map]. cbv zeta. cbn [map]. constructor; [|apply IH; assumption].
  apply Forall_forall. intros y Y. apply in_map_iff in Y as ([[b' f'] r'] & <- & Y). cbn [section_of t_va t_vsize].
  apply (bases_bounds k m R _ _ b' f' r' K M O3 Y).
Qed.

Lemma sections_ok : forall k m l, regular k m l -> ascending (-1) l ->
  let t := table (2 ^ k) (2 ^ m) l in
  ForallOrdPairs (fun x y : sect => t_va x + t_vsize x <= t_va y) t /\
  Forall (fun x => (2 ^ m | t_va x) /\ (2 ^ k | t_ptr x) /\ (2 ^ k | t_raw x) /\ 0 < t_vsize x /\ 0 < t_va x /\
    t_va x + t_vsize x <= up (2 ^ m) (fst (ends (2 ^ k) (2 ^ m) 0 0 (runs l)))) t.
Proof.
  intros k m l RG A t. assert (KM : 0 <= k /\ 0 <= m) by (pose proof (re_k _ _ _ RG); lia). destruct KM as [K M].
  destruct (regular_split k m l RG A) as (h & R & RE & HN & HH & SH & OKH & CH & RN & TR & NH & EX & CC).
  assert (OKR : Forall (okrun k) R) by (eapply Forall_impl; [|exact TR]; intros a X; exact (proj1 X)).
  assert (HB1 : is_hdr h = true) by (destruct h; [congruence|]; cbn [is_hdr]; rewrite (Forall_inv HH); reflexivity).
  unfold t, table. rewrite RE. cbn [bases filter snd]. cbv zeta. rewrite HB1. cbn [negb]. rewrite filter_bases by exact NH.
  match goal with |- context [bases _ _ ?x ?y R] => set (b0 := x); set (f0 := y) end.
  split; [apply bases_pairs; assumption|].
  apply Forall_forall. intros y Y. apply in_map_iff in Y as ([[b f] r] & <- & Y).
  destruct (bases_bounds k m R b0 f0 b f r K M OKR Y) as [B1 B2].
  destruct (bases_mult k m R b0 f0 b f r K OKR (chain_nonempty R 0 CH) Y) as (D1 & D2 & _).
  pose proof (bases_in _ _ _ _ _ _ _ _ Y) as RI. rewrite Forall_forall in TR. destruct (TR r RI) as [[SO AL] LA].
  assert (E0 : 0 < extent 0 r).
  { pose proof (extent_ge r 0 (sized r SO)) as EG.
    assert (S0 : 0 < sizes r); [|lia].
    destruct r as [|s u]; [exfalso; pose proof (chain_nonempty R 0 CH) as CN; rewrite Forall_forall in CN; exact (CN [] RI eq_refl)|].
    specialize (LA s). revert LA SO. clear. revert s. 
    assert (G : forall w s d, 0 < p_size (last (s :: w) d) -> Forall sound (s :: w) -> 0 < sizes (s :: w)).
    { induction w as [|y w IH]; intros s d L F.
      - unfold sizes. cbn [last fold_right] in *. lia.
      - inversion F as [|? ? F1 F2]; subst. specialize (IH y d L F2). pose proof (so_size s F1). unfold sizes in *. cbn [fold_right] in *. lia. }
    intros s LA SO. exact (G u s s LA SO). }
  assert (B0 : 0 < b0).
  { unfold b0. rewrite up_zero by (apply pow_pos; exact M). lia. }
  cbn [section_of t_va t_vsize t_ptr t_raw].
  split; [exact D1|]. split; [destruct (is_bss r); [apply Z.divide_0_r|exact D2]|]. split; [destruct (is_bss r); [apply Z.divide_0_r|apply up_divide]|].
  split; [exact E0|]. split; [lia|].
  cbn [ends]. cbv zeta. fold b0 f0. pose proof (up_bounds (2 ^ m) (fst (ends (2 ^ k) (2 ^ m) b0 f0 R)) (pow_pos m M)). lia.
Qed.

Lemma lay_aligned : forall r b f e q, Forall sound r -> In q (lay b f e r) -> (2 ^ p_align (q_s q) | b) -> (2 ^ p_align (q_s q) | q_rva q).
Proof.
  induction r as [|s r IH]; intros b f e q F X D; [destruct X|]. inversion F as [|? ? F1 F2]; subst. cbn [lay] in X. destruct X as [X|X].
  - subst q. cbn [q_s q_rva] in *. apply Z.divide_add_r; [exact D|apply up_divide].
  - apply (IH _ _ _ _ F2 X D).
Qed.

Lemma lay_pairs : forall r b f e, Forall sound r -> ForallOrdPairs (fun p q => q_rva p + p_size (q_s p) <= q_rva q) (lay b f e r).
Proof.
  induction r as [|s r IH]; intros b f e F; [constructor|]. inversion F as [|? ? F1 F2]; subst. cbn [lay]. constructor; [|apply IH; exact F2].
  apply Forall_forall. intros q Q. cbn [q_rva q_s]. pose proof (lay_bounds r b f _ q F2 Q). lia.
Qed.

Lemma pairs_app : forall A (P : A -> A -> Prop) l l', ForallOrdPairs P l -> ForallOrdPairs P l' -> (forall x y, In x l -> In y l' -> P x y) -> ForallOrdPairs P (l ++ l').
Proof.
  intros A P l l' H. induction H as [|a l H1 H2 IH]; intros H3 C; [exact H3|]. cbn [app]. constructor.
  - apply Forall_app. split; [exact H1|]. apply Forall_forall. intros y Y. apply C; [left; reflexivity|exact Y].
  - apply IH; [exact H3|]. intros x y X Y. apply C; [right; exact X|exact Y].
Qed.

Lemma segs_pairs : forall k m R b f, 0 <= k -> 0 <= m -> Forall (okrun k) R ->
  ForallOrdPairs (fun p q => q_rva p + p_size (q_s p) <= q_rva q) (flat_map alone (bases (2 ^ k) (2 ^ m) b f R)).
Proof.
  intros k m. induction R as [|r R IH]; intros b f K M OK; [constructor|]. inversion OK as [|? ? [O1 O2] O3]; subst.
  cbn [bases flat_map]. cbv zeta. cbn [alone]. apply pairs_app; [apply lay_pairs; exact O1|apply IH; assumption|].
  intros p q P Q. pose proof (lay_bounds r _ _ 0 p O1 P) as L1. apply in_flat_map in Q as ([[b' f'] r'] & Q1 & Q2). cbn [alone] in Q2.
  pose proof (bases_bounds k m R _ _ b' f' r' K M O3 Q1) as L2.
  assert (SR : Forall sound r') by (rewrite Forall_forall in O3; apply (O3 r'); eapply bases_in; exact Q1).
  pose proof (lay_bounds r' b' f' 0 q SR Q2) as L3. lia.
Qed.

Lemma segments_ok : forall k m l, regular k m l ->
  ForallOrdPairs (fun p q => q_rva p + p_size (q_s p) <= q_rva q) (positions (2 ^ k) (2 ^ m) l) /\
  Forall (fun q => p_align (q_s q) <= m -> (2 ^ p_align (q_s q) | q_rva q)) (positions (2 ^ k) (2 ^ m) l).
Proof.
  intros k m l RG. pose proof (regular_runs k m l RG) as OK. assert (KM : 0 <= k /\ 0 <= m) by (pose proof (re_k _ _ _ RG); lia). destruct KM as [K M].
  split; [apply (segs_pairs k m (runs l) 0 0 K M OK)|].
  apply Forall_forall. intros q Q L. destruct (positions_bounds k m l q RG Q) as (_ & _ & SQ). destruct SQ as [SA _ _ _ _].
  unfold positions in Q. apply in_flat_map in Q as ([[b f] r] & Q1 & Q2).
  assert (SR : Forall sound r) by (rewrite Forall_forall in OK; apply (OK r); eapply bases_in; exact Q1).
  apply (lay_aligned r b f 0 q SR Q2).
  assert (NE : Forall (fun r => r <> []) (runs l)).
  { clear. induction l as [|s l IH]; [constructor|]. cbn [runs]. destruct (runs l) as [|[|x g] t]; [repeat constructor; discriminate|inversion IH; congruence|].
    inversion IH; subst. destruct (p_type s =? p_type x); repeat constructor; try discriminate; assumption. }
  eapply Z.divide_trans; [|apply (bases_mult k m (runs l) 0 0 b f r K OK NE Q1)]. apply pow_div. lia.
Qed.
