From Verif Require Import Base CondAsm_Model CondAsm_Spec.

Section P.
Variables S X E N : Type.
Variable exec : X -> S -> S.
Variable evalexp : E -> S -> option Z * S.
Variable defined : N -> S -> bool.
Variable setif2 : S -> bool.
Hypothesis small : forall e s v s', evalexp e s = (Some v, s') -> - 2 ^ 31 <= v < 2 ^ 32.
Hypothesis if2ok : forall s, setif2 s = true.

Notation run_lines := (run_lines S X E N exec evalexp defined setif2).
Notation run_line := (run_line S X E N exec evalexp defined setif2).
Notation den := (den S X E N exec evalexp defined).
Notation den_tail := (den_tail S X E N exec evalexp defined).
Notation test := (test S E N evalexp defined).
Notation next_state := (next_state S E N evalexp defined setif2).
Notation SkipMacro := (@SkipMacro X E N).

Lemma check_blank_spec s : check_blank s = blank s.
Proof.
  unfold blank. induction s; cbn [forallb check_blank]; auto. rewrite <- IHs. unfold isspace.
  cbn [existsb]. destruct (check_blank s); [|destruct (_ || _)%bool; auto; rewrite andb_false_r; auto].
  destruct (_ || _)%bool eqn:A, (_ && _)%bool eqn:B; auto; lia.
Qed.

Lemma strdiff_spec f a b : strdiff f a b = negb (same (map f a) (map f b)).
Proof.
  unfold same. revert b; induction a as [|x a IHa]; destruct b as [|y b]; cbn [strdiff map].
  1-3: destruct (list_eq_dec _ _ _); cbn; congruence.
  rewrite IHa. destruct (f x =? f y) eqn:Q.
  - destruct (list_eq_dec _ (map f a) _), (list_eq_dec _ (f x :: _) _); auto; try congruence.
    exfalso; apply n. f_equal; auto. lia.
  - destruct (list_eq_dec _ (f x :: _) _); auto. inversion e. lia.
Qed.
Lemma same_id a b : same (map (fun c => c) a) (map (fun c => c) b) = same a b.
Proof. rewrite !map_id. reflexivity. Qed.

Lemma next_state_spec c s : next_state c s = Ok (st_of (fst (test c s)), snd (test c s)).
Proof.
  destruct c; cbn -[Z.eqb]; auto.
  - destruct (evalexp e s) as [[v|] s'] eqn:Q; cbn -[Z.eqb]; auto. apply small in Q.
    replace (swrap 32 v =? 0) with (v =? 0); auto. unfold swrap. cbn. lia.
  - destruct (evalexp e s) as [[v|] s'] eqn:Q; cbn -[Z.eqb]; auto. apply small in Q.
    replace (swrap 32 v =? 0) with (v =? 0); auto. unfold swrap. cbn. lia.
  - rewrite if2ok. auto.
  - rewrite check_blank_spec. auto.
  - rewrite check_blank_spec. auto.
  - destruct (defined n s); auto.
  - rewrite strdiff_spec, same_id. auto.
  - rewrite strdiff_spec. auto.
  - rewrite strdiff_spec, same_id, negb_involutive. auto.
  - rewrite strdiff_spec, negb_involutive. auto.
Qed.

(** the state is back to "assembling" at the same nesting level; the ELSE bits of
    the enclosing blocks are untouched *)
Definition sane (n : Z) (st st' : cst) : Prop :=
  ifst st' = BLOCK_ACTIVE /\ lvl st' = n /\ flvl st' = 0 /\ errs st' = errs st /\
  forall i, 0 <= i < n -> Z.testbit (elseocc st') i = Z.testbit (elseocc st) i.

Lemma sane_trans n a b c : sane n a b -> sane n b c -> sane n a c.
Proof.
  intros (?&?&?&?&A) (?&?&?&?&B). repeat split; auto; try congruence.
  intros. rewrite B, A; auto.
Qed.
Lemma sane_refl st : ifst st = BLOCK_ACTIVE -> flvl st = 0 -> sane (lvl st) st st.
Proof. repeat split; auto. Qed.

(** *** bits *)
Lemma bit_clear e i : 0 <= i -> Z.land e (Z.shiftl 1 i) = 0 <-> Z.testbit e i = false.
Proof.
  intros. split; intro A.
  - pose proof (f_equal (fun z => Z.testbit z i) A) as B. cbn in B.
    rewrite Z.land_spec, Z.shiftl_spec, Z.sub_diag, Z.bits_0 in B by auto. cbn in B.
    rewrite andb_true_r in B. auto.
  - apply Z.bits_inj'. intros j J. rewrite Z.land_spec, Z.shiftl_spec, Z.bits_0 by auto.
    destruct (Z.eq_dec i j) as [->|D]. { rewrite A. auto. }
    replace (Z.testbit 1 (j - i)) with false. { apply andb_false_r. }
    destruct (Z.ltb_spec (j - i) 0). { rewrite Z.testbit_neg_r; auto. }
    change 1 with (2 ^ 0). rewrite Z.pow2_bits_false; auto. lia.
Qed.
Lemma shl1_bit i j : 0 <= i -> 0 <= j -> Z.testbit (Z.shiftl 1 i) j = (i =? j).
Proof.
  intros. rewrite Z.shiftl_1_l. destruct (Z.eqb_spec i j) as [->|D].
  - apply Z.pow2_bits_true; auto.
  - apply Z.pow2_bits_false; auto.
Qed.

(** *** text inside a block that is not assembled changes nothing *)
Definition off (st : cst) : Prop := ifst st <> BLOCK_ACTIVE /\ 0 < lvl st /\ 0 <= flvl st.

Lemma off_inact st : off st -> is_active (ifst st) = false.
Proof. intros (A & _). destruct (ifst st); cbn; congruence. Qed.

Lemma run_cons l k st s : run_lines (l :: k) st s =
  bindr (run_line l st s) (fun o => let '(st', s', ex) := o in
     if ex : bool then Ok (SkipMacro k st', s', true) else run_lines k st' s').
Proof. reflexivity. Qed.

Definition bump st := mkcst (ifst st) (lvl st) (flvl st + 1) (elseocc st) (errs st).

Lemma off_bump st : off st -> off (bump st).
Proof. intros (A & B & C). repeat split; cbn; auto; lia. Qed.

Lemma prepare_if_off c st : off st -> prepare E N (DIf c) st = bump st.
Proof. intros O. cbn. rewrite off_inact; auto. Qed.
Lemma prepare_else_off d st : off st -> 0 < flvl st -> (d = DElse \/ exists c, d = DElseif c) -> prepare E N d st = st.
Proof.
  intros (A & B & C) F [->|[c ->]]; cbn; destruct (lvl st =? 0) eqn:Q; try lia; cbn;
  destruct (flvl st >? 0) eqn:R; auto; lia.
Qed.
Lemma prepare_endif_bump st : off st -> prepare E N DEndif (bump st) = st.
Proof.
  intros (A & B & C). cbn. destruct (lvl st =? 0) eqn:Q; [lia|]. cbn.
  destruct (_ >? 0) eqn:R; [|lia]. destruct st; cbn in *. f_equal. lia.
Qed.

Lemma run_dir_off d k st st' s : prepare E N d st = st' -> ifst st' <> BLOCK_ACTIVE ->
  run_lines (LDir d :: k) st s = run_lines k st' s.
Proof.
  intros P A. rewrite run_cons. cbn [run_line CondAsm_Model.run_line]. unfold CondAsmDirective. rewrite P.
  destruct (ifst st'); try congruence; reflexivity.
Qed.

Lemma off_text :
  (forall p k st s, off st -> run_lines (flatten p ++ k) st s = run_lines k st s) /\
  (forall t k st s, off st -> 0 < flvl st -> run_lines (flat_tail t ++ k) st s = run_lines k st s).
Proof.
  apply prog_tail_ind; intros; cbn [flatten flat_tail app]; auto.
  - rewrite run_cons. cbn [CondAsm_Model.run_line]. rewrite off_inact by auto. cbn. auto.
  - rewrite <- !app_assoc. cbn [app].
    pose proof (off_bump _ H2) as OB.
    rewrite (run_dir_off _ _ _ (bump st)) by (auto using prepare_if_off; apply OB).
    rewrite H by auto. rewrite H0; auto. 2:{ destruct H2; cbn; lia. }
    rewrite (run_dir_off _ _ _ st); auto using prepare_endif_bump. apply H2.
  - rewrite run_cons. cbn [CondAsm_Model.run_line]. rewrite off_inact by auto. cbn. auto.
  - rewrite run_cons. cbn [CondAsm_Model.run_line]. rewrite off_inact by auto. cbn. auto.
  - rewrite (run_dir_off _ _ _ st); auto using prepare_else_off. apply H0.
  - rewrite <- app_assoc. rewrite (run_dir_off _ _ _ st). 3: apply H1.
    2:{ apply prepare_else_off; eauto. }
    rewrite H by auto. auto.
Qed.

Lemma skip_off :
  (forall p k st, off st -> SkipMacro (flatten p ++ k) st = SkipMacro k st) /\
  (forall t k st, off st -> 0 < flvl st -> SkipMacro (flat_tail t ++ k) st = SkipMacro k st).
Proof.
  apply prog_tail_ind; intros; cbn [flatten flat_tail app]; auto.
  - apply (H k0 st H0).
  - rewrite <- !app_assoc. cbn [app].
    unfold CondAsm_Model.SkipMacro. cbn [fold_left skip_line].
    rewrite prepare_if_off by auto. pose proof (off_bump _ H2) as OB.
    change (fold_left (skip_line X E N) ?l ?s) with (SkipMacro l s).
    rewrite H by auto. rewrite H0; auto. 2:{ destruct H2; cbn; lia. }
    unfold CondAsm_Model.SkipMacro. cbn [fold_left skip_line]. rewrite prepare_endif_bump by auto.
    apply H1; auto.
  - apply (H0 k0 st H1).
  - apply (H k0 st H0).
  - unfold CondAsm_Model.SkipMacro. cbn [fold_left skip_line]. rewrite prepare_else_off by auto. apply H; auto.
  - rewrite <- app_assoc. unfold CondAsm_Model.SkipMacro. cbn [fold_left skip_line]. rewrite prepare_else_off by eauto.
    change (fold_left (skip_line X E N) ?l ?s) with (SkipMacro l s). rewrite H by auto. apply H0; auto.
Qed.

(** *** the rest of a chain whose branch has been taken, and the ENDIF *)
Definition in_block (n : Z) (st : cst) : Prop := lvl st = n + 1 /\ flvl st = 0 /\ 0 <= n.

Lemma endif_step n st : in_block n st -> 
  exists st', prepare E N DEndif st = st' /\ sane n st st'.
Proof.
  intros (L & F & P). eexists; split; eauto. cbn. rewrite L, F. destruct (n + 1 =? 0) eqn:Q; [lia|].
  cbn. repeat split; cbn; auto; lia.
Qed.

Lemma else_taken n st d : in_block n st -> Z.testbit (elseocc st) n = false ->
  ifst st <> BLOCK_INACTIVE -> (d = DElse \/ exists c, d = DElseif c) ->
  exists st', prepare E N d st = st' /\ in_block n st' /\ ifst st' = BLOCK_DONE /\ errs st' = errs st /\
    (forall i, 0 <= i < n -> Z.testbit (elseocc st') i = Z.testbit (elseocc st) i) /\
    (d <> DElse -> Z.testbit (elseocc st') n = false).
Proof.
  intros (L & F & P) B I D. eexists; split; eauto.
  unfold prepare. rewrite L, F. destruct (n + 1 =? 0) eqn:Q; [lia|]. cbn [negb].
  replace (n + 1 - 1) with n by lia.
  replace (Z.land (elseocc st) (Z.shiftl 1 n)) with 0 by (symmetry; apply bit_clear; auto).
  change (0 >? 0) with false. cbn [Z.eqb negb].
  destruct D as [->|[c ->]]; cbn [ifst lvl flvl elseocc errs]; repeat split; auto;
    try (destruct (ifst st); congruence).
  - intros. rewrite Z.lor_spec, shl1_bit by lia. destruct (n =? i) eqn:Q2; [lia|]. apply orb_false_r.
Qed.

(** after the chain's taken branch: everything up to and including ENDIF is skipped *)
Lemma done_tail : forall t k st n,
  in_block n st -> ifst st = BLOCK_DONE -> Z.testbit (elseocc st) n = false ->
  exists st', sane n st st' /\
  (forall s, run_lines (flat_tail t ++ LDir DEndif :: k) st s = run_lines k st' s) /\
  SkipMacro (flat_tail t ++ LDir DEndif :: k) st = SkipMacro k st'.
Proof.
  induction t; intros k st n IB D B; cbn [flat_tail app].
  - destruct (endif_step n st IB) as (st' & P & SN). exists st'. split; auto. split.
    + intros s. rewrite run_cons. cbn [CondAsm_Model.run_line]. rewrite P. unfold CondAsmDirective.
      destruct SN as (A & ?). rewrite A. cbn. destruct st'; cbn in A; subst. reflexivity.
    + unfold CondAsm_Model.SkipMacro. cbn. cbn in P. rewrite P. reflexivity.
  - destruct (else_taken n st DElse IB B) as (s1 & P & IB1 & D1 & E1 & B1 & _); auto; [congruence|].
    destruct (endif_step n s1 IB1) as (st' & P' & SN). exists st'.
    assert (O : off s1). { destruct IB1 as (?&?&?). repeat split; try lia. congruence. }
    split. { destruct SN as (?&?&?&?&Q). repeat split; auto; try congruence. intros. rewrite Q, B1; auto. }
    split.
    + intros s. rewrite (run_dir_off _ _ _ s1); auto; [|congruence].
      rewrite (proj1 off_text) by auto.
      rewrite run_cons. cbn [CondAsm_Model.run_line]. rewrite P'. unfold CondAsmDirective.
      destruct SN as (A & ?). rewrite A. cbn. destruct st'; cbn in A; subst. reflexivity.
    + unfold CondAsm_Model.SkipMacro. cbn [fold_left skip_line]. rewrite P. change (fold_left (skip_line X E N) ?l ?s) with (SkipMacro l s).
      rewrite (proj1 skip_off) by auto. unfold CondAsm_Model.SkipMacro. cbn [fold_left skip_line]. rewrite P'. reflexivity.
  - destruct (else_taken n st (DElseif c) IB B) as (s1 & P & IB1 & D1 & E1 & B1 & B2); eauto; [congruence|].
    destruct (IHt k s1 n IB1 D1) as (st' & SN & R & K). { apply B2. congruence. }
    assert (O : off s1). { destruct IB1 as (?&?&?). repeat split; try lia. congruence. }
    exists st'. split. { destruct SN as (?&?&?&?&Q). repeat split; auto; try congruence. intros. rewrite Q, B1; auto. }
    rewrite <- app_assoc. split.
    + intros s. rewrite (run_dir_off _ _ _ s1); auto; [|congruence].
      rewrite (proj1 off_text) by auto. auto.
    + unfold CondAsm_Model.SkipMacro. cbn [fold_left skip_line]. rewrite P. change (fold_left (skip_line X E N) ?l ?s) with (SkipMacro l s).
      rewrite (proj1 skip_off) by auto. auto.
Qed.

(** same, starting in the taken (active) branch *)
Lemma taken_tail : forall t k st n,
  in_block n st -> ifst st = BLOCK_ACTIVE -> Z.testbit (elseocc st) n = false ->
  exists st', sane n st st' /\
  (forall s, run_lines (flat_tail t ++ LDir DEndif :: k) st s = run_lines k st' s) /\
  SkipMacro (flat_tail t ++ LDir DEndif :: k) st = SkipMacro k st'.
Proof.
  intros t k st n IB A B. destruct t; cbn [flat_tail app].
  - destruct (endif_step n st IB) as (st' & P & SN). exists st'. split; auto. split.
    + intros s. rewrite run_cons. cbn [CondAsm_Model.run_line]. rewrite P. unfold CondAsmDirective.
      destruct SN as (A' & ?). rewrite A'. cbn. destruct st'; cbn in A'; subst. reflexivity.
    + unfold CondAsm_Model.SkipMacro. cbn. cbn in P. rewrite P. reflexivity.
  - destruct (else_taken n st DElse IB B) as (s1 & P & IB1 & D1 & E1 & B1 & _); auto; [congruence|].
    destruct (endif_step n s1 IB1) as (st' & P' & SN). exists st'.
    assert (O : off s1). { destruct IB1 as (?&?&?). repeat split; try lia. congruence. }
    split. { destruct SN as (?&?&?&?&Q). repeat split; auto; try congruence. intros. rewrite Q, B1; auto. }
    split.
    + intros s. rewrite (run_dir_off _ _ _ s1); auto; [|congruence].
      rewrite (proj1 off_text) by auto.
      rewrite run_cons. cbn [CondAsm_Model.run_line]. rewrite P'. unfold CondAsmDirective.
      destruct SN as (A' & ?). rewrite A'. cbn. destruct st'; cbn in A'; subst. reflexivity.
    + unfold CondAsm_Model.SkipMacro. cbn [fold_left skip_line]. rewrite P. change (fold_left (skip_line X E N) ?l ?s) with (SkipMacro l s).
      rewrite (proj1 skip_off) by auto. unfold CondAsm_Model.SkipMacro. cbn [fold_left skip_line]. rewrite P'. reflexivity.
  - destruct (else_taken n st (DElseif c) IB B) as (s1 & P & IB1 & D1 & E1 & B1 & B2); eauto; [congruence|].
    destruct (done_tail t k s1 n IB1 D1) as (st' & SN & R & K). { apply B2. congruence. }
    assert (O : off s1). { destruct IB1 as (?&?&?). repeat split; try lia. congruence. }
    exists st'. split. { destruct SN as (?&?&?&?&Q). repeat split; auto; try congruence. intros. rewrite Q, B1; auto. }
    rewrite <- app_assoc. split.
    + intros s. rewrite (run_dir_off _ _ _ s1); auto; [|congruence].
      rewrite (proj1 off_text) by auto. auto.
    + unfold CondAsm_Model.SkipMacro. cbn [fold_left skip_line]. rewrite P. change (fold_left (skip_line X E N) ?l ?s) with (SkipMacro l s).
      rewrite (proj1 skip_off) by auto. auto.
Qed.

(** *** IF in assembled text *)
Lemma if_step c st : ifst st = BLOCK_ACTIVE -> flvl st = 0 -> 0 <= lvl st < MAX_IF_NESTING ->
  exists st', prepare E N (DIf c) st = st' /\ in_block (lvl st) st' /\ ifst st' = BLOCK_ACTIVE /\ errs st' = errs st /\
    Z.testbit (elseocc st') (lvl st) = false /\
    (forall i, 0 <= i < lvl st -> Z.testbit (elseocc st') i = Z.testbit (elseocc st) i).
Proof.
  intros A F L. eexists; split; eauto. cbn. rewrite A. cbn. destruct (_ =? _) eqn:Q; [lia|].
  repeat split; cbn; auto; try lia.
  - rewrite Z.ldiff_spec, shl1_bit, Z.eqb_refl by lia. apply andb_false_r.
  - intros. rewrite Z.ldiff_spec, shl1_bit by lia. destruct (lvl st =? i) eqn:Q2; [lia|]. apply andb_true_r.
Qed.

Lemma depth_nonneg : (forall p : prog X E N, 0 <= depth p) /\ (forall t : tail X E N, 0 <= depth_tail t).
Proof. apply prog_tail_ind; intros; cbn [depth depth_tail]; try lia; assumption. Qed.

Ltac refold := fold (@flat_tail X E N) (@depth_tail X E N) (@flatten X E N) (@depth X E N) den den_tail in *.
Lemma skip_cons d k st : SkipMacro (LDir d :: k) st = SkipMacro k (prepare E N d st).
Proof. reflexivity. Qed.

Lemma sane_block n st s1 s2 :
  lvl s1 = n + 1 -> errs s1 = errs st -> (forall i, 0 <= i < n -> Z.testbit (elseocc s1) i = Z.testbit (elseocc st) i) ->
  sane (lvl s1) s1 s2 -> forall s3, sane n s2 s3 -> sane n st s3.
Proof.
  intros L E1 B (A2 & L2 & F2 & E2 & B2) s3 (A3 & L3 & F3 & E3 & B3).
  repeat split; auto; try congruence. intros. rewrite B3, B2, B; auto. lia.
Qed.

(** *** skipping properly nested text (after EXITM) *)
Lemma skip_prog : forall p st, ifst st = BLOCK_ACTIVE -> flvl st = 0 -> 0 <= lvl st -> lvl st + depth p <= MAX_IF_NESTING ->
     forall k, exists st', sane (lvl st) st st' /\ SkipMacro (flatten p ++ k) st = SkipMacro k st'.
Proof.
  fix IH 1. intros p st A F L D k0.
  destruct p as [|x k|c b t k|b k|k]; cbn [flatten flat_tail app depth depth_tail] in *; refold.
  - exists st. split; auto using sane_refl.
  - destruct (IH k st A F L D k0) as (st' & SN & R). exists st'; auto.
  - rewrite <- !app_assoc. cbn [app].
    pose proof (proj1 depth_nonneg b).
    destruct (if_step c st A F ltac:(lia)) as (s1 & P & (L1 & F1 & P1) & A1 & E1 & B1 & B2).
    rewrite skip_cons, P.
    destruct (IH b s1 A1 F1 ltac:(lia) ltac:(lia) (flat_tail t ++ LDir DEndif :: flatten k ++ k0)) as (s2 & SN2 & R2).
    rewrite R2. pose proof SN2 as (A2 & L2 & F2 & E2 & B3).
    destruct (taken_tail t (flatten k ++ k0) s2 (lvl st)) as (s3 & SN3 & _ & R3); auto.
    { repeat split; auto; lia. } { rewrite B3; auto. lia. }
    rewrite R3. pose proof (sane_block _ st s1 s2 L1 E1 B2 SN2 s3 SN3) as SN.
    pose proof SN as (A3 & L3 & F3 & E3 & B4).
    destruct (IH k s3 A3 F3 ltac:(lia) ltac:(lia) k0) as (s4 & SN4 & R4).
    exists s4. split; auto. rewrite L3 in SN4. eapply sane_trans; eauto.
  - destruct (IH k st A F L ltac:(lia) k0) as (st' & SN & R). exists st'; auto.
  - destruct (IH k st A F L D k0) as (st' & SN & R). exists st'; auto.
Qed.

Lemma cond_active c d k st s : prepare E N d st = k -> ifst k = BLOCK_ACTIVE -> (d = DIf c \/ d = DElseif c) ->
  forall r, run_lines (LDir d :: r) st s = run_lines r (set_ifst k (st_of (fst (test c s)))) (snd (test c s)).
Proof.
  intros P A D r. rewrite run_cons. destruct D as [->| ->]; cbn [CondAsm_Model.run_line]; rewrite P;
  unfold CondAsmDirective; rewrite A; cbn [is_active negb]; rewrite next_state_spec; reflexivity.
Qed.
Lemma endif_run n st s k : in_block n st -> exists st', sane n st st' /\
  run_lines (LDir DEndif :: k) st s = run_lines k st' s /\ SkipMacro (LDir DEndif :: k) st = SkipMacro k st'.
Proof.
  intros IB. destruct (endif_step n st IB) as (st' & P & SN). exists st'. split; auto. split.
  + rewrite run_cons. cbn [CondAsm_Model.run_line]. rewrite P. unfold CondAsmDirective.
    destruct SN as (A' & ?). rewrite A'. cbn. destruct st'; cbn in A'; subst. reflexivity.
  + rewrite skip_cons, P. reflexivity.
Qed.

Lemma else_inactive n st d : in_block n st -> Z.testbit (elseocc st) n = false ->
  ifst st = BLOCK_INACTIVE -> (d = DElse \/ exists c, d = DElseif c) ->
  exists st', prepare E N d st = st' /\ in_block n st' /\ ifst st' = BLOCK_ACTIVE /\ errs st' = errs st /\
    (forall i, 0 <= i < n -> Z.testbit (elseocc st') i = Z.testbit (elseocc st) i) /\
    (d <> DElse -> Z.testbit (elseocc st') n = false).
Proof.
  intros (L & F & P) B I D. eexists; split; eauto.
  unfold prepare. rewrite L, F. destruct (n + 1 =? 0) eqn:Q; [lia|]. cbn [negb].
  replace (n + 1 - 1) with n by lia.
  replace (Z.land (elseocc st) (Z.shiftl 1 n)) with 0 by (symmetry; apply bit_clear; auto).
  change (0 >? 0) with false. cbn [Z.eqb negb]. rewrite I.
  destruct D as [->|[c ->]]; cbn [ifst lvl flvl elseocc errs]; repeat split; auto.
  - intros. rewrite Z.lor_spec, shl1_bit by lia. destruct (n =? i) eqn:Q2; [lia|]. apply orb_false_r.
  - congruence.
Qed.

Lemma run_macro body st s : ifst st = BLOCK_ACTIVE ->
  run_line (LMacro body) st s = bindr (run_lines body st s) (fun o => let '(st', s', _) := o in Ok (st', s', false)).
Proof.
  intros A. cbn [CondAsm_Model.run_line]. rewrite A. cbn [is_active]. f_equal.
Qed.

Definition result (ex : bool) k st' s' := if ex then Ok (SkipMacro k st', s', true) else run_lines k st' s'.

Lemma main :
 (forall p st s k, ifst st = BLOCK_ACTIVE -> flvl st = 0 -> 0 <= lvl st -> lvl st + depth p <= MAX_IF_NESTING ->
    exists st', sane (lvl st) st st' /\
      run_lines (flatten p ++ k) st s = result (snd (den p s)) k st' (fst (den p s))) /\
 (forall t st s k n, in_block n st -> ifst st = BLOCK_INACTIVE -> Z.testbit (elseocc st) n = false ->
    n + 1 + depth_tail t <= MAX_IF_NESTING ->
    exists st', sane n st st' /\
      run_lines (flat_tail t ++ LDir DEndif :: k) st s = result (snd (den_tail t s)) k st' (fst (den_tail t s))).
Proof.
  apply prog_tail_ind.
  - intros st s k A F L D. exists st. split; auto using sane_refl.
  - intros x k IH st s k0 A F L D. cbn [flatten flat_tail app CondAsm_Spec.den CondAsm_Spec.den_tail]. refold.
    rewrite run_cons. cbn [CondAsm_Model.run_line]. rewrite A. cbn [is_active bindr]. apply IH; auto.
  - intros c b IHb t IHt k IHk st s k0 A F L D. cbn [flatten flat_tail app depth depth_tail] in *. refold.
    pose proof (proj1 depth_nonneg b). pose proof (proj2 depth_nonneg t).
    rewrite <- !app_assoc. cbn [app].
    destruct (if_step c st A F ltac:(lia)) as (s1 & P & (L1 & F1 & P1) & A1 & E1 & B1 & B2).
    rewrite (cond_active c _ s1) by auto. cbn [CondAsm_Spec.den CondAsm_Spec.den_tail]. refold.
    destruct (test c s) as [v sv] eqn:TE. cbn [fst snd].
    assert (FIN : forall s3 ss (ex : bool), sane (lvl st) st s3 -> exists st', sane (lvl st) st st' /\
       result ex (flatten k ++ k0) s3 ss = 
       result (snd (if ex then (ss, true) else den k ss)) k0 st' (fst (if ex then (ss, true) else den k ss))).
    { intros s3 ss ex SN. pose proof SN as (A3 & L3 & F3 & E3 & B4). destruct ex; cbn [result fst snd].
      - destruct (skip_prog k s3 A3 F3 ltac:(lia) ltac:(lia) k0) as (s4 & SN4 & R4). exists s4.
        rewrite R4. rewrite L3 in SN4. split; auto. eapply sane_trans; eauto.
      - destruct (IHk s3 ss k0 A3 F3 ltac:(lia) ltac:(lia)) as (s4 & SN4 & R4). exists s4.
        rewrite R4. rewrite L3 in SN4. split; auto. eapply sane_trans; eauto. }
    destruct v; cbn [st_of].
    + set (s1' := set_ifst s1 BLOCK_ACTIVE).
      destruct (IHb s1' sv (flat_tail t ++ LDir DEndif :: flatten k ++ k0) eq_refl F1 ltac:(cbn; lia) ltac:(cbn; lia)) as (s2 & SN2 & R2).
      rewrite R2. pose proof SN2 as (A2 & L2 & F2 & E2 & B3).
      destruct (taken_tail t (flatten k ++ k0) s2 (lvl st)) as (s3 & SN3 & R3 & K3); auto.
      { repeat split; auto; cbn in *; lia. } { rewrite B3; auto. cbn; lia. }
      pose proof (sane_block _ st s1' s2 L1 E1 B2 SN2 s3 SN3) as SN.
      destruct (den b sv) as [ss ex]. cbn [fst snd].
      destruct (FIN s3 ss ex SN) as (s4 & SN4 & R4). exists s4. split; auto. rewrite <- R4.
      destruct ex; cbn [result]; [rewrite K3|rewrite R3]; auto.
    + set (s1' := set_ifst s1 BLOCK_INACTIVE). rewrite (proj1 off_text).
      2:{ repeat split; cbn; try lia; congruence. }
      destruct (IHt s1' sv (flatten k ++ k0) (lvl st)) as (s2 & SN2 & R2); auto.
      { repeat split; auto. } { lia. }
      rewrite R2. destruct (den_tail t sv) as [ss ex]. cbn [fst snd].
      assert (SN : sane (lvl st) st s2).
      { destruct SN2 as (?&?&?&?&B3). repeat split; auto; cbn in *; try congruence.
        intros; rewrite B3, B2; auto. }
      destruct (FIN s2 ss ex SN) as (s4 & SN4 & R4). exists s4. split; auto.
  - intros b IHb k IHk st s k0 A F L D. cbn [flatten flat_tail app depth depth_tail CondAsm_Spec.den CondAsm_Spec.den_tail] in *. refold.
    rewrite run_cons, run_macro by auto.
    destruct (IHb st s [] A F L ltac:(lia)) as (s1 & SN & R). rewrite app_nil_r in R. rewrite R.
    assert (RR : bindr (result (snd (den b s)) [] s1 (fst (den b s))) (fun o => let '(st', s', _) := o in Ok (st', s', false))
       = Ok (s1, fst (den b s), false)). { destruct (snd (den b s)); reflexivity. }
    rewrite RR. cbn [bindr]. pose proof SN as (A1 & L1 & F1 & E1 & B1).
    destruct (IHk s1 (fst (den b s)) k0 A1 F1 ltac:(lia) ltac:(lia)) as (s2 & SN2 & R2).
    exists s2. rewrite L1 in SN2. split; auto. eapply sane_trans; eauto.
  - intros k IHk st s k0 A F L D. cbn [flatten flat_tail app CondAsm_Spec.den CondAsm_Spec.den_tail depth depth_tail] in *. refold.
    rewrite run_cons. cbn [CondAsm_Model.run_line]. rewrite A. cbn [is_active bindr fst snd result].
    destruct (skip_prog k st A F L D k0) as (s1 & SN & R). exists s1. rewrite R. auto.
  - intros st s k n IB I B D. cbn [flatten flat_tail app depth depth_tail CondAsm_Spec.den CondAsm_Spec.den_tail fst snd result]. refold.
    destruct (endif_run n st s k IB) as (s1 & SN & R & _). eauto.
  - intros b IHb st s k n IB I B D. cbn [flatten flat_tail app depth depth_tail CondAsm_Spec.den CondAsm_Spec.den_tail depth_tail] in *. refold.
    destruct (else_inactive n st DElse IB B I) as (s1 & P & IB1 & A1 & E1 & B1 & _); auto.
    rewrite run_cons. cbn [CondAsm_Model.run_line]. rewrite P. unfold CondAsmDirective. rewrite A1. cbn [is_active negb bindr fst snd].
    destruct IB1 as (L1 & F1 & P1).
    replace (set_ifst s1 BLOCK_ACTIVE) with s1 by (destruct s1; cbn in A1; subst; reflexivity).
    destruct (IHb s1 s (LDir DEndif :: k) A1 F1 ltac:(lia) ltac:(lia)) as (s2 & SN2 & R2). rewrite R2.
    pose proof SN2 as (A2 & L2 & F2 & E2 & B3).
    destruct (endif_run n s2 (fst (den b s)) k) as (s3 & SN3 & R3 & K3). { repeat split; auto; lia. }
    exists s3. split. { eapply sane_block; eauto. }
    destruct (snd (den b s)); cbn [result]; [rewrite K3|rewrite R3]; auto.
  - intros c b IHb t IHt st s k n IB I B D. cbn [flatten flat_tail app depth depth_tail CondAsm_Spec.den CondAsm_Spec.den_tail depth_tail] in *. refold.
    destruct (else_inactive n st (DElseif c) IB B I) as (s1 & P & IB1 & A1 & E1 & B1 & B2); eauto.
    specialize (B2 ltac:(congruence)).
    rewrite <- app_assoc. rewrite (cond_active c _ s1) by auto.
    destruct (test c s) as [v sv] eqn:TE. cbn [fst snd]. destruct IB1 as (L1 & F1 & P1).
    destruct v; cbn [st_of].
    + set (s1' := set_ifst s1 BLOCK_ACTIVE).
      destruct (IHb s1' sv (flat_tail t ++ LDir DEndif :: k) eq_refl F1 ltac:(cbn; lia) ltac:(cbn; lia)) as (s2 & SN2 & R2).
      rewrite R2. pose proof SN2 as (A2 & L2 & F2 & E2 & B3).
      destruct (taken_tail t k s2 n) as (s3 & SN3 & R3 & K3); auto.
      { repeat split; auto; cbn in *; lia. } { rewrite B3; auto. cbn; lia. }
      exists s3. split. { eapply (sane_block n st s1'); eauto. }
      destruct (snd (den b sv)); cbn [result]; [rewrite K3|rewrite R3]; auto.
    + set (s1' := set_ifst s1 BLOCK_INACTIVE). rewrite (proj1 off_text).
      2:{ repeat split; cbn; try lia; congruence. }
      destruct (IHt s1' sv k n) as (s2 & SN2 & R2); auto.
      { repeat split; auto. } { lia. }
      exists s2. split; auto.
      destruct SN2 as (?&?&?&?&B3). repeat split; auto; cbn in *; try congruence.
      intros; rewrite B3, B1; auto.
Qed.

Lemma cond_correct p st s : ifst st = BLOCK_ACTIVE -> flvl st = 0 -> 0 <= lvl st -> lvl st + depth p <= MAX_IF_NESTING ->
  exists st', run_lines (flatten p) st s = Ok (st', fst (den p s), snd (den p s)) /\
    ifst st' = BLOCK_ACTIVE /\ lvl st' = lvl st /\ flvl st' = 0 /\ errs st' = errs st.
Proof.
  intros A F L D. destruct (proj1 main p st s [] A F L D) as (st' & (A' & L' & F' & E' & _) & R).
  rewrite app_nil_r in R. exists st'. rewrite R. repeat split; auto.
  destruct (snd (den p s)); reflexivity.
Qed.
End P.

(** ** Arbitrary (also ill-nested) text *)
Section Any.
Variables S X E N : Type.
Variable exec : X -> S -> S.
Variable evalexp : E -> S -> option Z * S.
Variable defined : N -> S -> bool.
Variable setif2 : S -> bool.
Notation run_lines := (run_lines S X E N exec evalexp defined setif2).

Definition inv (st : cst) : Prop := 0 <= lvl st /\ 0 <= flvl st /\ (0 < flvl st -> 0 < lvl st) /\ (ifst st = BLOCK_ACTIVE -> flvl st = 0) /\ (ifst st <> BLOCK_ACTIVE -> 0 < lvl st).

Definition flat_line (l : line X E N) : Prop := match l with LMacro _ | LExitm => False | _ => True end.

Lemma prepare_inv d st : inv st -> inv (prepare E N d st) /\ errs st <= errs (prepare E N d st) /\ (errs (prepare E N d st) = errs st ->
   lvl (prepare E N d st) + flvl (prepare E N d st) = lvl st + flvl st + @weight X E N (LDir d)).
Proof.
  unfold inv. intros (A & B & C & D & F).
  destruct d; unfold prepare; cbn [weight];
  destruct (ifst st) eqn:I; cbn [is_active negb];
  repeat match goal with |- context [if ?c then _ else _] => destruct c eqn:? end;
  cbn [ifst lvl flvl errs]; rewrite ?I; repeat split; intros; try congruence; try lia;
  try (specialize (D eq_refl)); try (specialize (F ltac:(congruence))); lia.
Qed.

Lemma set_ifst_inv st x : inv st -> ifst st = BLOCK_ACTIVE -> (x = BLOCK_ACTIVE \/ 0 < lvl st) -> inv (set_ifst st x).
Proof.
  unfold inv. intros (A & B & C & D & F) I Q. specialize (D I). cbn. repeat split; auto; try lia.
  intros. destruct Q; [congruence|auto].
Qed.

Lemma lvl_after_cond d st : inv st -> ifst (prepare E N d st) = BLOCK_ACTIVE ->
  (exists c, d = DIf c \/ d = DElseif c) -> 0 < lvl (prepare E N d st) \/ errs (prepare E N d st) <> errs st.
Proof.
  unfold inv. intros (A & B & C & D & F) I (c & [->| ->]); revert I; cbn.
  - destruct (ifst st) eqn:Q; cbn; try congruence. destruct (_ =? _) eqn:R; cbn; [lia|]. lia.
  - destruct (lvl st =? 0) eqn:Q; cbn. { lia. }
    destruct (_ >? _) eqn:R; cbn. { lia. }
    destruct (negb _); cbn; lia.
Qed.

Lemma errs_mono ls : forall st s st' s' ex, Forall flat_line ls ->
  run_lines ls st s = Ok (st', s', ex) -> errs st <= errs st'.
Proof.
  induction ls; intros st s st' s' ex F R.
  - inversion R; subst. lia.
  - inversion F; subst. cbn [CondAsm_Model.run_lines] in R.
    destruct a; cbn [flat_line] in *; try tauto; cbn [run_line] in R.
    + destruct (is_active _); cbn [bindr] in R; eapply IHls in R; eauto.
    + assert (P : errs st <= errs (prepare E N d st)).
      { destruct d; unfold prepare; repeat match goal with |- context [if ?c then _ else _] => destruct c end; cbn; lia. }
      destruct (CondAsmDirective _ _ _ _ _ _ d _ s) as [[st1 s1]| |] eqn:C; cbn [bindr fst snd] in R; try discriminate.
      apply IHls in R; auto. enough (errs st1 = errs (prepare E N d st)) by lia.
      unfold CondAsmDirective in C. destruct (negb _). { inversion C; auto. }
      destruct d; try (inversion C; auto; fail);
      destruct (next_state _ _ _ _ _ _ _ _) as [[? ?]| |]; cbn in C; inversion C; auto.
Qed.

Lemma any_text ls : forall st s st' s' ex, Forall flat_line ls -> inv st ->
  run_lines ls st s = Ok (st', s', ex) ->
  errs st <= errs st' /\ (errs st' = errs st -> inv st' /\ lvl st' + flvl st' = lvl st + flvl st + opens ls).
Proof.
  induction ls; intros st s st' s' ex F I R.
  - inversion R; subst. cbn. split; [lia|]. intros; split; auto. lia.
  - inversion F; subst. cbn [CondAsm_Model.run_lines] in R.
    assert (Q : exists s1 v1, run_lines ls s1 v1 = Ok (st', s', ex) /\ errs st <= errs s1 /\ (errs s1 = errs st -> inv s1 /\ lvl s1 + flvl s1 = lvl st + flvl st + weight a)).
    { destruct a; cbn [flat_line] in *; try tauto; cbn [run_line] in R.
      - destruct (is_active _); cbn [bindr] in R; do 2 eexists; (split; [exact R|]); cbn; split; try lia; auto with zarith.
        all: intros; split; auto; lia.
      - destruct (prepare_inv d st I) as (I1 & E1 & W1).
        unfold CondAsmDirective in R. destruct (is_active (ifst (prepare E N d st))) eqn:AC; cbn [negb] in R.
        + assert (AC' : ifst (prepare E N d st) = BLOCK_ACTIVE) by (destruct (ifst _); cbn in *; congruence).
          destruct d.
          * destruct (next_state _ _ _ _ _ _ _ _) as [[nx v]| |] eqn:NX; cbn [bindr fst snd] in R; try discriminate.
            do 2 eexists; split; [exact R|]. cbn [set_ifst errs lvl flvl]. split; auto. intros EE. specialize (W1 EE).
            split; auto. apply set_ifst_inv; auto. right.
            destruct (lvl_after_cond (DIf c) st I AC') as [|]; eauto. lia.
          * destruct (next_state _ _ _ _ _ _ _ _) as [[nx v]| |] eqn:NX; cbn [bindr fst snd] in R; try discriminate.
            do 2 eexists; split; [exact R|]. cbn [set_ifst errs lvl flvl]. split; auto. intros EE. specialize (W1 EE).
            split; auto. apply set_ifst_inv; auto. right.
            destruct (lvl_after_cond (DElseif c) st I AC') as [|]; eauto. lia.
          * cbn [bindr fst snd] in R. do 2 eexists; split; [exact R|]. cbn [set_ifst errs lvl flvl]. split; auto. intros EE. specialize (W1 EE).
            split; auto. apply set_ifst_inv; auto.
          * cbn [bindr fst snd] in R. do 2 eexists; split; [exact R|]. cbn [set_ifst errs lvl flvl]. split; auto. intros EE. specialize (W1 EE).
            split; auto. apply set_ifst_inv; auto.
        + cbn [bindr fst snd] in R. do 2 eexists; split; [exact R|]. split; auto. }
    destruct Q as (s1 & v1 & R1 & E1 & W1).
    destruct (Z.eq_dec (errs s1) (errs st)) as [Q|Q].
    + destruct (W1 Q) as (I1 & LV). destruct (IHls _ _ _ _ _ H2 I1 R1) as (E2 & W2).
      split; [lia|]. intros. destruct W2 as (I2 & LV2); [lia|]. split; auto.
      cbn [opens fold_right]. unfold opens in LV2. lia.
    + assert (E2 : errs s1 <= errs st'). 2:{ split; [lia|]. intros; lia. }
      eapply errs_mono; eauto.
Qed.
End Any.
