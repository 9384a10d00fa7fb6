(** C39-C42: the operands of an instruction have the types of its row. *)
From Coq Require Import String Ascii.
From Verif Require Import Base Mem_Model Mem_Spec V2_Model V2_Table V2_Spec V2Bits_Proofs V2Row_Proofs.
Open Scope list_scope.

Lemma beq_eq a b : optype_beq a b = true -> a = b.
Proof. apply internal_optype_dec_bl. Qed.
Lemma beq_refl a : optype_beq a a = true.
Proof. apply internal_optype_dec_lb. reflexivity. Qed.
Lemma has_type_cases o t : has_type o t = true -> t = MatchOperand o \/ t = DemoteOperand (MatchOperand o).
Proof. unfold has_type. intros H. apply orb_prop in H as [H | H]; apply beq_eq in H; auto. Qed.
Lemma type_reg r t : has_type (OReg r) t = true -> is_reg_type t = true.
Proof.
  intros H. destruct r as [k n]. apply has_type_cases in H as [-> | ->]; cbn [MatchOperand]; destruct k; repeat (match goal with |- context [if ?b then _ else _] => destruct b end); reflexivity.
Qed.
Lemma type_mem m t : has_type (OMem m) t = true -> mem_type t = true /\ imm_type t = false.
Proof. intros H. apply has_type_cases in H as [-> | ->]; cbn [MatchOperand]; destruct (x_size m); split; reflexivity. Qed.
Lemma type_imm s v f t : has_type (OImm s v f) t = true -> imm_type t = true /\ mem_type t = false.
Proof. intros H. apply has_type_cases in H as [-> | ->]; cbn [MatchOperand]; destruct s; split; reflexivity. Qed.
Lemma reg_type_split t : is_reg_type t = true -> mem_type t = false /\ imm_type t = false.
Proof. unfold is_reg_type. destruct (mem_type t), (imm_type t); auto; discriminate. Qed.

Lemma reg_ok_b mode ev r : reg_ok mode ev r -> mode = USE32 \/ mode = USE64 -> reg_okb mode ev r = true /\ 0 <= snd r < 32.
Proof.
  destruct r as [k n]. unfold reg_ok, reg_okb. cbn [snd]. intros H Hm.
  assert (M : is64 mode = true \/ (is64 mode = false /\ mode <> USE64)) by (destruct Hm as [-> | ->]; [right; split; [reflexivity|discriminate]|left; reflexivity]).
  destruct M as [M | [M1 M2]].
  - rewrite M. rewrite ?andb_true_r, ?orb_true_r, ?andb_true_r. destruct k; try (split; lia). 1-3: destruct ev; cbn [orb]; rewrite ?orb_true_r, ?orb_false_r, ?andb_true_r; try (split; lia).
    all: destruct H as (A & B & C); (destruct (Z_lt_le_dec n 16); [split; lia|discriminate (C ltac:(lia))]).
  - rewrite M1. rewrite ?andb_false_r, ?orb_false_r. destruct k; try (split; lia); try tauto.
    1: (destruct H as [H | [_ H]]; [split; lia|tauto]).
    all: destruct H as (A & B & C) || destruct H as (A & B); (assert (n < 8) by (destruct (Z_lt_le_dec n 8); [assumption|]; exfalso; apply M2, B; lia)); try (split; lia).
    all: split; [|lia]; destruct ev; rewrite ?orb_true_r, ?orb_false_r; lia.
Qed.
Lemma kinds_all k : In k kinds.
Proof. destruct k; cbn; tauto. Qed.
Lemma in_regs mode ev r t : reg_ok mode ev r -> mode = USE32 \/ mode = USE64 -> has_type (OReg r) t = true -> In r (regs mode ev t).
Proof.
  intros H Hm Ht. destruct (reg_ok_b mode ev r H Hm) as [Hb Hr]. unfold regs. apply in_flat_map. exists (fst r). split; [apply kinds_all|]. unfold kregs. apply filter_In. split; [|rewrite Hb, Ht; reflexivity].
  apply in_map_iff. exists (snd r). split; [destruct r; reflexivity|]. unfold zs. apply in_map_iff. exists (Z.to_nat (snd r)). split; [lia|]. apply in_seq. lia.
Qed.

Section Types.
Variables (d : row) (c : ci) (l : list opnd).
Hypothesis WO : written_ok d c l.
Lemma len_types : length (d_types d) = length l.
Proof. destruct (wo_types _ _ _ WO) as [E | E]; rewrite <- E, ?map_length; reflexivity. Qed.
Lemma typed i : (i < length l)%nat -> has_type (opn l i) (nth i (d_types d) T_R_RIP) = true /\ opnd_ok d c (opn l i) /\ In (opn l i) l.
Proof.
  intros Hi. assert (Hn : In (opn l i) l) by (apply nth_In; exact Hi). split; [|split; [|exact Hn]].
  - unfold has_type. destruct (wo_types _ _ _ WO) as [E | E]; rewrite <- E.
    + rewrite (nth_indep _ T_R_RIP (MatchOperand ONone)) by (rewrite map_length; exact Hi). rewrite map_nth. unfold opn. rewrite beq_refl. reflexivity.
    + rewrite map_map. rewrite (nth_indep _ T_R_RIP (DemoteOperand (MatchOperand ONone))) by (rewrite map_length; exact Hi). rewrite (map_nth (fun o => DemoteOperand (MatchOperand o))). unfold opn. rewrite beq_refl. apply orb_true_r.
  - pose proof (wo_opnds _ _ _ WO) as F. rewrite Forall_forall in F. apply F, Hn.
Qed.
Lemma typed_reg i : (i < length l)%nat -> is_reg_type (nth i (d_types d) T_R_RIP) = true ->
  exists k n, opn l i = OReg (k, n) /\ reg_ok (c_mode c) (c_evex c) (k, n) /\ In (k, n) (regs (c_mode c) (c_evex c) (nth i (d_types d) T_R_RIP)) /\ In (OReg (k, n)) l.
Proof.
  intros Hi Ht. destruct (typed i Hi) as (T & K & N). apply reg_type_split in Ht as [A B]. destruct (opn l i) as [r|m|s v f|] eqn:E.
  - destruct r as [k n]. exists k, n. cbn [opnd_ok] in K. split; [reflexivity|]. split; [exact K|]. split; [|exact N]. apply in_regs; [exact K|apply (wo_mode _ _ _ WO)|exact T].
  - apply type_mem in T as [T _]. congruence.
  - apply type_imm in T as [T _]. congruence.
  - destruct K.
Qed.
Lemma typed_mem i : (i < length l)%nat -> mem_type (nth i (d_types d) T_R_RIP) = true -> exists m, opn l i = OMem m /\ opnd_ok d c (OMem m) /\ In (OMem m) l.
Proof.
  intros Hi Ht. destruct (typed i Hi) as (T & K & N). destruct (opn l i) as [r|m|s v f|] eqn:E.
  - apply type_reg, reg_type_split in T as [T _]. congruence.
  - eauto.
  - apply type_imm in T as [_ T]. congruence.
  - destruct K.
Qed.
Lemma typed_imm i : (i < length l)%nat -> imm_type (nth i (d_types d) T_R_RIP) = true -> exists s v f, opn l i = OImm s v f /\ - 2 ^ 63 <= v < 2 ^ 64 /\ In (OImm s v f) l /\ (nth i (d_types d) T_R_RIP <> T_IMM64 -> s <> I64).
Proof.
  intros Hi Ht. destruct (typed i Hi) as (T & K & N). destruct (opn l i) as [r|m|s v f|] eqn:E.
  - apply type_reg, reg_type_split in T as [_ T]. congruence.
  - apply type_mem in T as [_ T]. congruence.
  - exists s, v, f. repeat split; try apply K; auto. intros X ->. apply has_type_cases in T as [T | T]; apply X; exact T.
  - destruct K.
Qed.
Hypothesis NE : l <> [].
Hypothesis Hin : In d InstrTableV2.
Lemma not_skip : (c_evex c = true -> d_evex d <> []) -> skip d (c_mode c) (c_evex c) = false.
Proof.
  intros He. unfold skip. repeat (apply orb_false_intro).
  - apply negb_false_iff, existsb_exists. exists (mode_bit (c_mode c)). split; [apply (wo_cpu _ _ _ WO)|destruct (c_mode c); reflexivity].
  - apply (wo_mpsadbw _ _ _ WO).
  - destruct (c_evex c) eqn:E; [|reflexivity]. cbn [andb]. destruct (has VEX_DUP_NDS (d_vex d)) eqn:D; [|reflexivity]. pose proof (wo_dup _ _ _ WO D). congruence.
  - destruct (c_evex c) eqn:E; [|reflexivity]. cbn [andb]. destruct (d_evex d) eqn:D; [|reflexivity]. exfalso. apply (He eq_refl). reflexivity.
  - destruct (is64 (c_mode c)) eqn:E; [reflexivity|]. cbn [negb andb]. destruct (existsb (optype_beq T_M64) (d_types d)) eqn:X; [|reflexivity]. exfalso. apply existsb_exists in X as (t & T1 & T2). apply beq_eq in T2. subst t.
    assert (E32 : c_mode c = USE32) by (destruct (wo_mode _ _ _ WO) as [A | A]; [exact A|]; rewrite A in E; discriminate). pose proof (wo_qword _ _ _ WO E32) as F. rewrite Forall_forall in F. exact (F _ T1 eq_refl).
  - destruct (existsb _ (d_types d)) eqn:X; [|reflexivity]. exfalso. apply existsb_exists in X as (t & T1 & T2). apply andb_prop in T2 as [T2 T3]. apply (In_nth _ _ T_R_RIP) in T1 as (i & Hi & <-).
    rewrite len_types in Hi. destruct (typed_reg i Hi T2) as (k & n & _ & _ & R & _). destruct (regs _ _ _); [destruct R|discriminate].
  - destruct (d_types d) eqn:T; [|reflexivity]. exfalso. pose proof len_types as L. rewrite T in L. destruct l; [congruence|discriminate].
Qed.
End Types.
