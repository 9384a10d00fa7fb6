From Verif Require Import Base Crc_Model Crc_Spec.

Lemma poly_eq : poly = 0xEDB88320.
Proof. reflexivity. Qed.

Definition s (v : Z) : Z := clock v false.

Lemma land1 v : Z.land v 1 = if Z.odd v then 1 else 0.
Proof.
  change 1 with (Z.ones 1) at 1. rewrite Z.land_ones by lia.
  change (2 ^ 1) with 2. rewrite Zmod_odd. reflexivity.
Qed.

Lemma crc_shift_s v : crc_shift v = s v.
Proof.
  unfold crc_shift, s, clock. rewrite land1, Z.shiftr_div_pow2 by lia. change (2 ^ 1) with 2.
  rewrite xorb_false_r. destruct (Z.odd v).
  - rewrite poly_eq. reflexivity.
  - apply Z.lxor_0_r.
Qed.

Lemma odd_lxor a b : Z.odd (Z.lxor a b) = xorb (Z.odd a) (Z.odd b).
Proof. rewrite <- !Z.bit0_odd. apply Z.lxor_spec. Qed.

Lemma half_lxor a b : Z.lxor a b / 2 = Z.lxor (a / 2) (b / 2).
Proof.
  change 2 with (2 ^ 1). rewrite <- !Z.shiftr_div_pow2 by lia. apply Z.shiftr_lxor.
Qed.

Lemma s_lxor a b : s (Z.lxor a b) = Z.lxor (s a) (s b).
Proof.
  unfold s, clock. rewrite odd_lxor, half_lxor, !xorb_false_r.
  destruct (Z.odd a), (Z.odd b); cbn [xorb].
  - rewrite <- Z.lxor_assoc. rewrite (Z.lxor_assoc (a / 2) poly (b / 2)).
    rewrite (Z.lxor_comm poly), <- Z.lxor_assoc, Z.lxor_assoc, Z.lxor_nilpotent, Z.lxor_0_r. reflexivity.
  - rewrite Z.lxor_assoc, (Z.lxor_comm (b / 2)), Z.lxor_assoc. reflexivity.
  - rewrite Z.lxor_assoc. reflexivity.
  - reflexivity.
Qed.

Lemma s_double y : s (2 * y) = y.
Proof.
  unfold s, clock. rewrite Z.odd_mul. cbn [Z.odd andb xorb].
  rewrite Z.mul_comm. apply Z.div_mul. lia.
Qed.

Lemma bit_split v : v = Z.lxor (if Z.odd v then 1 else 0) (2 * (v / 2)).
Proof.
  apply Z.bits_inj'. intros n H. rewrite Z.lxor_spec.
  destruct (Z.eq_dec n 0) as [->|N].
  - rewrite !Z.bit0_odd, Z.odd_mul. cbn [Z.odd andb]. rewrite xorb_false_r. destruct (Z.odd v); reflexivity.
  - replace n with (Z.succ (n - 1)) at 2 3 by lia.
    rewrite Z.double_bits_succ.
    replace (Z.testbit (if Z.odd v then 1 else 0) (Z.succ (n - 1))) with false.
    + rewrite xorb_false_l. change 2 with (2 ^ 1). rewrite Z.div_pow2_bits by lia. f_equal. lia.
    + destruct (Z.odd v).
      * symmetry. change 1 with (2 ^ 0). apply Z.pow2_bits_false. lia.
      * rewrite Z.bits_0. reflexivity.
Qed.

Lemma clock_s c b : clock c b = s (Z.lxor c (if b then 1 else 0)).
Proof.
  unfold s, clock. rewrite odd_lxor, half_lxor, xorb_false_r.
  destruct b.
  - change (Z.odd 1) with true. change (1 / 2) with 0. rewrite Z.lxor_0_r. reflexivity.
  - change (Z.odd 0) with false. change (0 / 2) with 0. rewrite Z.lxor_0_r, xorb_false_r. reflexivity.
Qed.

Lemma clock_step c v :
  s (Z.lxor c v) = Z.lxor (clock c (Z.odd v)) (v / 2).
Proof.
  rewrite (bit_split v) at 1. rewrite <- Z.lxor_assoc, s_lxor, s_double, <- clock_s. reflexivity.
Qed.

Lemma crc_shifts_lxor n a b : crc_shifts n (Z.lxor a b) = Z.lxor (crc_shifts n a) (crc_shifts n b).
Proof.
  revert a b; induction n; intros; cbn [crc_shifts]; [reflexivity|].
  rewrite !crc_shift_s, s_lxor, <- !crc_shift_s. apply IHn.
Qed.

Lemma clocks_shifts n c v : 0 <= v < 2 ^ Z.of_nat n ->
  fold_left clock (byte_bits n v) c = crc_shifts n (Z.lxor c v).
Proof.
  revert c v; induction n; intros c v H; cbn [byte_bits fold_left crc_shifts].
  - change (2 ^ Z.of_nat 0) with 1 in H. assert (v = 0) by lia. subst. rewrite Z.lxor_0_r. reflexivity.
  - rewrite Nat2Z.inj_succ, Z.pow_succ_r in H by lia.
    rewrite IHn by lia. rewrite crc_shift_s, clock_step. reflexivity.
Qed.

Lemma crc_shifts_high n k : crc_shifts n (2 ^ Z.of_nat n * k) = k.
Proof.
  revert k; induction n; intros; cbn [crc_shifts].
  - change (2 ^ Z.of_nat 0) with 1. apply Z.mul_1_l.
  - rewrite Nat2Z.inj_succ, Z.pow_succ_r, <- Z.mul_assoc, crc_shift_s, s_double by lia. apply IHn.
Qed.

Lemma split256 v : v = Z.lxor (v mod 256) (256 * (v / 256)).
Proof.
  change 256 with (2 ^ 8). apply Z.bits_inj'. intros n H. rewrite Z.lxor_spec.
  rewrite (Z.mul_comm (2 ^ 8)). destruct (Z.lt_ge_cases n 8).
  - rewrite Z.mod_pow2_bits_low, Z.mul_pow2_bits_low by lia. rewrite xorb_false_r. reflexivity.
  - rewrite Z.mod_pow2_bits_high, Z.mul_pow2_bits, Z.div_pow2_bits by lia.
    rewrite xorb_false_l. f_equal. lia.
Qed.

Lemma lxor_range n a b : 0 <= n -> 0 <= a < 2 ^ n -> 0 <= b < 2 ^ n -> 0 <= Z.lxor a b < 2 ^ n.
Proof.
  intros N A B.
  assert (P : 0 <= Z.lxor a b) by (apply Z.lxor_nonneg; lia). split; [exact P|].
  destruct (Z.lt_ge_cases (Z.lxor a b) (2 ^ n)); [assumption|exfalso].
  assert (E : Z.lxor a b mod 2 ^ n = Z.lxor a b).
  { apply Z.bits_inj'. intros i I. destruct (Z.lt_ge_cases i n).
    - apply Z.mod_pow2_bits_low; lia.
    - rewrite Z.mod_pow2_bits_high by lia. rewrite Z.lxor_spec.
      rewrite <- (Z.mod_small a (2 ^ n)), <- (Z.mod_small b (2 ^ n)) by lia.
      rewrite !Z.mod_pow2_bits_high by lia. reflexivity. }
  pose proof (Z.mod_pos_bound (Z.lxor a b) (2 ^ n) (pow2_pos n N)). lia.
Qed.

Lemma table_entry i : 0 <= i < 256 -> nth_error CRC32Table (Z.to_nat i) = Some (crc_shifts 8 i).
Proof.
  intros H. unfold CRC32Table.
  rewrite (map_nth_error _ (Z.to_nat i) (seq 0 256) (d := Z.to_nat i)).
  - rewrite Z2Nat.id by lia. reflexivity.
  - rewrite (nth_error_nth' _ 0%nat) by (rewrite seq_length; lia).
    rewrite seq_nth by lia. reflexivity.
Qed.

Lemma byte_step b c : is_byte b -> 0 <= c ->
  nth_error CRC32Table (Z.to_nat (Z.lxor b (wrap 8 c))) = Some (crc_shifts 8 (Z.lxor c b mod 256)) /\
  Z.lxor (Z.shiftr c 8) (crc_shifts 8 (Z.lxor c b mod 256)) = fold_left clock (byte_bits 8 b) c.
Proof.
  intros B C.
  assert (E : Z.lxor b (wrap 8 c) = Z.lxor c b mod 256).
  { unfold wrap. change 256 with (2 ^ 8). apply Z.bits_inj'. intros n N. rewrite Z.lxor_spec.
    destruct (Z.lt_ge_cases n 8).
    - rewrite !Z.mod_pow2_bits_low, Z.lxor_spec by lia. apply xorb_comm.
    - rewrite !Z.mod_pow2_bits_high by lia. unfold is_byte in B.
      rewrite <- (Z.mod_small b (2 ^ 8)) by (change (2 ^ 8) with 256; lia).
      rewrite Z.mod_pow2_bits_high by lia. reflexivity. }
  split.
  - rewrite E. apply table_entry. apply Z.mod_pos_bound. lia.
  - rewrite clocks_shifts by exact B.
    rewrite (split256 (Z.lxor c b)) at 2. rewrite crc_shifts_lxor.
    change 256 with (2 ^ Z.of_nat 8) at 4. rewrite crc_shifts_high.
    rewrite Z.lxor_comm. f_equal.
    change 256 with (2 ^ 8). rewrite <- Z.shiftr_div_pow2, Z.shiftr_lxor by lia.
    change (Z.of_nat 8) with 8. replace (Z.shiftr b 8) with 0. { rewrite Z.lxor_0_r. reflexivity. }
    rewrite Z.shiftr_div_pow2 by lia. change (2 ^ 8) with 256. unfold is_byte in B. lia.
Qed.

Lemma clock_range c b : 0 <= c < 2 ^ 32 -> 0 <= clock c b < 2 ^ 32.
Proof.
  intros H. unfold clock. destruct (xorb (Z.odd c) b).
  - apply lxor_range; [lia| |rewrite poly_eq; change (2 ^ 32) with 4294967296; lia].
    change (2 ^ 32) with 4294967296 in *. lia.
  - change (2 ^ 32) with 4294967296 in *. lia.
Qed.

Lemma clocks_range l c : 0 <= c < 2 ^ 32 -> 0 <= fold_left clock l c < 2 ^ 32.
Proof. revert c; induction l; intros; cbn [fold_left]; auto using clock_range. Qed.

Lemma crc_loop_spec l rest c : Forall is_byte l -> 0 <= c < 2 ^ 32 ->
  crc_loop (l ++ rest) (length l) c = Ok (crc32 c l).
Proof.
  intros F; revert c; induction F as [|b l B F IH]; intros c C; cbn [app length crc_loop].
  - reflexivity.
  - destruct (byte_step b c B ltac:(lia)) as [E1 E2]. rewrite E1, E2.
    rewrite IH by (apply clocks_range; exact C).
    unfold crc32, message_bits. cbn [flat_map]. rewrite fold_left_app. reflexivity.
Qed.

Theorem crc_correct l rest c : Forall is_byte l -> 0 <= c < 2 ^ 32 ->
  CRC32Comdat (Some (l ++ rest)) (zlen l) c = Ok (crc32 c l) /\ 0 <= crc32 c l < 2 ^ 32.
Proof.
  intros F C. unfold CRC32Comdat, zlen. rewrite Nat2Z.id. split.
  - apply crc_loop_spec; assumption.
  - apply clocks_range. exact C.
Qed.

Lemma crc32_app c a b : crc32 c (a ++ b) = crc32 (crc32 c a) b.
Proof. unfold crc32, message_bits. rewrite flat_map_app, fold_left_app. reflexivity. Qed.

(** ** The register update is injective, so a changed byte is detected *)
Lemma clock_top c b : 0 <= c < 2 ^ 32 -> Z.testbit (clock c b) 31 = xorb (Z.odd c) b.
Proof.
  intros H. assert (T : Z.testbit (c / 2) 31 = false).
  { change 2 with (2 ^ 1). rewrite Z.div_pow2_bits by lia.
    rewrite <- (Z.mod_small c (2 ^ 32)) by lia. apply Z.mod_pow2_bits_high. lia. }
  unfold clock. destruct (xorb (Z.odd c) b).
  - rewrite Z.lxor_spec, T. reflexivity.
  - exact T.
Qed.

Lemma lxor_cancel a b p : Z.lxor a p = Z.lxor b p -> a = b.
Proof.
  intros H. rewrite <- (Z.lxor_0_r a), <- (Z.lxor_0_r b), <- (Z.lxor_nilpotent p), <- !Z.lxor_assoc, H.
  reflexivity.
Qed.

Lemma clock_inj_reg c d b : 0 <= c < 2 ^ 32 -> 0 <= d < 2 ^ 32 ->
  clock c b = clock d b -> c = d.
Proof.
  intros C D E. assert (T := f_equal (fun v => Z.testbit v 31) E). cbv beta in T.
  rewrite !clock_top in T by assumption.
  assert (O : Z.odd c = Z.odd d) by (destruct (Z.odd c), (Z.odd d), b; cbn in T; congruence).
  unfold clock in E. rewrite O in E.
  assert (Q : c / 2 = d / 2) by (destruct (xorb (Z.odd d) b); [apply lxor_cancel in E|]; assumption).
  rewrite (bit_split c), (bit_split d), O, Q. reflexivity.
Qed.

Lemma clocks_inj_reg l c d : 0 <= c < 2 ^ 32 -> 0 <= d < 2 ^ 32 ->
  fold_left clock l c = fold_left clock l d -> c = d.
Proof.
  revert c d; induction l as [|b l IH]; intros c d C D E; cbn [fold_left] in E; [assumption|].
  apply IH in E; auto using clock_range. eapply clock_inj_reg; eassumption.
Qed.

(** messages of at most 32 bits have different checksums *)
Lemma clocks_inj_bits l m c : 0 <= c < 2 ^ 32 -> length l = length m -> (length l <= 32)%nat ->
  fold_left clock l c = fold_left clock m c -> l = m.
Proof.
  intros C L B E.
  (* the register after n <= 32 clocks from c and from lxor-difference *)
  assert (LIN : forall l m c d, length l = length m ->
            Z.lxor (fold_left clock l c) (fold_left clock m d) =
            fold_left clock (map (fun p => xorb (fst p) (snd p)) (combine l m)) (Z.lxor c d)).
  { clear. induction l as [|x l IH]; intros [|y m] c d L; cbn [length] in L; try discriminate; cbn [fold_left combine map fst snd].
    - reflexivity.
    - rewrite IH by lia. f_equal. rewrite !clock_s, <- s_lxor. f_equal.
      rewrite !Z.lxor_assoc. f_equal. rewrite <- !Z.lxor_assoc, (Z.lxor_comm _ d), !Z.lxor_assoc. f_equal.
      destruct x, y; reflexivity. }
  assert (Z0 : fold_left clock (map (fun p => xorb (fst p) (snd p)) (combine l m)) 0 = 0).
  { rewrite <- (Z.lxor_nilpotent c) at 1. rewrite <- LIN by assumption. rewrite E. apply Z.lxor_nilpotent. }
  (* if the difference is all zero we are done; else a nonzero register remains *)
  assert (ALL : forall k, fold_left clock k 0 = 0 -> (length k <= 32)%nat -> Forall (fun b => b = false) k).
  { assert (HI : forall k, (length k <= 32)%nat ->
      fold_left clock k 0 = 0 -> Forall (fun b => b = false) k); [|intros; auto].
    intros k LK FK.
    (* work with the last set bit through the inverse: 2^j divides *)
    assert (INV : forall j c, 0 <= c < 2 ^ 32 -> forall k, length k = j ->
              fold_left clock k c = 0 -> (j <= 32)%nat -> c < 2 ^ Z.of_nat j).
    { clear. intros j c C k L E B. revert c j C L E B.
      induction k as [|b k IH]; intros c j C L E B; cbn [length fold_left] in *; subst j.
      - subst c. reflexivity.
      - assert (R := clock_range c b C).
        specialize (IH (clock c b) (length k) R eq_refl E ltac:(lia)).
        assert (TB : Z.testbit (clock c b) 31 = false).
        { rewrite <- (Z.mod_small (clock c b) (2 ^ Z.of_nat (length k))) by lia.
          apply Z.mod_pow2_bits_high. lia. }
        rewrite clock_top in TB by assumption.
        unfold clock in IH. rewrite TB in IH.
        rewrite Nat2Z.inj_succ, Z.pow_succ_r by lia. lia. }
    clear - FK LK INV.
    assert (GEN : forall k, (length k <= 32)%nat -> forall c, 0 <= c < 2 ^ 32 -> fold_left clock k c = 0 ->
              Forall2 (fun b i => b = Z.testbit c (Z.of_nat i)) k (seq 0 (length k))).
    { clear - INV. intros k. induction k as [|b k IH]; intros LK c C E; cbn [length seq]; constructor.
      - cbn [fold_left] in E. cbn [length] in LK. assert (R := clock_range c b C).
        assert (Q := INV (length k) (clock c b) R k eq_refl E ltac:(lia)).
        assert (TB : Z.testbit (clock c b) 31 = false).
        { rewrite <- (Z.mod_small (clock c b) (2 ^ Z.of_nat (length k))) by lia.
          apply Z.mod_pow2_bits_high. lia. }
        rewrite clock_top in TB by assumption. change (Z.of_nat 0) with 0. rewrite Z.bit0_odd.
        destruct (Z.odd c), b; cbn in TB; congruence.
      - cbn [fold_left] in E. cbn [length] in LK. assert (R := clock_range c b C).
        assert (Q := INV (length k) (clock c b) R k eq_refl E ltac:(lia)).
        assert (TB : Z.testbit (clock c b) 31 = false).
        { rewrite <- (Z.mod_small (clock c b) (2 ^ Z.of_nat (length k))) by lia.
          apply Z.mod_pow2_bits_high. lia. }
        rewrite clock_top in TB by assumption.
        specialize (IH ltac:(lia) (clock c b) R E).
        assert (CE : clock c b = c / 2) by (unfold clock; rewrite TB; reflexivity).
        rewrite CE in IH. rewrite <- seq_shift. clear - IH.
        revert IH. generalize (seq 0 (length k)). intros sq F. induction F; cbn [map]; constructor; auto.
        rewrite H. rewrite Nat2Z.inj_succ. change 2 with (2 ^ 1).
        rewrite Z.div_pow2_bits by lia. f_equal; lia. }
    specialize (GEN k LK 0 ltac:(split; [lia|reflexivity]) FK).
    clear - GEN. induction GEN; constructor; auto. rewrite H. apply Z.bits_0. }
  assert (D := ALL _ Z0 ltac:(rewrite map_length, combine_length; lia)).
  clear - D L. revert m L D. induction l as [|x l IH]; intros [|y m] L D; cbn [length] in L; try discriminate; [reflexivity|].
  cbn [combine map fst snd] in D. inversion D; subst. f_equal.
  - destruct x, y; cbn in *; congruence.
  - apply IH; [lia|assumption].
Qed.

Lemma byte_bits_length n v : length (byte_bits n v) = n.
Proof. revert v; induction n; intros; cbn [byte_bits length]; auto. Qed.

Lemma byte_bits_inj n a b : 0 <= a < 2 ^ Z.of_nat n -> 0 <= b < 2 ^ Z.of_nat n ->
  byte_bits n a = byte_bits n b -> a = b.
Proof.
  revert a b; induction n; intros a b A B E; cbn [byte_bits] in E.
  - change (2 ^ Z.of_nat 0) with 1 in *. lia.
  - injection E as E1 E2. rewrite Nat2Z.inj_succ, Z.pow_succ_r in A, B by lia.
    apply IHn in E2; [|lia|lia]. rewrite (bit_split a), (bit_split b), E1, E2. reflexivity.
Qed.

Lemma message_bits_length l : length (message_bits l) = (8 * length l)%nat.
Proof.
  induction l as [|a l IH]; [reflexivity|].
  unfold message_bits in *. cbn [flat_map length]. rewrite app_length, byte_bits_length, IH. lia.
Qed.

Lemma message_bits_inj l m : Forall is_byte l -> Forall is_byte m -> length l = length m ->
  message_bits l = message_bits m -> l = m.
Proof.
  intros F; revert m; induction F as [|a l A F IH]; intros [|b m] G L E; cbn [length] in L; try discriminate; [reflexivity|].
  apply Forall_cons_iff in G as [B G]. unfold message_bits in E. cbn [flat_map] in E.
  assert (H : forall (x y u v : list bool), length x = length u -> x ++ y = u ++ v -> x = u /\ y = v).
  { clear. induction x; intros y [|w u] v L E; cbn [length] in L; try discriminate; cbn [app] in E; [auto|].
    injection E as -> E. apply IHx in E; [|lia]. destruct E; subst; auto. }
  apply H in E; [|rewrite !byte_bits_length; reflexivity].
  destruct E as [E1 E2]. f_equal.
  - apply (byte_bits_inj 8); assumption.
  - apply IH; [assumption|lia|exact E2].
Qed.

Theorem crc_detects pre x y post c :
  Forall is_byte x -> Forall is_byte y -> length x = length y -> (length x <= 4)%nat ->
  0 <= c < 2 ^ 32 -> crc32 c (pre ++ x ++ post) = crc32 c (pre ++ y ++ post) -> x = y.
Proof.
  intros X Y L B C. rewrite !crc32_app. unfold crc32. intros E.
  apply clocks_inj_reg in E; [|apply clocks_range, clocks_range; exact C..].
  apply clocks_inj_bits in E.
  - apply message_bits_inj; assumption.
  - apply clocks_range. exact C.
  - rewrite !message_bits_length. lia.
  - rewrite message_bits_length. lia.
Qed.
