From Verif Require Import Base Expr_Spec Expr_Model Expr_Proofs Data_Model Data_Spec.

(** * Constants *)
Lemma le_bytes_app : forall n m v, le_bytes (n + m) v = le_bytes n v ++ le_bytes m (v / 2 ^ (8 * Z.of_nat n)).
Proof.
  induction n as [|n IH]; intros m v.
  - cbn [le_bytes app]. change (2 ^ (8 * Z.of_nat 0)) with 1. rewrite Z.div_1_r. reflexivity.
  - cbn [Nat.add le_bytes app]. rewrite IH. rewrite Z.div_div by lia.
    replace (256 * 2 ^ (8 * Z.of_nat n)) with (2 ^ (8 * Z.of_nat (S n))); [reflexivity|].
    change 256 with (2 ^ 8). rewrite <- Z.pow_add_r by lia. f_equal. lia.
Qed.
Lemma firstn_le_bytes : forall n m v, (n <= m)%nat -> firstn n (le_bytes m v) = le_bytes n v.
Proof.
  intros n m v L. replace m with (n + (m - n))%nat by lia. rewrite le_bytes_app, firstn_app, le_bytes_length, Nat.sub_diag.
  rewrite firstn_all2 by (rewrite le_bytes_length; lia). apply app_nil_r.
Qed.
Lemma skipn_le_bytes : forall n m v, (n <= m)%nat -> skipn n (le_bytes m v) = le_bytes (m - n) (v / 2 ^ (8 * Z.of_nat n)).
Proof.
  intros n m v L. replace m with (n + (m - n))%nat at 1 by lia. rewrite le_bytes_app, skipn_app, le_bytes_length, Nat.sub_diag.
  rewrite skipn_all2 by (rewrite le_bytes_length; lia). reflexivity.
Qed.
Lemma nth_le_bytes : forall n m v, (n < m)%nat -> nth n (le_bytes m v) 0 = (v / 2 ^ (8 * Z.of_nat n)) mod 256.
Proof.
  intros n m v L. replace m with (n + S (m - n - 1))%nat by lia. rewrite le_bytes_app, app_nth2; rewrite le_bytes_length; [|lia].
  rewrite Nat.sub_diag. reflexivity.
Qed.
Lemma le_bytes_cong : forall n v w, v mod 2 ^ (8 * Z.of_nat n) = w mod 2 ^ (8 * Z.of_nat n) -> le_bytes n v = le_bytes n w.
Proof.
  induction n as [|n IH]; intros v w H; [reflexivity|]. cbn [le_bytes].
  replace (2 ^ (8 * Z.of_nat (S n))) with (256 * 2 ^ (8 * Z.of_nat n)) in H
    by (change 256 with (2 ^ 8); rewrite <- Z.pow_add_r by lia; f_equal; lia).
  pose proof (Z.pow_pos_nonneg 2 (8 * Z.of_nat n) ltac:(lia) ltac:(lia)) as P.
  rewrite !Z.rem_mul_r in H by lia.
  pose proof (Z.mod_pos_bound v 256 ltac:(lia)). pose proof (Z.mod_pos_bound w 256 ltac:(lia)).
  f_equal; [lia|]. apply IH. lia.
Qed.
Lemma chararray_16 : forall l h, 0 <= l < 2 ^ 64 -> chararray l h = le_bytes 16 (l + 2 ^ 64 * h).
Proof.
  intros l h H. unfold chararray. change 16%nat with (8 + 8)%nat. rewrite le_bytes_app. change (8 * Z.of_nat 8) with 64. f_equal.
  - apply le_bytes_cong. change (8 * Z.of_nat 8) with 64. rewrite Z.mul_comm, Z.mod_add by lia. reflexivity.
  - rewrite Z.mul_comm, Z.div_add by lia. rewrite (Z.div_small l) by exact H. reflexivity.
Qed.
Lemma le_val_repeat0 : forall n, le_val (repeat 0 n) = 0.
Proof. induction n as [|n IH]; [reflexivity|]. cbn [repeat le_val]. rewrite IH. reflexivity. Qed.
Lemma le_val_repeatff : forall n, le_val (repeat 0xff n) = 2 ^ (8 * Z.of_nat n) - 1.
Proof.
  induction n as [|n IH]; [reflexivity|]. cbn [repeat le_val]. rewrite IH.
  replace (2 ^ (8 * Z.of_nat (S n))) with (256 * 2 ^ (8 * Z.of_nat n)); [lia|].
  change 256 with (2 ^ 8). rewrite <- Z.pow_add_r by lia. f_equal. lia.
Qed.
Lemma repeat_ff_bytes : forall n, repeat 0xff n = le_bytes n (-1).
Proof. induction n as [|n IH]; [reflexivity|]. cbn [repeat le_bytes]. rewrite IH. reflexivity. Qed.
Lemma repeat_0_bytes : forall n, repeat 0 n = le_bytes n 0.
Proof. induction n as [|n IH]; [reflexivity|]. cbn [repeat le_bytes]. rewrite IH. reflexivity. Qed.
Lemma top_byte : forall v, 0 <= v < 2 ^ 64 -> (nth 7 (le_bytes 8 v) 0 <? 0x80) = (v <? 2 ^ 63).
Proof.
  intros v H. rewrite nth_le_bytes by lia. change (8 * Z.of_nat 7) with 56.
  assert (0 <= v / 2 ^ 56 < 256) as B by (split; [apply Z.div_pos; lia|apply Z.div_lt_upper_bound; lia]).
  rewrite Z.mod_small by exact B. pose proof (Z.div_mod v (2 ^ 56) ltac:(lia)) as E. pose proof (Z.mod_pos_bound v (2 ^ 56) ltac:(lia)) as M.
  set (q := v / 2 ^ 56) in *. set (r := v mod 2 ^ 56) in *. clearbody q r.
  change (2 ^ 56) with 72057594037927936 in *. change (2 ^ 63) with 9223372036854775808. change 128 with 128.
  destruct (q <? 128) eqn:E1, (v <? 9223372036854775808) eqn:E2; lia.
Qed.

Definition as_res (o : option (list Z)) : res (list Z) := match o with Some b => Ok b | None => Err end.
Lemma check_small : forall k v, (1 <= k <= 8)%nat -> 0 <= v < 2 ^ 64 ->
  let l := le_val (repeat (if v <? 2 ^ 63 then 0 else 0xff) k ++ skipn k (le_bytes 8 v)) in
  negb (l =? 0) && negb (l =? 2 ^ 64 - 1) = negb ((- 2 ^ (8 * Z.of_nat k) <=? sg v) && (sg v <? 2 ^ (8 * Z.of_nat k))).
Proof.
  intros k v Hk Hv l.
  assert (l = (if v <? 2 ^ 63 then 0 else 2 ^ (8 * Z.of_nat k) - 1) + 2 ^ (8 * Z.of_nat k) * (v / 2 ^ (8 * Z.of_nat k))) as ->.
  { subst l. rewrite le_val_app. rewrite skipn_le_bytes by lia. rewrite le_val_le_bytes. unfold zlen. rewrite repeat_length.
    rewrite (Z.mod_small (v / _)).
    - destruct (v <? 2 ^ 63); [rewrite le_val_repeat0|rewrite le_val_repeatff]; lia.
    - pose proof (Z.pow_pos_nonneg 2 (8 * Z.of_nat k) ltac:(lia) ltac:(lia)). split; [apply Z.div_pos; lia|].
      apply Z.div_lt_upper_bound; [lia|]. rewrite <- Z.pow_add_r by lia. replace (8 * Z.of_nat k + 8 * Z.of_nat (8 - k)) with 64 by lia. lia. }
  unfold sg. pose proof (Z.div_mod v (2 ^ (8 * Z.of_nat k))) as E. pose proof (Z.mod_pos_bound v (2 ^ (8 * Z.of_nat k))) as M.
  pose proof (Z.pow_pos_nonneg 2 (8 * Z.of_nat k) ltac:(lia) ltac:(lia)) as P.
  assert (exists m, 0 < m /\ 2 ^ 64 = 2 ^ (8 * Z.of_nat k) * m) as (m & Pm & Em).
  { exists (2 ^ (64 - 8 * Z.of_nat k)). split; [apply Z.pow_pos_nonneg; lia|]. rewrite <- Z.pow_add_r by lia. f_equal. lia. }
  specialize (E ltac:(lia)). specialize (M P).
  set (p := 2 ^ (8 * Z.of_nat k)) in *. set (q := v / p) in *. set (r := v mod p) in *. clearbody p q r.
  change (2 ^ 63) with 9223372036854775808. change (2 ^ 64) with 18446744073709551616 in *.
  assert (0 <= q < m) by nia.
  destruct (v <? 9223372036854775808) eqn:E2.
  - replace (- p <=? v) with true by (symmetry; apply Z.leb_le; lia). cbn [andb].
    destruct (v <? p) eqn:E3.
    + assert (q = 0) by nia. subst q. replace (0 + p * 0) with 0 by lia. reflexivity.
    + assert (1 <= q) by nia. rewrite (proj2 (Z.eqb_neq (0 + p * q) 0)) by nia.
      assert (p * q < 9223372036854775808 + 0) by nia.
      rewrite (proj2 (Z.eqb_neq (0 + p * q) (18446744073709551616 - 1))) by lia. reflexivity.
  - replace (v - 18446744073709551616 <? p) with true by (symmetry; apply Z.ltb_lt; lia). rewrite andb_true_r.
    assert (p - 1 + p * q <> 0) as N0.
    { intros C. assert (p = 1) by nia. assert (q = 0) by nia. subst. lia. }
    rewrite (proj2 (Z.eqb_neq _ 0)) by exact N0. cbn [negb andb]. f_equal.
    destruct (- p <=? v - 18446744073709551616) eqn:E3.
    + apply Z.eqb_eq. assert (q = m - 1) by nia. subst q. lia.
    + apply Z.eqb_neq. intros C. assert (q = m - 1) by nia. subst q. nia.
Qed.
Lemma store_const_spec : forall n e, 0 < n -> word64 e -> store_const n e = as_res (const_bytes n e).
Proof.
  intros n e Hn (Hl & Hh). unfold store_const, const_bytes. rewrite Z.gtb_ltb.
  destruct (16 <? n) eqn:E16.
  - rewrite (proj2 (Z.leb_gt n 8)) by lia. rewrite (proj2 (Z.leb_gt n 16)) by lia. cbn [as_res]. f_equal.
    rewrite chararray_16 by exact Hl. set (v := ll e + 2 ^ 64 * hl e).
    assert (0 <= v < 2 ^ 128) as Hv by (subst v; change (2 ^ 128) with (2 ^ 64 * 2 ^ 64); nia).
    rewrite firstn_le_bytes by lia. replace (Z.to_nat n) with (16 + Z.to_nat (n - 16))%nat by lia. rewrite le_bytes_app.
    change (8 * Z.of_nat 16) with 128.
    unfold byte_at. rewrite nth_le_bytes by lia. change (8 * Z.of_nat 15) with 120.
    assert (0 <= v / 2 ^ 120 < 256) as B by (split; [apply Z.div_pos; lia|apply Z.div_lt_upper_bound; lia]).
    rewrite Z.mod_small by exact B. pose proof (Z.div_mod v (2 ^ 120) ltac:(lia)) as E. pose proof (Z.mod_pos_bound v (2 ^ 120) ltac:(lia)) as M.
    set (q := v / 2 ^ 120) in *. set (r := v mod 2 ^ 120) in *. clearbody q r v.
    destruct (v <? 2 ^ 127) eqn:EV.
    + rewrite (proj2 (Z.ltb_lt q 128)) by (change (2 ^ 127) with (128 * 2 ^ 120) in EV; nia).
      rewrite (Z.div_small v) by lia. rewrite repeat_0_bytes. reflexivity.
    + rewrite (proj2 (Z.ltb_ge q 128)) by (change (2 ^ 127) with (128 * 2 ^ 120) in EV; nia).
      replace (v - 2 ^ 128) with (v + (-1) * 2 ^ 128) by lia. rewrite Z.div_add by lia. rewrite (Z.div_small v) by lia.
      rewrite repeat_ff_bytes. f_equal. apply le_bytes_cong. change (8 * Z.of_nat 16) with 128. rewrite Z.mod_add by lia. reflexivity.
  - rewrite (proj2 (Z.leb_le n 16)) by lia. rewrite Z.gtb_ltb. destruct (8 <? n) eqn:E8.
    + rewrite (proj2 (Z.leb_gt n 8)) by lia.
      replace (if neg e && (s64 (ll e) <? 0) && (hl e =? 0) then 2 ^ 64 - 1 else hl e) with (upper e).
      2:{ unfold upper. rewrite s64_sg by exact Hl. unfold sg. f_equal. f_equal. f_equal.
          destruct (ll e <? 2 ^ 63) eqn:E; [rewrite (proj2 (Z.leb_gt _ _)), (proj2 (Z.ltb_ge _ _)); lia|].
          rewrite (proj2 (Z.leb_le _ _)), (proj2 (Z.ltb_lt _ _)); lia. }
      rewrite chararray_16 by exact Hl. rewrite firstn_le_bytes by lia. fold (int128 e).
      destruct (n =? 10); cbn [andb]; [|reflexivity]. rewrite Z.gtb_ltb. destruct (_ && _); reflexivity.
    + rewrite (proj2 (Z.leb_le n 8)) by lia.
      rewrite chararray_16 by exact Hl.
      assert (byte_at (le_bytes 16 (ll e + 2 ^ 64 * hl e)) 7 = nth 7 (le_bytes 8 (ll e)) 0) as ->.
      { unfold byte_at. rewrite <- chararray_16 by exact Hl. unfold chararray. rewrite app_nth1; [reflexivity|rewrite le_bytes_length; lia]. }
      rewrite top_byte by exact Hl.
      pose proof (check_small (Z.to_nat n) (ll e) ltac:(lia) Hl) as C. cbn zeta in C. rewrite Z2Nat.id in C by lia. rewrite C. unfold int64. clear C.
      destruct ((- 2 ^ (8 * n) <=? sg (ll e)) && (sg (ll e) <? 2 ^ (8 * n))); cbn [negb as_res]; [|reflexivity]. f_equal. rewrite firstn_le_bytes by lia. apply le_bytes_cong.
      rewrite Z2Nat.id by lia. replace (2 ^ 64) with (2 ^ (64 - 8 * n) * 2 ^ (8 * n)) by (rewrite <- Z.pow_add_r by lia; f_equal; lia).
      replace (ll e + 2 ^ (64 - 8 * n) * 2 ^ (8 * n) * hl e) with (ll e + (2 ^ (64 - 8 * n) * hl e) * 2 ^ (8 * n)) by lia.
      apply Z.mod_add. pose proof (Z.pow_pos_nonneg 2 (8 * n) ltac:(lia) ltac:(lia)). lia.
Qed.
