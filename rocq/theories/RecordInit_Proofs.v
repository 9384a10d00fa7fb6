From Verif Require Import Base Record_Model Record_Spec RecordRun_Spec Record_Proofs.

Lemma wrap_wrap N M v : 0 <= N <= M -> wrap N (wrap M v) = wrap N v.
Proof.
  intros H. unfold wrap. replace M with (N + (M - N)) by lia. rewrite Z.pow_add_r by lia.
  pose proof (pow2_pos N ltac:(lia)). pose proof (pow2_pos (M - N) ltac:(lia)).
  rewrite Z.rem_mul_r by lia. rewrite Z.mul_comm, Z.mod_add by lia. apply Z.mod_mod. lia.
Qed.
Lemma wrap_mul_cong N v v' k : 0 <= N -> wrap N v = wrap N v' -> wrap N (v * k) = wrap N (v' * k).
Proof.
  intros HN E. unfold wrap in *. pose proof (pow2_pos N HN).
  rewrite Zmult_mod, E, <- Zmult_mod. auto.
Qed.
Lemma field_bound v w off M : 0 <= off -> 0 < w -> off + w <= M -> 0 <= v < 2 ^ w -> 0 <= v * 2 ^ off < 2 ^ M.
Proof.
  intros Ho Hw L V. pose proof (pow2_pos off Ho). split; [nia|].
  apply Z.lt_le_trans with (2 ^ (off + w)).
  - rewrite Z.pow_add_r by lia. nia.
  - apply Z.pow_le_mono_r; lia.
Qed.

Lemma term N v v' w off : 0 <= N <= 64 -> wrap N v = wrap N v' -> 0 < w -> 0 <= v' < 2 ^ w -> 0 <= off -> off + w <= N ->
  wrap N (wrap 64 (Z.shiftl (wrap 64 v) off)) = v' * 2 ^ off.
Proof.
  intros HN E W V Ho L. rewrite wrap_wrap by lia. rewrite Z.shiftl_mul_pow2 by lia.
  rewrite (wrap_mul_cong N _ v') by (try lia; rewrite wrap_wrap by lia; auto).
  apply wrap_small. apply field_bound with w; auto.
Qed.
Lemma acc_step N x P w off v t : 0 <= N -> 0 < w -> 0 <= off -> 0 <= v < 2 ^ w -> wrap N x = P * 2 ^ (off + w) -> wrap N t = v * 2 ^ off ->
  wrap N (Z.lor x t) = (P * 2 ^ w + v) * 2 ^ off.
Proof.
  intros HN W Ho V X T. rewrite wrap_lor, X, T by auto.
  rewrite lor_disjoint by (try lia; apply field_bound with w; lia).
  rewrite Z.pow_add_r by lia. ring.
Qed.

Lemma store_ok size f a v b : size <> 16 ->
  store size f a v b = (if (f_width f <? 32) && (wrap 32 v >=? 2 ^ f_width f) then Err else
    Ok {| hi := wrap 64 v / 2 ^ 32; dstHi := dstHi a; dstLo := dstLo a;
          rec_init := Z.lor (rec_init a) (wrap 64 (Z.shiftl (wrap 64 v) (f_offset f))); is_set := b || is_set a |}).
Proof.
  intros S. unfold store. destruct (_ && _); auto.
  destruct (ShiftLeft (wrap 64 v) (f_offset f)) as [h l].
  replace (size =? 16) with false by lia. auto.
Qed.
Lemma magnitude w v : 0 < w <= 32 -> ((w <? 32) && (wrap 32 v >=? 2 ^ w) = false <-> wrap 32 v < 2 ^ w).
Proof.
  intros W. pose proof (wrap_range 32 v ltac:(lia)).
  destruct (Z.ltb_spec w 32); cbn [andb].
  - destruct (Z.geb_spec (wrap 32 v) (2 ^ w)); split; try discriminate; auto; lia.
  - replace w with 32 by lia. tauto.
Qed.

Definition offs_ok (fl : list field) : Prop :=
  Forall (fun w => 0 < w) (map f_width fl) /\ map f_offset fl = positions (map f_width fl).
Lemma offs_cons f fl : offs_ok (f :: fl) -> 0 < f_width f /\ f_offset f = total (map f_width fl) /\ offs_ok fl.
Proof.
  intros [F E]. cbn [map] in *. apply Forall_cons_iff in F. destruct F as [W F].
  cbn [positions] in E. injection E as E1 E2. unfold offs_ok. auto.
Qed.

Definition next (xs : list init) : init * list init := match xs with [] => (Empty, []) | x :: xs => (x, xs) end.
Lemma fill_next n xs : fill (S n) xs = fst (next xs) :: fill n (snd (next xs)).
Proof. destruct xs; reflexivity. Qed.
Lemma next_len n xs : (length xs <= S n)%nat <-> (length (snd (next xs)) <= n)%nat.
Proof. destruct xs; cbn; lia. Qed.

(** the value actually stored *)
Definition actual (f : field) (x : init) (h : Z) : option Z :=
  match x with Value v => v | Empty => Some (match f_ivalue f with Some v => v | None => h * 2 ^ 32 end) end.
Lemma init_field_eq size f x a :
  init_field size f x a = match actual f x (hi a) with None => Err | Some v => store size f a v (present f x) end.
Proof. unfold init_field, actual, present. destruct x as [|[v|]], (f_ivalue f); auto. Qed.
Lemma actual_meant32 f x h : match actual f x h, meant f x with
  | Some v, Some v' => wrap 32 v = wrap 32 v' | None, None => True | _, _ => False end.
Proof.
  unfold actual, meant. destruct x as [|[v|]], (f_ivalue f); auto.
  unfold wrap. rewrite Z.mod_mul by lia. auto.
Qed.

Lemma init_step size f fl xs a :
  init_fields size (f :: fl) xs a =
  bindr (init_field size f (fst (next xs)) a) (init_fields size fl (snd (next xs))).
Proof. destruct xs; reflexivity. Qed.

(** records of at most 32 bits *)
Lemma small_sound size N fl : size <> 16 -> 0 <= N <= 32 ->
  forall xs a a' P, offs_ok fl -> total (map f_width fl) <= N ->
  wrap N (rec_init a) = P * 2 ^ total (map f_width fl) -> 0 <= P ->
  init_fields size fl xs a = Ok a' ->
  (length xs <= length fl)%nat /\ exists vs,
    Forall2 (fun '(f, x) v => meant f x = Some v) (combine fl (fill (length fl) xs)) vs /\
    Forall2 (fun w v => wrap 32 v < 2 ^ w) (map f_width fl) vs /\
    wrap N (rec_init a') = P * 2 ^ total (map f_width fl) + packed (combine (map f_width fl) (map (wrap 32) vs)) /\
    is_set a' = is_set a || existsb (fun '(f, x) => present f x) (combine fl (fill (length fl) xs)).
Proof.
  intros HS HN. induction fl as [|f fl IH]; intros xs a a' P O T A HP H.
  - cbn [init_fields] in H. destruct xs; [|discriminate]. injection H as <-. split; [auto|].
    exists []. cbn. cbn in A. rewrite A, orb_false_r. repeat split; auto; constructor || lia.
  - apply offs_cons in O. destruct O as (W & Ho & O). cbn [map total] in T, A.
    pose proof (total_nonneg _ (proj1 O)) as T0.
    rewrite init_step, init_field_eq in H. cbn [length]. rewrite fill_next.
    set (x := fst (next xs)) in *. set (xs' := snd (next xs)) in *.
    pose proof (actual_meant32 f x (hi a)) as AM.
    destruct (actual f x (hi a)) as [v|]; [|discriminate].
    destruct (meant f x) as [v'|] eqn:M; [|tauto].
    rewrite store_ok in H by auto.
    destruct ((f_width f <? 32) && (wrap 32 v >=? 2 ^ f_width f)) eqn:G; [discriminate|]. cbn [bindr] in H.
    apply magnitude in G; [|lia].
    assert (V : 0 <= wrap 32 v' < 2 ^ f_width f) by (pose proof (wrap_range 32 v ltac:(lia)); lia).
    rewrite Ho in H.
    eapply (IH xs' _ a' (P * 2 ^ f_width f + wrap 32 v')) in H; auto; [| lia | | pose proof (pow2_pos (f_width f)); nia].
    + destruct H as [HL (vs & F1 & F2 & R & St)].
      split; [apply next_len; exact HL|]. exists (v' :: vs).
      cbn [combine map].
      split; [constructor; auto|]. split; [constructor; auto; rewrite <- AM; auto|]. split.
      * rewrite R. cbn [packed total].
        replace (map fst (combine (map f_width fl) (map (wrap 32) vs))) with (map f_width fl).
        -- rewrite Z.pow_add_r by lia. ring.
        -- clear -F2. induction F2; cbn; f_equal; auto.
      * rewrite St. cbn [is_set existsb]. rewrite <- orb_assoc.
        destruct (is_set a), (present f x), (existsb (fun '(f, x) => present f x) (combine fl (fill (length fl) xs'))); auto.
    + cbn [rec_init]. eapply acc_step; eauto; try lia.
      * rewrite A. f_equal. f_equal. lia.
      * apply term with (f_width f); auto; try lia.
        rewrite wrap_wrap by lia.
        rewrite <- (wrap_wrap N 32 v), <- (wrap_wrap N 32 v') by lia. rewrite AM. auto.
Qed.
Lemma small_complete size fl : size <> 16 ->
  forall xs a, offs_ok fl -> total (map f_width fl) <= 32 ->
  (length xs <= length fl)%nat -> forall vs,
    Forall2 (fun '(f, x) v => meant f x = Some v) (combine fl (fill (length fl) xs)) vs ->
    Forall2 (fun w v => wrap 32 v < 2 ^ w) (map f_width fl) vs ->
  exists a', init_fields size fl xs a = Ok a'.
Proof.
  intros HS. induction fl as [|f fl IH]; intros xs a O T L vs F1 F2.
  - destruct xs; [|cbn in L; lia]. cbn. eauto.
  - apply offs_cons in O. destruct O as (W & Ho & O). cbn [map total] in T.
    pose proof (total_nonneg _ (proj1 O)) as T0.
    rewrite init_step, init_field_eq. cbn [length] in *. rewrite fill_next in F1.
    apply next_len in L.
    set (x := fst (next xs)) in *. set (xs' := snd (next xs)) in *.
    cbn [combine] in F1. inversion F1 as [|? v' ? vs' M F1' EQ1 EQ2]; subst. cbn [map] in F2.
    inversion F2 as [|? ? ? ? G F2']; subst.
    pose proof (actual_meant32 f x (hi a)) as AM. rewrite M in AM.
    destruct (actual f x (hi a)) as [v|]; [|tauto].
    rewrite store_ok by auto.
    rewrite (proj2 (magnitude (f_width f) v ltac:(lia))) by lia. cbn [bindr].
    eapply IH; eauto. lia.
Qed.

(** records of 33 to 64 bits *)
Lemma large_run size fl : size <> 16 ->
  forall xs a P, offs_ok fl -> total (map f_width fl) <= 64 ->
  wrap 64 (rec_init a) = P * 2 ^ total (map f_width fl) -> 0 <= P ->
  (length xs <= length fl)%nat -> forall vs,
  Forall2 (fun '(f, x) v => meant f x = Some v) (combine fl (fill (length fl) xs)) vs ->
  Forall2 (fun w v => 0 <= v < 2 ^ w) (map f_width fl) vs ->
  (forallb (fun '(f, x) => present f x) (combine fl (fill (length fl) xs)) = true \/ (hi a = 0 /\ Forall (fun v => v < 2 ^ 32) vs)) ->
  exists a', init_fields size fl xs a = Ok a' /\
    wrap 64 (rec_init a') = P * 2 ^ total (map f_width fl) + packed (combine (map f_width fl) vs) /\
    is_set a' = is_set a || existsb (fun '(f, x) => present f x) (combine fl (fill (length fl) xs)).
Proof.
  intros HS. induction fl as [|f fl IH]; intros xs a P O T A HP L vs F1 F2 PR.
  - destruct xs; [|cbn in L; lia]. cbn [init_fields]. exists a. split; auto. cbn in F1. inversion F1; subst.
    cbn. cbn in A. rewrite A, orb_false_r. split; auto. lia.
  - apply offs_cons in O. destruct O as (W & Ho & O). cbn [map total] in T, A.
    pose proof (total_nonneg _ (proj1 O)) as T0.
    rewrite init_step, init_field_eq. cbn [length] in *. rewrite fill_next in F1, PR. rewrite fill_next.
    apply next_len in L.
    set (x := fst (next xs)) in *. set (xs' := snd (next xs)) in *.
    cbn [combine] in F1. inversion F1 as [|? v ? vs' M F1' EQ1 EQ2]; subst. cbn [map] in F2.
    inversion F2 as [|? ? ? ? G F2']; subst.
    assert (AC : actual f x (hi a) = Some v).
    { unfold actual, meant in *. destruct x as [|y]; auto. cbn [combine forallb] in PR.
      destruct (f_ivalue f) eqn:IV; auto. injection M as <-. destruct PR as [PR|[PR _]].
      - unfold present in PR. rewrite IV in PR. discriminate.
      - rewrite PR. auto. }
    rewrite AC. rewrite store_ok by auto.
    assert (V64 : v < 2 ^ 64).
    { apply Z.lt_le_trans with (2 ^ f_width f); [lia|apply Z.pow_le_mono_r; lia]. }
    replace ((f_width f <? 32) && (wrap 32 v >=? 2 ^ f_width f)) with false.
    2:{ symmetry. destruct (Z.ltb_spec (f_width f) 32); auto. cbn [andb].
        assert (2 ^ f_width f <= 2 ^ 32) by (apply Z.pow_le_mono_r; lia).
        rewrite wrap_small by lia. lia. }
    cbn [bindr]. rewrite Ho.
    match goal with |- context [init_fields size fl xs' ?q] => set (a1 := q) end.
    destruct (IH xs' a1 (P * 2 ^ f_width f + v)) with (vs := vs') as (a' & E & R & St); auto.
    + lia.
    + cbn [a1 rec_init]. eapply acc_step; eauto; try lia.
      * rewrite A. f_equal. f_equal. lia.
      * apply term with (f_width f); auto; lia.
    + pose proof (pow2_pos (f_width f)); nia.
    + cbn [combine forallb] in PR. destruct PR as [PR|[PR1 PR2]].
      * apply andb_true_iff in PR. tauto.
      * right. apply Forall_cons_iff in PR2. split; [|tauto]. cbn [a1 hi].
        rewrite wrap_small by lia. apply Z.div_small. lia.
    + exists a'. split; auto. cbn [map combine]. split.
      * rewrite R. cbn [packed total].
        replace (map fst (combine (map f_width fl) vs')) with (map f_width fl).
        -- rewrite Z.pow_add_r by lia. ring.
        -- clear -F2'. induction F2'; cbn; f_equal; auto.
      * rewrite St. cbn [a1 is_set existsb]. rewrite <- orb_assoc.
        destruct (is_set a), (present f x), (existsb (fun '(f, x) => present f x) (combine fl (fill (length fl) xs'))); auto.
Qed.

Lemma le_bytes_mod n v : le_bytes n v = le_bytes n (wrap (8 * Z.of_nat n) v).
Proof.
  revert v; induction n; intros; cbn [le_bytes]; auto. unfold wrap.
  replace (8 * Z.of_nat (S n)) with (8 + 8 * Z.of_nat n) by lia. rewrite Z.pow_add_r by lia. change (2 ^ 8) with 256.
  pose proof (pow2_pos (8 * Z.of_nat n) ltac:(lia)).
  rewrite Z.rem_mul_r by lia. f_equal.
  - rewrite Z.mul_comm, Z.mod_add by lia. rewrite Z.mod_mod; lia.
  - rewrite (IHn (v / 256)), (IHn ((v mod 256 + 256 * _) / 256)). f_equal.
    rewrite (Z.mul_comm 256), Z.div_add by lia. rewrite (Z.div_small (v mod 256)) by lia. rewrite Z.add_0_l.
    unfold wrap. rewrite Z.mod_mod by lia. auto.
Qed.

Lemma size_cases r : proper r -> In (r_size r) [1; 2; 4; 8; 16] /\ total (widths r) <= 8 * r_size r.
Proof. intros (_ & _ & _ & B). destruct B as (I & L & _). auto. Qed.

Lemma data_small g r xs out : proper r -> r_size r <= 4 ->
  (InitRecord g r xs = Ok out <->
   (length xs <= length (r_fields r))%nat /\ exists vs, meant_all r xs vs /\
     Forall2 (fun w v => v mod 2 ^ 32 < 2 ^ w) (widths r) vs /\
     out = stored r xs (packed (combine (widths r) (map (fun v => v mod 2 ^ 32) vs)))).
Proof.
  intros PR S. destruct (size_cases r PR) as [I T]. destruct PR as (W & _ & O & _).
  assert (SZ : 1 <= r_size r) by (cbn in I; lia).
  assert (OK : offs_ok (r_fields r)) by (split; auto).
  set (N := 8 * r_size r) in *.
  set (a0 := {| hi := g; dstHi := 0; dstLo := 0; rec_init := 0; is_set := false |}).
  assert (A0 : wrap N (rec_init a0) = 0 * 2 ^ total (map f_width (r_fields r))) by (apply wrap_small; cbn [a0 rec_init]; pose proof (pow2_pos N); lia).
  assert (R : forall a', init_fields (r_size r) (r_fields r) xs a0 = Ok a' ->
     (length xs <= length (r_fields r))%nat /\ exists vs, meant_all r xs vs /\
       Forall2 (fun w v => wrap 32 v < 2 ^ w) (widths r) vs /\
       (if is_set a' then if r_size r =? 16 then Bytes (le_bytes 8 (dstLo a') ++ le_bytes 8 (dstHi a'))
        else Bytes (le_bytes (Z.to_nat (r_size r)) (rec_init a')) else Space (r_size r)) = stored r xs (packed (combine (widths r) (map (wrap 32) vs)))).
  { intros a' H. apply (small_sound (r_size r) N) with (P := 0) in H; auto; try lia.
    destruct H as [L (vs & F1 & F2 & X & St)]. split; auto. exists vs. split; [exact F1|]. split; [exact F2|].
    unfold stored, any_present, filled. rewrite St. cbn [a0 is_set orb].
    destruct (existsb _ _); auto. replace (r_size r =? 16) with false by lia. f_equal.
    rewrite le_bytes_mod. rewrite Z2Nat.id by lia. fold N. rewrite X. f_equal. }
  unfold InitRecord. fold a0. split.
  - intros H. destruct (init_fields (r_size r) (r_fields r) xs a0) as [a'| |]; cbn [bindr] in H; try discriminate.
    injection H as <-. destruct (R a' eq_refl) as [L (vs & F1 & F2 & E)]. split; auto. exists vs. split; auto.
  - intros [L (vs & F1 & F2 & ->)].
    destruct (small_complete (r_size r) (r_fields r) ltac:(lia) xs a0 OK ltac:(unfold widths in T; lia) L vs F1 F2) as [a' E].
    rewrite E. cbn [bindr]. f_equal. destruct (R a' E) as [_ (vs' & F1' & F2' & E')]. rewrite E'.
    unfold stored. destruct (any_present r xs); auto. do 4 f_equal.
    replace vs' with vs; auto.
    unfold meant_all in F1, F1'. clear -F1 F1'. revert vs' F1'. induction F1 as [|[f x] v l vs M F1 IH]; intros vs' F1'; inversion F1' as [|? ? ? ? M']; subst; auto.
    f_equal; [congruence|auto].
Qed.

Lemma data_large g r xs vs : proper r -> r_size r = 8 -> (length xs <= length (r_fields r))%nat -> meant_all r xs vs ->
  Forall2 (fun w v => 0 <= v < 2 ^ w) (widths r) vs ->
  all_present r xs = true \/ (g = 0 /\ Forall (fun v => v < 2 ^ 32) vs) ->
  InitRecord g r xs = Ok (stored r xs (packed (combine (widths r) vs))).
Proof.
  intros PR S L F1 F2 P. destruct (size_cases r PR) as [I T]. destruct PR as (W & _ & O & _).
  assert (OK : offs_ok (r_fields r)) by (split; auto).
  unfold InitRecord.
  set (a0 := {| hi := g; dstHi := 0; dstLo := 0; rec_init := 0; is_set := false |}).
  destruct (large_run (r_size r) (r_fields r) ltac:(lia) xs a0 0 OK) with (vs := vs) as (a' & E & X & St); auto; try (unfold widths in *; lia).
  rewrite E. cbn [bindr]. f_equal. rewrite St. unfold stored, any_present, filled. cbn [a0 is_set orb].
  destruct (existsb _ _); auto. rewrite S. change (8 =? 16) with false. cbn iota. f_equal.
  change (Z.to_nat 8) with 8%nat. rewrite (le_bytes_mod 8 (rec_init a')). change (8 * Z.of_nat 8) with 64. rewrite X. f_equal.
Qed.

(** records of 65 to 128 bits *)
Definition clear_of_63 (f : field) : Prop := 64 <= f_offset f \/ f_offset f + f_width f <= 63.
Lemma shift_ok v w off : 0 < w <= 64 -> 0 <= v < 2 ^ w -> 0 <= off -> off + w <= 128 -> 64 <= off \/ off + w <= 63 ->
  ShiftLeft v off = (v * 2 ^ off / 2 ^ 64, (v * 2 ^ off) mod 2 ^ 64).
Proof.
  intros W V Ho L C. unfold ShiftLeft. destruct (Z.geb_spec off 64).
  - assert (E : v * 2 ^ off = v * 2 ^ (off - 64) * 2 ^ 64) by (rewrite <- Z.mul_assoc, <- Z.pow_add_r by lia; do 2 f_equal; lia).
    rewrite E. rewrite Z.div_mul, Z.mod_mul by lia. rewrite Z.shiftl_mul_pow2 by lia. f_equal.
    apply wrap_small. apply field_bound with w; lia.
  - assert (off + w <= 63) by lia.
    pose proof (field_bound v w off 64 Ho ltac:(lia) ltac:(lia) V).
    rewrite (Z.div_small (v * 2 ^ off)), (Z.mod_small (v * 2 ^ off)) by lia. rewrite Z.shiftl_mul_pow2 by lia. rewrite wrap_small by lia. f_equal.
    replace (Z.lnot off mod 64) with (63 - off).
    + rewrite Z.shiftr_div_pow2 by lia. apply Z.div_small. split; [lia|].
      apply Z.lt_le_trans with (2 ^ w); [lia|]. apply Z.pow_le_mono_r; lia.
    + unfold Z.lnot. replace (Z.pred (- off)) with (63 - off + (-1) * 64) by lia. rewrite Z.mod_add by lia. symmetry. apply Z.mod_small. lia.
Qed.
Lemma lor128 P w off v : 0 <= P -> 0 < w -> 0 <= off -> 0 <= v < 2 ^ w -> 64 <= off \/ off + w <= 63 ->
  let D := P * 2 ^ (off + w) in let t := v * 2 ^ off in
  Z.lor (D / 2 ^ 64) (t / 2 ^ 64) = (D + t) / 2 ^ 64 /\ Z.lor (D mod 2 ^ 64) (t mod 2 ^ 64) = (D + t) mod 2 ^ 64.
Proof.
  intros HP W Ho V C D t.
  assert (E : D + t = Z.lor D t).
  { unfold D, t. symmetry. apply lor_disjoint; [lia|]. apply field_bound with w; lia. }
  rewrite E. split.
  - rewrite <- !Z.shiftr_div_pow2 by lia. symmetry. apply Z.shiftr_lor.
  - rewrite <- !Z.land_ones by lia. symmetry. apply Z.land_lor_distr_l.
Qed.

Lemma wide_run fl : forall xs a P, offs_ok fl -> total (map f_width fl) <= 128 ->
  dstHi a = P * 2 ^ total (map f_width fl) / 2 ^ 64 -> dstLo a = (P * 2 ^ total (map f_width fl)) mod 2 ^ 64 -> 0 <= P ->
  Forall (fun f => f_width f <= 64 /\ clear_of_63 f) fl ->
  (length xs <= length fl)%nat -> forall vs,
  Forall2 (fun '(f, x) v => meant f x = Some v) (combine fl (fill (length fl) xs)) vs ->
  Forall2 (fun w v => 0 <= v < 2 ^ w) (map f_width fl) vs ->
  (forallb (fun '(f, x) => present f x) (combine fl (fill (length fl) xs)) = true \/ (hi a = 0 /\ Forall (fun v => v < 2 ^ 32) vs)) ->
  exists a', init_fields 16 fl xs a = Ok a' /\
    let D := P * 2 ^ total (map f_width fl) + packed (combine (map f_width fl) vs) in
    dstHi a' = D / 2 ^ 64 /\ dstLo a' = D mod 2 ^ 64 /\
    is_set a' = is_set a || existsb (fun '(f, x) => present f x) (combine fl (fill (length fl) xs)).
Proof.
  induction fl as [|f fl IH]; intros xs a P O T AH AL HP CL L vs F1 F2 PR.
  - destruct xs; [|cbn in L; lia]. cbn [init_fields]. exists a. split; auto. cbn in F1. inversion F1; subst.
    cbn zeta. cbn [map total combine packed fill length existsb] in *. rewrite orb_false_r. rewrite !Z.add_0_r. auto.
  - apply offs_cons in O. destruct O as (W & Ho & O). cbn [map total] in T, AH, AL.
    apply Forall_cons_iff in CL. destruct CL as [[W64 C63] CL].
    pose proof (total_nonneg _ (proj1 O)) as T0.
    rewrite init_step, init_field_eq. cbn [length] in *. rewrite fill_next in F1, PR. rewrite fill_next.
    apply next_len in L.
    set (x := fst (next xs)) in *. set (xs' := snd (next xs)) in *.
    cbn [combine] in F1. inversion F1 as [|? v ? vs' M F1' EQ1 EQ2]; subst. cbn [map] in F2.
    inversion F2 as [|? ? ? ? G F2']; subst.
    assert (AC : actual f x (hi a) = Some v).
    { unfold actual, meant in *. destruct x as [|y]; auto. cbn [combine forallb] in PR.
      destruct (f_ivalue f) eqn:IV; auto. injection M as <-. destruct PR as [PR|[PR _]].
      - unfold present in PR. rewrite IV in PR. discriminate.
      - rewrite PR. auto. }
    rewrite AC.
    assert (V64 : v < 2 ^ 64).
    { apply Z.lt_le_trans with (2 ^ f_width f); [lia|apply Z.pow_le_mono_r; lia]. }
    unfold store.
    replace ((f_width f <? 32) && (wrap 32 v >=? 2 ^ f_width f)) with false.
    2:{ symmetry. destruct (Z.ltb_spec (f_width f) 32); auto. cbn [andb].
        assert (2 ^ f_width f <= 2 ^ 32) by (apply Z.pow_le_mono_r; lia).
        rewrite wrap_small by lia. lia. }
    rewrite (wrap_small 64 v) by lia.
    unfold clear_of_63 in C63. rewrite Ho in *.
    rewrite (shift_ok v (f_width f)) by lia.
    change (16 =? 16) with true. cbn iota. cbn [bindr].
    rewrite (Z.add_comm (f_width f)) in AH, AL.
    destruct (lor128 P (f_width f) (total (map f_width fl)) v HP W T0 G C63) as [LH LL].
    assert (PP : P * 2 ^ (total (map f_width fl) + f_width f) + v * 2 ^ total (map f_width fl) = (P * 2 ^ f_width f + v) * 2 ^ total (map f_width fl)).
    { rewrite Z.pow_add_r by lia. ring. }
    match goal with |- context [init_fields 16 fl xs' ?q] => set (a1 := q) end.
    destruct (IH xs' a1 (P * 2 ^ f_width f + v)) with (vs := vs') as (a' & E & RH & RL & St); auto.
    + lia.
    + cbn [a1 dstHi]. rewrite AH, LH. f_equal. exact PP.
    + cbn [a1 dstLo]. rewrite AL, LL. f_equal. exact PP.
    + pose proof (pow2_pos (f_width f)); nia.
    + cbn [combine forallb] in PR. destruct PR as [PR|[PR1 PR2]].
      * apply andb_true_iff in PR. tauto.
      * right. apply Forall_cons_iff in PR2. split; [|tauto]. cbn [a1 hi]. apply Z.div_small. lia.
    + exists a'. split; auto. cbn zeta in *. cbn [map combine].
      assert (DD : P * 2 ^ total (f_width f :: map f_width fl) + packed ((f_width f, v) :: combine (map f_width fl) vs') =
                   (P * 2 ^ f_width f + v) * 2 ^ total (map f_width fl) + packed (combine (map f_width fl) vs')).
      { cbn [packed total].
        replace (map fst (combine (map f_width fl) vs')) with (map f_width fl).
        - rewrite Z.pow_add_r by lia. ring.
        - clear -F2'. induction F2'; cbn; f_equal; auto. }
      rewrite DD. split; auto. split; auto.
      rewrite St. cbn [a1 is_set existsb]. rewrite <- orb_assoc.
      destruct (is_set a), (present f x), (existsb (fun '(f, x) => present f x) (combine fl (fill (length fl) xs'))); auto.
Qed.

Lemma le_bytes_split v : 0 <= v -> le_bytes 8 (v mod 2 ^ 64) ++ le_bytes 8 (v / 2 ^ 64) = le_bytes 16 v.
Proof.
  intros Hv. rewrite <- (le_bytes_mod 8 v : _ = le_bytes 8 (v mod 2 ^ 64)).
  cbn [le_bytes app]. rewrite !Z.div_div by lia. cbn [Z.mul Pos.mul]. reflexivity.
Qed.

Lemma data_wide g r xs vs : proper r -> r_size r = 16 -> (length xs <= length (r_fields r))%nat -> meant_all r xs vs ->
  Forall2 (fun w v => 0 <= v < 2 ^ w) (widths r) vs ->
  Forall (fun f => f_width f <= 64 /\ clear_of_63 f) (r_fields r) ->
  all_present r xs = true \/ (g = 0 /\ Forall (fun v => v < 2 ^ 32) vs) ->
  InitRecord g r xs = Ok (stored r xs (packed (combine (widths r) vs))).
Proof.
  intros PR S L F1 F2 CL P. destruct (size_cases r PR) as [I T]. destruct PR as (W & _ & O & _).
  assert (OK : offs_ok (r_fields r)) by (split; auto).
  unfold InitRecord. rewrite S.
  set (a0 := {| hi := g; dstHi := 0; dstLo := 0; rec_init := 0; is_set := false |}).
  destruct (wide_run (r_fields r) xs a0 0 OK) with (vs := vs) as (a' & E & XH & XL & St); auto; try (unfold widths in *; lia).
  rewrite E. cbn [bindr]. f_equal. rewrite St. unfold stored, any_present, filled. cbn [a0 is_set orb].
  destruct (existsb _ _); [|congruence]. change (16 =? 16) with true. cbn iota. f_equal.
  rewrite XH, XL. rewrite Z.mul_0_l, Z.add_0_l. rewrite S. change (Z.to_nat 16) with 16%nat.
  apply le_bytes_split.
  assert (PRG : 0 <= packed (combine (widths r) vs) < 2 ^ total (map fst (combine (widths r) vs))).
  { apply packed_range. clear -W F2. revert W. induction F2; cbn; constructor; auto; inversion W; auto. }
  tauto.
Qed.

(** ** rejected initializers *)
Lemma store_err size f a v b : 0 < f_width f < 32 -> 2 ^ f_width f <= v mod 2 ^ 32 -> store size f a v b = Err.
Proof. intros W V. unfold store. fold (wrap 32 v) in V. replace ((f_width f <? 32) && (wrap 32 v >=? 2 ^ f_width f)) with true by lia. auto. Qed.
Lemma not_ok_err size fl : forall xs a, (forall a', init_fields size fl xs a <> Ok a') -> init_fields size fl xs a = Err.
Proof.
  induction fl as [|f fl IH]; intros xs a H.
  - cbn [init_fields] in *. destruct xs; auto. now elim (H a).
  - rewrite init_step in *. rewrite init_field_eq in *.
    destruct (actual f (fst (next xs)) (hi a)) as [v|]; auto.
    unfold store in *. destruct (_ && _); auto. destruct (ShiftLeft (wrap 64 v) (f_offset f)). cbn [bindr] in *. apply IH. auto.
Qed.
Lemma rejects g r xs : Forall (fun w => 0 < w) (widths r) ->
  ((length xs > length (r_fields r))%nat \/
   (exists f x, In (f, x) (combine (r_fields r) (filled r xs)) /\
     (meant f x = None \/ exists v, meant f x = Some v /\ f_width f < 32 /\ 2 ^ f_width f <= v mod 2 ^ 32))) ->
  InitRecord g r xs = Err.
Proof.
  intros W H. unfold InitRecord, filled, widths in *. set (a := {| hi := g; dstHi := 0; dstLo := 0; rec_init := 0; is_set := false |}). clearbody a.
  assert (E : init_fields (r_size r) (r_fields r) xs a = Err); [|rewrite E; auto].
  generalize (r_size r). intros size. destruct r as [s fl]. cbn [r_fields] in *. clear s.
  revert xs a W H. induction fl as [|f fl IH]; intros xs a W H.
  - cbn [init_fields]. destruct xs; auto. destruct H as [H|(f & x & [] & _)]. cbn in H; lia.
  - cbn [map] in W. apply Forall_cons_iff in W. destruct W as [W WS].
    rewrite init_step, init_field_eq. cbn [length] in H. rewrite fill_next in H.
    set (x := fst (next xs)) in *. set (xs' := snd (next xs)) in *.
    assert (C : actual f x (hi a) = None \/ (exists v, actual f x (hi a) = Some v /\ store size f a v (present f x) = Err) \/
                ((length xs' > length fl)%nat \/ (exists f x, In (f, x) (combine fl (fill (length fl) xs')) /\
                  (meant f x = None \/ exists v, meant f x = Some v /\ f_width f < 32 /\ 2 ^ f_width f <= v mod 2 ^ 32)))).
    { destruct H as [H|(f0 & x0 & I & M)].
      - right; right; left. pose proof (next_len (length fl) xs). fold xs' in H0. lia.
      - cbn [combine] in I. destruct I as [I|I].
        + injection I as <- <-. pose proof (actual_meant32 f x (hi a)) as AM.
          destruct M as [M|(v & M & LT & G)]; rewrite M in AM.
          * left. destruct (actual f x (hi a)); tauto.
          * right; left. destruct (actual f x (hi a)) as [u|]; [|tauto]. exists u. split; auto.
            apply store_err; [lia|]. unfold wrap in AM. lia.
        + right; right; right. exists f0, x0. auto. }
    destruct C as [C|[(v & C & S)|C]].
    + rewrite C. auto.
    + rewrite C, S. auto.
    + destruct (actual f x (hi a)) as [v|]; auto.
      destruct (store size f a v (present f x)) as [a1| |] eqn:S; cbn [bindr]; auto.
      unfold store in S. destruct (_ && _); [discriminate|]. destruct (ShiftLeft (wrap 64 v) (f_offset f)). discriminate.
Qed.

(** ** masks *)
Lemma or_bits_ok n : forall i m, 0 <= i -> i + Z.of_nat n <= 64 -> or_bits n i m = Ok (Z.lor m (2 ^ i * (2 ^ Z.of_nat n - 1))).
Proof.
  induction n as [|n IH]; intros i m Hi L.
  - cbn [or_bits]. change (2 ^ Z.of_nat 0 - 1) with 0. rewrite Z.mul_0_r, Z.lor_0_r. auto.
  - cbn [or_bits]. destruct (Z.geb_spec i 64); [lia|]. rewrite IH by lia. f_equal. rewrite <- Z.lor_assoc. f_equal.
    replace (Z.of_nat (S n)) with (1 + Z.of_nat n) by lia. rewrite !Z.pow_add_r by lia. change (2 ^ 1) with 2.
    pose proof (pow2_pos (Z.of_nat n) ltac:(lia)). pose proof (pow2_pos i Hi).
    rewrite Z.lor_comm. rewrite Z.shiftl_1_l.
    replace (2 ^ i * 2 * (2 ^ Z.of_nat n - 1)) with ((2 ^ Z.of_nat n - 1) * 2 ^ (i + 1)) by (rewrite Z.pow_add_r by lia; change (2 ^ 1) with 2; ring).
    rewrite lor_disjoint; [|lia|rewrite Z.pow_add_r by lia; change (2 ^ 1) with 2; lia].
    rewrite Z.pow_add_r by lia. change (2 ^ 1) with 2. ring.
Qed.
Lemma masks_ok fl : forall m P, offs_ok fl -> total (map f_width fl) <= 64 -> 0 <= P -> m = P * 2 ^ total (map f_width fl) ->
  masks fl m = Ok (m + (2 ^ total (map f_width fl) - 1)).
Proof.
  induction fl as [|f fl IH]; intros m P O T HP M.
  - cbn. f_equal. lia.
  - apply offs_cons in O. destruct O as (W & Ho & O). cbn [map total] in *.
    pose proof (total_nonneg _ (proj1 O)) as T0.
    cbn [masks]. rewrite Ho. rewrite or_bits_ok by lia. cbn [bindr]. rewrite Z2Nat.id by lia.
    set (t := total (map f_width fl)) in *. pose proof (pow2_pos (f_width f) ltac:(lia)). pose proof (pow2_pos t T0).
    assert (E : Z.lor m (2 ^ t * (2 ^ f_width f - 1)) = (P * 2 ^ f_width f + (2 ^ f_width f - 1)) * 2 ^ t).
    { rewrite M. rewrite Z.add_comm. rewrite (Z.mul_comm (2 ^ t)). rewrite Z.add_comm at 1.
      replace (P * 2 ^ (f_width f + t)) with (P * 2 ^ (t + f_width f)) by (f_equal; f_equal; lia).
      rewrite lor_disjoint; [|lia|apply field_bound with (f_width f); lia].
      rewrite Z.pow_add_r by lia. ring. }
    rewrite E. rewrite (IH _ (P * 2 ^ f_width f + (2 ^ f_width f - 1))); auto; try lia; try nia.
    f_equal. rewrite M. rewrite Z.pow_add_r by lia. ring.
Qed.
Lemma width_ok fl : forall v, offs_ok fl -> 0 <= v -> v + total (map f_width fl) <= 128 ->
  fold_left (fun v f => swrap 32 (v + f_width f)) fl v = v + total (map f_width fl).
Proof.
  induction fl as [|f fl IH]; intros v O V T; cbn [fold_left map total] in *; [lia|].
  apply offs_cons in O. destruct O as (W & Ho & O). pose proof (total_nonneg _ (proj1 O)) as T0.
  rewrite swrap_small; [|lia|change (2 ^ (32 - 1)) with 2147483648; lia].
  rewrite IH; auto; lia.
Qed.

Lemma combine_split {A B} (fl : list A) : forall (ws : list B), length ws = length fl -> forall a f b, fl = a ++ f :: b ->
  exists wa w wb, ws = wa ++ w :: wb /\ length wa = length a /\ length wb = length b.
Proof.
  intros ws L a. revert fl ws L. induction a as [|y a IH]; intros fl ws L f b ->; destruct ws as [|w ws]; cbn in L; try discriminate.
  - exists [], w, ws. cbn. auto.
  - injection L as L. destruct (IH _ ws L f b eq_refl) as (wa & w' & wb & -> & E1 & E2). exists (w :: wa), w', wb. cbn. auto.
Qed.

(** reading a field back *)
Lemma read_back r vs a f b : proper r -> Forall2 (fun w v => 0 <= v < 2 ^ w) (widths r) vs -> r_fields r = a ++ f :: b ->
  extract (le_val (le_bytes (Z.to_nat (r_size r)) (packed (combine (widths r) vs)))) (f_offset f) (f_width f) = nth (length a) vs 0.
Proof.
  intros PR F2 E. destruct (size_cases r PR) as [I T]. destruct PR as (W & _ & O & _).
  assert (FP : Forall (fun '(w, v) => 0 < w /\ 0 <= v < 2 ^ w) (combine (widths r) vs)).
  { clear -W F2. revert W. induction F2; cbn; constructor; auto; inversion W; auto. }
  assert (FS : map fst (combine (widths r) vs) = widths r).
  { clear -F2. induction F2; cbn; f_equal; auto. }
  pose proof (packed_range _ FP) as PRG. rewrite FS in PRG.
  rewrite le_val_le_bytes. rewrite Z2Nat.id by (cbn in I; lia).
  rewrite Z.mod_small.
  2:{ split; [tauto|]. apply Z.lt_le_trans with (2 ^ total (widths r)); [tauto|]. apply Z.pow_le_mono_r; lia. }
  assert (LV : length vs = length (r_fields r)).
  { unfold widths in F2. rewrite <- (map_length f_width). clear -F2. induction F2; cbn; auto. }
  destruct (combine_split (r_fields r) vs LV a f b E) as (va & v & vb & -> & La & Lb).
  rewrite app_nth2 by lia. rewrite La, Nat.sub_diag. cbn [nth].
  assert (OF : f_offset f = total (map f_width b)).
  { clear -O E. unfold widths in O. rewrite E in O. clear E. revert O. induction a as [|y a IH]; cbn [app map positions].
    - intros H; injection H as H _. auto.
    - intros H; injection H as _ H. auto. }
  unfold widths in *. rewrite E in *. rewrite map_app in *. cbn [map] in *.
  assert (CA : forall (wa va : list Z), length wa = length va -> forall wb vb : list Z, combine (wa ++ wb) (va ++ vb) = combine wa va ++ combine wb vb).
  { induction wa as [|x wa IH]; intros [|y va0] L0 wb vb0; cbn in L0; try discriminate; cbn [combine app]; auto. f_equal. apply IH. auto. }
  rewrite CA in * by (rewrite map_length; auto). cbn [combine] in *.
  pose proof (packed_extract _ FP _ _ _ _ eq_refl) as PE.
  replace (f_offset f) with (total (map fst (combine (map f_width b) vb))); auto.
  rewrite OF. f_equal. clear -Lb. revert vb Lb. induction b as [|y b IH]; intros [|v vb] L; cbn in *; try discriminate; f_equal; auto.
Qed.

Lemma above r a f b g c : proper r -> r_fields r = a ++ f :: b ++ g :: c -> f_offset g + f_width g <= f_offset f.
Proof.
  intros (W & _ & O & _) E. unfold widths in *. rewrite E in *. clear E r.
  induction a as [|y a IH]; cbn [app map positions] in *.
  - injection O as O1 O2. apply Forall_cons_iff in W. destruct W as [_ W].
    rewrite O1. clear O1. revert O2 W. induction b as [|y b IH]; cbn [app map positions total].
    + intros H W. injection H as H _. apply Forall_cons_iff in W. rewrite H. lia.
    + intros H W. injection H as _ H. apply Forall_cons_iff in W. specialize (IH H (proj2 W)). lia.
  - injection O as _ O. apply Forall_cons_iff in W. apply IH; tauto.
Qed.
Lemma covered r : proper r -> forall b, 0 <= b < total (widths r) -> exists f, In f (r_fields r) /\ f_offset f <= b < f_offset f + f_width f.
Proof.
  intros (W & _ & O & _). unfold widths in *. revert W O. induction (r_fields r) as [|f fl IH]; cbn [map total positions]; intros W O b B; [lia|].
  injection O as O1 O2. apply Forall_cons_iff in W.
  destruct (Z.lt_ge_cases b (total (map f_width fl))).
  - destruct (IH (proj2 W) O2 b ltac:(lia)) as (g & I & G). exists g. cbn; auto.
  - exists f. cbn; split; auto. lia.
Qed.

Lemma mask_ok r f : proper r -> r_size r <= 8 -> In f (r_fields r) ->
  field_mask f = Ok (2 ^ f_offset f * (2 ^ f_width f - 1)) /\ field_width f = f_width f.
Proof.
  intros PR S I. pose proof (size_cases r PR) as [Z T]. pose proof (covered r PR) as CV. destruct PR as (W & _ & O & _).
  assert (B : 0 < f_width f /\ 0 <= f_offset f /\ f_offset f + f_width f <= 64).
  { unfold widths in *. assert (T' : total (map f_width (r_fields r)) <= 64) by lia. clear -W O I T'.
    induction (r_fields r) as [|g fl IH]; [destruct I|]. cbn [map total positions] in *. injection O as O1 O2. apply Forall_cons_iff in W.
    pose proof (total_nonneg _ (proj2 W)). destruct I as [<-|I]; [lia|]. apply IH; auto; try tauto; lia. }
  unfold field_mask, field_width. rewrite or_bits_ok by lia. rewrite Z2Nat.id by lia. rewrite Z.lor_0_l.
  rewrite swrap_small; [auto|lia|change (2 ^ (32 - 1)) with 2147483648; lia].
Qed.
Lemma record_mask_ok r : proper r -> r_size r <= 8 -> GetRecordMask r = Ok (2 ^ total (widths r) - 1) /\ record_width r = total (widths r).
Proof.
  intros PR S. pose proof (size_cases r PR) as [Z T]. destruct PR as (W & _ & O & _). unfold widths in *.
  assert (OK : offs_ok (r_fields r)) by (split; auto).
  split.
  - unfold GetRecordMask. rewrite (masks_ok _ 0 0); auto; lia.
  - unfold record_width. rewrite width_ok; auto; lia.
Qed.
