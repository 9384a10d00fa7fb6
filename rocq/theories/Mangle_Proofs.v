From Verif Require Import Base Mangle_Model Mangle_Spec MangleStyle_Spec.

Lemma nv_app a b : numeral_value (a ++ b) = numeral_value a * 10 ^ zlen b + numeral_value b.
Proof.
  unfold numeral_value. rewrite fold_left_app. generalize (fold_left (fun v c => v * 10 + (c - 48)) a 0). clear a.
  induction b as [|x b IH] using rev_ind; intros v.
  - rewrite zlen_nil. cbn [fold_left]. lia.
  - rewrite !fold_left_app. cbn [fold_left]. rewrite (IH v). rewrite zlen_app. change (zlen [x]) with 1. rewrite Z.pow_add_r by (pose proof (zlen_nonneg b); lia). lia.
Qed.
(** digits in front of [acc] *)
Lemma udigits_spec : forall n v acc, 0 <= v < 10 ^ Z.of_nat n -> (0 < n)%nat ->
  exists d, udigits n v acc = d ++ acc /\ numeral d v.
Proof.
  induction n as [|n IH]; intros v acc V N; [lia|]. cbn [udigits].
  assert (P : 10 ^ Z.of_nat (S n) = 10 * 10 ^ Z.of_nat n) by (rewrite Nat2Z.inj_succ, Z.pow_succ_r; lia). rewrite P in V.
  pose proof (Z.div_mod v 10 ltac:(lia)) as DM. pose proof (Z.mod_pos_bound v 10 ltac:(lia)) as MB.
  destruct (Z.eqb_spec (v / 10) 0) as [E|E].
  - exists [48 + v mod 10]. split; [reflexivity|]. split; [constructor; [unfold digit; lia|constructor]|]. split; [discriminate|].
    split; [unfold numeral_value; cbn [fold_left]; lia|]. cbn [hd]. intros H. f_equal. lia.
  - assert (V10 : 0 <= v / 10 < 10 ^ Z.of_nat n) by (split; [apply Z.div_pos; lia|apply Z.div_lt_upper_bound; lia]).
    assert (NP : (0 < n)%nat) by (destruct n; [change (10 ^ Z.of_nat 0) with 1 in V10; lia|lia]).
    destruct (IH (v / 10) ((48 + v mod 10) :: acc) V10 NP) as (d & D1 & D2 & D3 & D4 & D5).
    exists (d ++ [48 + v mod 10]). rewrite D1, <- app_assoc. split; [reflexivity|].
    split; [apply Forall_app; split; [exact D2|constructor; [unfold digit; lia|constructor]]|].
    split; [destruct d; discriminate|]. split.
    + rewrite nv_app, D4. change (zlen [48 + v mod 10]) with 1. unfold numeral_value. cbn [fold_left]. lia.
    + intros H. exfalso. destruct d as [|c d]; [congruence|]. cbn [app hd] in H. cbn [hd] in D5. specialize (D5 H). inversion D5; subst.
      unfold numeral_value in D4. cbn [fold_left] in D4. lia.
Qed.
Lemma fmt_u_numeral v : 0 <= v < 2 ^ 32 -> numeral (fmt_u v) v.
Proof.
  intros V. unfold fmt_u. destruct (udigits_spec 10 v []) as (d & D1 & D2); [change (10 ^ Z.of_nat 10) with 10000000000; change (2 ^ 32) with 4294967296 in V; lia|lia|].
  rewrite D1, app_nil_r. exact D2.
Qed.
Lemma fmt_d_numeral v : 0 <= v < 2 ^ 31 -> numeral (fmt_d v) v.
Proof.
  intros V. change (2 ^ 31) with 2147483648 in V. unfold fmt_d. cbv zeta. rewrite swrap_small by (change (2 ^ (32 - 1)) with 2147483648; lia).
  replace (v <? 0) with false by lia. apply fmt_u_numeral. change (2 ^ 32) with 4294967296. lia.
Qed.
Lemma numeral_unique_split : forall a b d e, Forall digit d -> Forall digit e -> a ++ [64] ++ d = b ++ [64] ++ e -> a = b /\ d = e.
Proof.
  induction a as [|x a IH]; intros [|y b] d e D E H; cbn [app] in H.
  - inversion H. auto.
  - inversion H as [[H1 H2]]. exfalso. rewrite H2 in D. apply Forall_app in D as [_ D]. inversion D as [|? ? D1 D2]. unfold digit in D1. lia.
  - inversion H as [[H1 H2]]. exfalso. rewrite <- H2 in E. apply Forall_app in E as [_ E]. inversion E as [|? ? E1 E2]. unfold digit in E1. lia.
  - inversion H as [[H1 H2]]. destruct (IH b d e D E H2) as [-> ->]. auto.
Qed.
Lemma decorated_inj s s' a b t : same_form s s' -> preserves_case s -> decorated s a t -> decorated s' b t -> a = b.
Proof.
  intros SF PC DA DB. destruct s, s'; cbn [same_form] in SF; try contradiction; cbn [decorated] in DA, DB;
    try (exfalso; apply PC; reflexivity).
  - congruence.
  - subst. inversion DB. reflexivity.
  - subst. apply app_inj_tail in DB. apply DB.
  - destruct DA as (d & (D1 & _) & ->), DB as (e & (E1 & _) & H). cbn [app] in H. inversion H as [H'].
    apply (numeral_unique_split a b d e D1 E1) in H'. tauto.
  - destruct DA as (d & (D1 & _) & ->), DB as (e & (E1 & _) & H). cbn [app] in H. inversion H as [H'].
    apply (numeral_unique_split a b d e D1 E1) in H'. tauto.
  - destruct DA as (d & (D1 & _) & ->), DB as (e & (E1 & _) & H).
    change (a ++ [64; 64] ++ d) with (a ++ [64] ++ [64] ++ d) in H. change (b ++ [64; 64] ++ e) with (b ++ [64] ++ [64] ++ e) in H.
    rewrite !(app_assoc _ [64] ([64] ++ _)) in H. apply (numeral_unique_split _ _ d e D1 E1) in H as [H _]. apply app_inj_tail in H. tauto.
Qed.
Lemma upper_map l : Forall2 upper_of l (map toupper l).
Proof.
  induction l as [|c l IH]; cbn [map]; constructor; [|exact IH]. unfold upper_of, toupper.
  destruct ((97 <=? c) && (c <=? 122)) eqn:E; [left|right]; lia.
Qed.

Lemma Mangle_spec o s : regular o s -> decorated (style_of o s) (name s) (fst (Mangle o s)) /\ snd (Mangle o s) = zlen (fst (Mangle o s)).
Proof.
  intros (FT & PS & VC). pose proof (fmt_d_numeral _ PS) as ND.
  assert (NU : numeral (fmt_u (parasize s)) (parasize s)) by (apply fmt_u_numeral; change (2 ^ 31) with 2147483648 in PS; change (2 ^ 32) with 4294967296; lia).
  assert (U1 : zlen (name s) + 1 = zlen (95 :: name s)) by (rewrite zlen_cons; lia).
  assert (U2 : zlen (name s) = zlen (map toupper (name s))) by (unfold zlen; rewrite map_length; reflexivity).
  pose proof (upper_map (name s)) as UM.
  unfold style_of, Mangle, StdcallMangler, fcmanglers, ms32_decorate, ms64_decorate, ow_decorate.
  destruct o as [nc sd vd of mf]. cbn [o_fctype m_fctype no_cdecl_decoration stdcall_decoration vectorcall_decoration] in *. subst of.
  destruct s as [nm lt ip mt ps]. cbn [name langtype isproc mem_type parasize] in *.
  destruct lt, nc, sd, mf, ip, vd, mt;
   cbn [name langtype isproc mem_type parasize no_cdecl_decoration stdcall_decoration vectorcall_decoration o_fctype m_fctype none full is_vector is_msc andb UScoreMangler VoidMangler UCaseMangler printed fst snd decorated app];
   try (discriminate VC; auto; fail);
   try (split; [reflexivity|first [reflexivity|exact U1]]; fail);
   try (split; [exact UM|exact U2]; fail);
   try (split; [first [exists (fmt_d ps); split; [exact ND|reflexivity]|exists (fmt_u ps); split; [exact NU|reflexivity]]|reflexivity]; fail);
   try (split; [rewrite app_nil_r; reflexivity|reflexivity]; fail);
   try (specialize (VC eq_refl eq_refl eq_refl); discriminate).
Qed.
