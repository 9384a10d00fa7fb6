From Coq Require Import Permutation Sorted.
From Verif Require Import Base Sort_Model Sort_Spec Sort_Proofs Bin_Model Bin_Spec.

Lemma upd_length : forall A (l : list A) n x, length (upd n x l) = length l.
Proof. induction l as [|y l IH]; intros [|n] x; cbn; auto. Qed.
Lemma nth_upd : forall A (d : A) l n k x, (n < length l)%nat -> nth k (upd n x l) d = if Nat.eqb k n then x else nth k l d.
Proof. intros A d. induction l as [|y l IH]; intros n k x H; cbn in H; [lia|]. destruct n as [|n], k as [|k]; cbn; auto. apply IH. lia. Qed.

Definition up (a x : Z) : Z := (x + 2 ^ a - 1) / 2 ^ a * 2 ^ a.
Lemma up_spec : forall a x, 0 <= a -> x <= up a x < x + 2 ^ a /\ (2 ^ a | up a x).
Proof.
  intros a x A. pose proof (pow2_pos a A) as P. unfold up. split; [|apply Z.divide_factor_r].
  pose proof (Z.div_mod (x + 2 ^ a - 1) (2 ^ a) ltac:(lia)) as D. pose proof (Z.mod_pos_bound (x + 2 ^ a - 1) (2 ^ a) P) as M. lia.
Qed.
Lemma land_high : forall a x, 0 <= a <= 32 -> 0 <= x < 2 ^ 32 -> Z.land x (2 ^ 32 - 2 ^ a) = x / 2 ^ a * 2 ^ a.
Proof.
  intros a x A X. replace (2 ^ 32 - 2 ^ a) with (Z.shiftl (Z.ones (32 - a)) a)
    by (rewrite Z.shiftl_mul_pow2, Z.ones_equiv by lia; rewrite <- Z.sub_1_r, Z.mul_sub_distr_r, <- Z.pow_add_r by lia; f_equal; [f_equal|]; lia).
  rewrite <- Z.shiftr_div_pow2, <- Z.shiftl_mul_pow2 by lia. apply Z.bits_inj'. intros i I0. rewrite Z.land_spec, !Z.shiftl_spec by lia.
  destruct (Z_lt_ge_dec i a) as [L|L].
  - rewrite !(Z.testbit_neg_r _ (i - a)) by lia. apply andb_false_r.
  - rewrite Z.shiftr_spec by lia. replace (i - a + a) with i by lia. destruct (Z_lt_ge_dec i 32) as [L2|L2].
    + rewrite Z.ones_spec_low by lia. apply andb_true_r.
    + rewrite <- (Z.mod_small x (2 ^ 32)) by lia. rewrite Z.mod_pow2_bits_high by lia. reflexivity.
Qed.
Lemma alignbytes_ok : forall a x, 0 <= a <= 31 -> 0 <= x -> x + 2 ^ a < 2 ^ 32 ->
  wrap 32 (Z.land (wrap 32 (x + (Z.shiftl 1 a - 1))) (wrap 32 (- Z.shiftl 1 a)) - x) = up a x - x.
Proof.
  intros a x A X L. rewrite Z.shiftl_mul_pow2, Z.mul_1_l by lia. pose proof (pow2_pos a ltac:(lia)) as P.
  rewrite (wrap_small 32 (x + (2 ^ a - 1))) by lia.
  assert (wrap 32 (- 2 ^ a) = 2 ^ 32 - 2 ^ a) as ->.
  { unfold wrap. replace (- 2 ^ a) with (2 ^ 32 - 2 ^ a + (-1) * 2 ^ 32) by lia. rewrite Z_mod_plus_full. apply Z.mod_small. lia. }
  rewrite land_high by lia. replace (x + (2 ^ a - 1)) with (x + 2 ^ a - 1) by lia. fold (up a x). pose proof (up_spec a x ltac:(lia)). apply wrap_small. lia.
Qed.

(** * one segment *)
Definition keep (flat : option nat) (c : calc) (s : seg) : Z := if keeps_org flat (first c) s then s_start_loc s else 0.
Lemma existsb_dollar : forall l, existsb (fun ch => ch =? 36) l = existsb (Z.eqb 36) l.
Proof. induction l as [|x l IH]; [reflexivity|]. cbn [existsb]. rewrite IH, Z.eqb_sym. reflexivity. Qed.
Definition total (im : image) (g : nat) : Z := g_total (group_of im g).
Record good (im : image) (lim : Z) : Prop := {
  gd_hdr : 0 <= sizehdr (cp im) <= fileoffset (cp im);
  gd_lim : fileoffset (cp im) <= lim;
  gd_tot : forall g, 0 <= total im g <= lim;
  gd_ok : forall k, (k < length (segs im))%nat -> s_type (segment im k) <> 5 -> seg_ok (length (groups im)) (segment im k)
}.
Definition add_of (s : seg) : Z := 2 ^ s_align s + s_max_offset s.
Lemma calc_real : forall fmt flat k im lim, good im lim -> (k < length (segs im))%nat -> s_type (segment im k) <> 5 -> lim + add_of (segment im k) < 2 ^ 32 ->
  let s := segment im k in let im' := CalcOffset fmt flat k im in
  let fo := up (s_align s) (fileoffset (cp im)) in let loc := keep flat (cp im) s in
  let off := match s_grp s with
             | None => fo - sizehdr (cp im)
             | Some g => if total im g =? 0 then 0 else total im g + (fo - fileoffset (cp im))
             end in
  segs im' = upd k (place s loc fo off) (segs im) /\
  sizehdr (cp im') = sizehdr (cp im) /\ first (cp im') = false /\
  fileoffset (cp im') = fo + (match fmt with MZ => if s_type s =? 3 then 0 else s_max_offset s - loc | NONE => s_max_offset s - loc end) /\
  length (groups im') = length (groups im) /\
  (forall g, group_of im' g =
     match s_grp s with
     | Some h => if Nat.eqb g h then {| g_offset := if total im g =? 0 then fo - sizehdr (cp im) else g_offset (group_of im g); g_total := off + s_max_offset s |} else group_of im g
     | None => group_of im g
     end) /\
  good im' (lim + add_of s) /\
  (fmt = NONE -> entryseg (cp im') = match entryseg (cp im) with None => Some k | e => e end /\ imagestart (cp im') = if first (cp im) then loc else imagestart (cp im)).
Proof.
  intros fmt flat k im lim G K T L s im' fo loc off.
  pose proof (gd_ok _ _ G k K T) as (A & SL & IN & _ & GR). fold s in A, SL, IN, GR, T, L.
  pose proof (gd_hdr _ _ G) as HD. pose proof (gd_lim _ _ G) as LM. pose proof (gd_tot _ _ G) as TT.
  pose proof (pow2_pos (s_align s) ltac:(lia)) as P. unfold add_of in L.
  pose proof (up_spec (s_align s) (fileoffset (cp im)) ltac:(lia)) as [UP _]. fold fo in UP.
  assert (loc = (if negb (first (cp im)) && match s_grp s with Some _ => negb match s_grp s, flat with Some g, Some f => Nat.eqb g f | _, _ => false end || existsb (fun ch => ch =? 36) (s_name s) | None => false end then 0 else s_start_loc s)) as EL.
  { unfold loc, keep, keeps_org. rewrite existsb_dollar. destruct (first (cp im)); cbn [negb andb orb]; [reflexivity|]. destruct (s_grp s) as [g|]; [|reflexivity].
    destruct flat as [f|]; cbn [negb orb]; [|reflexivity]. destruct (Nat.eqb g f), (existsb (Z.eqb 36) (s_name s)); reflexivity. }
  assert (0 <= loc <= s_max_offset s) as LL by (unfold loc, keep; destruct (keeps_org _ _ _); lia).
  assert (0 <= off /\ off + s_max_offset s <= lim + add_of s) as OB.
  { unfold off, add_of. destruct (s_grp s) as [g|]; [|lia]. specialize (TT g). destruct (Z.eqb_spec (total im g) 0); lia. }
  unfold add_of in OB.
  assert (forall e, im' = e -> im' = e) as _ by auto.
  assert (im' = {| segs := upd k (place s loc fo off) (segs im);
     groups := match s_grp s with
               | None => groups im
               | Some g => upd g {| g_offset := if total im g =? 0 then fo - sizehdr (cp im) else g_offset (group_of im g); g_total := off + s_max_offset s |} (groups im)
               end;
     cp := let fo' := fo + (match fmt with MZ => if s_type s =? 3 then 0 else s_max_offset s - loc | NONE => s_max_offset s - loc end) in
           {| first := false; fileoffset := fo'; sizehdr := sizehdr (cp im); entryseg := match fmt with NONE => match entryseg (cp im) with None => Some k | e => e end | MZ => entryseg (cp im) end;
              imagestart := match fmt with NONE => if first (cp im) then loc else imagestart (cp im) | MZ => imagestart (cp im) end |} |}) as EI.
  { unfold im', CalcOffset. fold s. unfold SEGTYPE_ABS. replace (s_type s =? 5) with false by (symmetry; apply Z.eqb_neq; exact T). rewrite IN.
    rewrite (alignbytes_ok (s_align s) (fileoffset (cp im)) A ltac:(lia) ltac:(lia)). fold fo.
    replace (fileoffset (cp im) + (fo - fileoffset (cp im))) with fo by lia. rewrite (wrap_small 32 fo) by lia. rewrite <- EL.
    rewrite (wrap_small 32 (fo - sizehdr (cp im))) by lia. unfold SEGTYPE_BSS.
    rewrite (wrap_small 32 (fo + (s_max_offset s - loc))) by lia.
    unfold off in *. destruct (s_grp s) as [g|] eqn:EG.
    - specialize (TT g). fold (total im g).
      destruct (Z.eqb_spec (total im g) 0) as [E0|E0].
      + rewrite (wrap_small 32 (0 + s_max_offset s)) by lia. 
        assert (nth g (upd g {| g_offset := fo - sizehdr (cp im); g_total := 0 |} (groups im)) no_group = {| g_offset := fo - sizehdr (cp im); g_total := 0 |}) as ->
          by (rewrite nth_upd, Nat.eqb_refl by exact GR; reflexivity).
        cbn [g_offset]. assert (forall x y, upd g x (upd g y (groups im)) = upd g x (groups im)) as UU.
        { intros x y. generalize (groups im) as gl. clear. induction g as [|g IH]; intros [|z gl]; cbn; auto. f_equal. apply IH. }
        rewrite UU. destruct fmt; [reflexivity|]. destruct (s_type s =? 3); [rewrite Z.add_0_r|]; reflexivity.
      + rewrite (wrap_small 32 (total im g + (fo - fileoffset (cp im)))) by lia. rewrite (wrap_small 32 (total im g + (fo - fileoffset (cp im)) + s_max_offset s)) by lia.
        fold (group_of im g). destruct fmt; [reflexivity|]. destruct (s_type s =? 3); [rewrite Z.add_0_r|]; reflexivity.
    - destruct fmt; [reflexivity|]. destruct (s_type s =? 3); [rewrite Z.add_0_r|]; reflexivity. }
  clearbody im'. subst im'. cbn [segs groups cp sizehdr first fileoffset entryseg imagestart].
  split; [reflexivity|]. split; [reflexivity|]. split; [reflexivity|]. split; [reflexivity|].
  split. { destruct (s_grp s); [apply upd_length|reflexivity]. }
  match goal with |- ?X /\ _ => assert X as EG end.
  { intros g. unfold group_of. cbn [groups]. destruct (s_grp s) as [h|]; [|reflexivity]. rewrite nth_upd by exact GR. destruct (Nat.eqb_spec g h) as [->|]; reflexivity. }
  split; [exact EG|]. split.
  - constructor; cbn [segs groups cp sizehdr first fileoffset].
    + split; [lia|]. destruct fmt; [lia|]. destruct (s_type s =? 3); lia.
    + unfold add_of. destruct fmt; [lia|]. destruct (s_type s =? 3); lia.
    + intros g. unfold total. rewrite EG. specialize (TT g) as TG. unfold total in TG. unfold add_of. destruct (s_grp s) as [h|]; [destruct (Nat.eqb g h); cbn [g_total]; lia|lia].
    + intros j J TJ. rewrite upd_length in J. unfold segment in *. cbn [segs] in *. rewrite nth_upd in * by exact K.
      replace (length (match s_grp s with Some g => upd g _ (groups im) | None => groups im end)) with (length (groups im)) by (destruct (s_grp s); rewrite ?upd_length; reflexivity).
      destruct (Nat.eqb_spec j k) as [->|Nj]; [|apply (gd_ok _ _ G j J TJ)].
      unfold seg_ok, place. cbn [s_align s_start_loc s_max_offset s_info s_abs_frame s_grp]. split; [exact A|]. split; [lia|].
      split; [exact IN|]. split; [apply (gd_ok _ _ G k K T)|exact GR].
  - intros ->. split; reflexivity.
Qed.
Lemma calc_abs : forall fmt flat k im, s_type (segment im k) = 5 -> exists v,
  CalcOffset fmt flat k im = {| segs := upd k (place (segment im k) (s_start_loc (segment im k)) (s_fileofs (segment im k)) v) (segs im); groups := groups im; cp := cp im |} /\
  v = wrap 32 (Z.shiftl (s_abs_frame (segment im k)) 4).
Proof. intros fmt flat k im T. unfold CalcOffset. rewrite T. eexists. split; reflexivity. Qed.

(** * all segments *)
Lemma calc_nil : forall fmt flat im, calc_all fmt flat [] im = im.
Proof. reflexivity. Qed.
Lemma calc_cons : forall fmt flat k r im, calc_all fmt flat (k :: r) im = calc_all fmt flat r (CalcOffset fmt flat k im).
Proof. reflexivity. Qed.
Lemma calc_app : forall fmt flat a b im, calc_all fmt flat (a ++ b) im = calc_all fmt flat b (calc_all fmt flat a im).
Proof. intros. unfold calc_all. apply fold_left_app. Qed.
Definition placed (s s' : seg) : Prop := exists a b c, s' = place s a b c.
Lemma placed_refl : forall s, placed s s.
Proof. intros s. exists (s_start_loc s), (s_fileofs s), (s_start s). destruct s; reflexivity. Qed.
Lemma placed_trans : forall a b c, placed a b -> placed b c -> placed a c.
Proof. intros a b c (x & y & z & ->) (u & v & w & ->). exists u, v, w. reflexivity. Qed.
Definition ready (im : image) (lim : Z) (ks : list nat) : Prop :=
  good im lim /\ lim + room (segs im) ks < 2 ^ 32 /\ NoDup ks /\ (forall k, In k ks -> (k < length (segs im))%nat).
Lemma calc_place : forall fmt flat k im, s_type (segment im k) = 5 \/ s_info (segment im k) = false -> exists a b c, segs (CalcOffset fmt flat k im) = upd k (place (segment im k) a b c) (segs im).
Proof.
  intros fmt flat k im H. unfold CalcOffset. destruct (s_type (segment im k) =? SEGTYPE_ABS) eqn:E; [do 3 eexists; reflexivity|].
  destruct H as [H|H]; [unfold SEGTYPE_ABS in E; rewrite H in E; discriminate E|]. rewrite H.
  match goal with |- context [let '(o, gs) := ?X in _] => destruct X as [o gs] end. do 3 eexists. reflexivity.
Qed.
Lemma real_placed : forall ss ss' k, placed (nth k ss no_seg) (nth k ss' no_seg) -> real ss' k = real ss k.
Proof. intros ss ss' k (a & b & c & E). unfold real. rewrite E. reflexivity. Qed.
Lemma room_placed : forall ss ss' ks, (forall k, In k ks -> placed (nth k ss no_seg) (nth k ss' no_seg)) -> room ss' ks = room ss ks.
Proof.
  intros ss ss' ks. induction ks as [|k r IH]; intros H; [reflexivity|]. cbn [room fold_right]. fold (room ss' r) (room ss r). rewrite IH by (intros; apply H; right; assumption).
  rewrite (real_placed ss ss' k) by (apply H; left; reflexivity). destruct (H k ltac:(left; reflexivity)) as (a & b & c & ->). reflexivity.
Qed.
Lemma room_nonneg : forall im lim, good im lim -> forall ks, (forall k, In k ks -> (k < length (segs im))%nat) -> 0 <= room (segs im) ks.
Proof.
  intros im lim G. induction ks as [|k r IH]; intros H; [cbn; lia|]. cbn [room fold_right]. fold (room (segs im) r).
  specialize (IH ltac:(intros; apply H; right; assumption)). destruct (real (segs im) k) eqn:E; [|lia].
  unfold real in E. apply negb_true_iff, Z.eqb_neq in E. pose proof (gd_ok _ _ G k (H k ltac:(left; reflexivity)) E) as (A & SL & _).
  unfold segment in *. pose proof (pow2_pos (s_align (nth k (segs im) no_seg)) ltac:(lia)). lia.
Qed.
Lemma room_app : forall ss a b, room ss (a ++ b) = room ss a + room ss b.
Proof. intros ss a b. induction a as [|k a IH]; [reflexivity|]. cbn [room fold_right app]. fold (room ss (a ++ b)) (room ss a). lia. Qed.
(** one step, whatever the segment's type *)
Lemma calc_step : forall fmt flat k r im lim, ready im lim (k :: r) ->
  let s := segment im k in let im' := CalcOffset fmt flat k im in
  ready im' (lim + if real (segs im) k then add_of s else 0) r /\
  length (segs im') = length (segs im) /\ length (groups im') = length (groups im) /\ sizehdr (cp im') = sizehdr (cp im) /\
  (forall j, j <> k -> segment im' j = segment im j) /\ placed s (segment im' k) /\
  (if real (segs im) k then
     let fo := up (s_align s) (fileoffset (cp im)) in
     s_fileofs (segment im' k) = fo /\ s_start_loc (segment im' k) = keep flat (cp im) s /\
     first (cp im') = false /\ fileoffset (cp im') = fo + reserved fmt (segment im' k) /\
     s_start (segment im' k) = match s_grp s with None => fo - sizehdr (cp im) | Some g => if total im g =? 0 then 0 else total im g + (fo - fileoffset (cp im)) end /\
     (forall g, group_of im' g =
        match s_grp s with
        | Some h => if Nat.eqb g h then {| g_offset := if total im g =? 0 then fo - sizehdr (cp im) else g_offset (group_of im g); g_total := s_start (segment im' k) + s_max_offset s |} else group_of im g
        | None => group_of im g
        end) /\
     (fmt = NONE -> entryseg (cp im') = match entryseg (cp im) with None => Some k | e => e end /\ imagestart (cp im') = if first (cp im) then keep flat (cp im) s else imagestart (cp im))
   else cp im' = cp im /\ groups im' = groups im /\ s_start (segment im' k) = 16 * s_abs_frame s mod 2 ^ 32 /\ s_start_loc (segment im' k) = s_start_loc s).
Proof.
  intros fmt flat k r im lim (G & L & ND & B) s im'. assert (k < length (segs im))%nat as K by (apply B; left; reflexivity).
  inversion ND as [|? ? NI ND']; subst. cbn [room fold_right] in L. fold (room (segs im) r) in L. fold (segment im k) in L. fold s in L.
  assert (0 <= room (segs im) r) as RN by (apply (room_nonneg im lim G); intros; apply B; right; assumption).
  assert (forall x, segs im' = upd k x (segs im) -> placed s x -> (forall j, j <> k -> segment im' j = segment im j) /\ placed s (segment im' k) /\ segment im' k = x /\ room (segs im') r = room (segs im) r /\ length (segs im') = length (segs im)) as FR.
  { intros x E PX. assert (segment im' k = x) as EK by (unfold segment; rewrite E, nth_upd, Nat.eqb_refl by exact K; reflexivity).
    assert (forall j, j <> k -> segment im' j = segment im j) as EJ.
    { intros j J. unfold segment. rewrite E, nth_upd by exact K. destruct (Nat.eqb_spec j k); [contradiction|reflexivity]. }
    split; [exact EJ|]. rewrite EK. split; [exact PX|]. split; [reflexivity|]. split; [|rewrite E; apply upd_length].
    apply room_placed. intros j J. destruct (Nat.eq_dec j k) as [->|N]; [contradiction|]. fold (segment im j) (segment im' j). rewrite (EJ j N). apply placed_refl. }
  destruct (real (segs im) k) eqn:R.
  - assert (s_type s <> 5) as T by (unfold real in R; apply negb_true_iff, Z.eqb_neq in R; exact R). fold (add_of s) in L.
    destruct (calc_real fmt flat k im lim G K T ltac:(fold s; lia)) as (E & HS & FI & FO & LG & GG & G' & EN). fold s in E, FO, GG, G', EN. fold im' in E, HS, FI, FO, LG, GG, G', EN.
    destruct (FR _ E ltac:(do 3 eexists; reflexivity)) as (EJ & PK & EK & RR & LS).
    split; [|split; [exact LS|]; split; [exact LG|]; split; [exact HS|]; split; [exact EJ|]; split; [exact PK|]].
    + split; [exact G'|]. split; [rewrite RR; lia|]. split; [exact ND'|]. intros j J. rewrite LS. apply B. right. exact J.
    + cbv zeta. rewrite EK. cbn [place s_fileofs s_start_loc s_start]. split; [reflexivity|]. split; [reflexivity|]. split; [exact FI|].
      split; [rewrite FO; unfold reserved, extent, place; cbn [s_type s_max_offset s_start_loc]; destruct fmt; reflexivity|]. split; [reflexivity|]. split; [|exact EN].
      intros g. rewrite GG. destruct (s_grp s) as [h|] eqn:EH; [|reflexivity]. destruct (Nat.eqb g h); reflexivity.
  - assert (s_type s = 5) as T by (unfold real in R; apply negb_false_iff, Z.eqb_eq in R; exact R).
    destruct (calc_abs fmt flat k im T) as (v & E & EV). fold s in E. fold im' in E. fold s in EV.
    destruct (FR (place s (s_start_loc s) (s_fileofs s) v) ltac:(rewrite E; reflexivity) ltac:(do 3 eexists; reflexivity)) as (EJ & PK & EK & RR & LS).
    assert (groups im' = groups im) as EG by (rewrite E; reflexivity). assert (cp im' = cp im) as EC by (rewrite E; reflexivity). rewrite Z.add_0_r.
    split; [|split; [exact LS|]; split; [rewrite EG; reflexivity|]; split; [rewrite EC; reflexivity|]; split; [exact EJ|]; split; [exact PK|]; split; [exact EC|]; split; [exact EG|]].
    + split; [|split; [rewrite RR; lia|]; split; [exact ND'|]; intros j J; rewrite LS; apply B; right; exact J].
      constructor; rewrite ?EC; [apply (gd_hdr _ _ G)|apply (gd_lim _ _ G)| |].
      * intros g. unfold total, group_of. rewrite EG. apply (gd_tot _ _ G g).
      * intros j J TJ. rewrite LS in J. rewrite EG. destruct (Nat.eq_dec j k) as [->|N]; [rewrite EK in TJ; cbn in TJ; contradiction|]. rewrite (EJ j N) in *. apply (gd_ok _ _ G j J TJ).
    + rewrite EK. cbn [place s_start s_start_loc]. split; [|reflexivity]. rewrite EV, Z.shiftl_mul_pow2 by lia. change (2 ^ 4) with 16. rewrite Z.mul_comm. reflexivity.
Qed.

Lemma calc_frame : forall fmt flat ks im lim, ready im lim ks ->
  let im' := calc_all fmt flat ks im in
  length (segs im') = length (segs im) /\ length (groups im') = length (groups im) /\ sizehdr (cp im') = sizehdr (cp im) /\
  (forall j, ~ In j ks -> segment im' j = segment im j) /\ (forall j, placed (segment im j) (segment im' j)) /\
  good im' (lim + room (segs im) ks) /\ packed fmt (segs im') (fileoffset (cp im)) ks.
Proof.
  intros fmt flat. induction ks as [|k r IH]; intros im lim R im'.
  - unfold im'. rewrite calc_nil. split; [reflexivity|]. split; [reflexivity|]. split; [reflexivity|]. split; [reflexivity|]. split; [intros; apply placed_refl|]. split; [|exact Logic.I].
    cbn. rewrite Z.add_0_r. apply R.
  - unfold im'. rewrite calc_cons. pose proof R as (G & L & ND & B). inversion ND as [|? ? NI ND']; subst.
    destruct (calc_step fmt flat k r im lim R) as (R1 & LS & LG & HS & EJ & PK & C). set (im1 := CalcOffset fmt flat k im) in *.
    destruct (IH im1 _ R1) as (LS' & LG' & HS' & EJ' & PJ' & G' & PP). set (im2 := calc_all fmt flat r im1) in *. clearbody im2 im1.
    assert (forall j, placed (segment im j) (segment im1 j)) as P1.
    { intros j. destruct (Nat.eq_dec j k) as [->|N]; [exact PK|]. rewrite (EJ j N). apply placed_refl. }
    split; [lia|]. split; [lia|]. split; [lia|]. split.
    { intros j J. rewrite EJ' by (intros X; apply J; right; exact X). apply EJ. intros ->. apply J. left. reflexivity. }
    split. { intros j. eapply placed_trans; [apply P1|apply PJ']. }
    split.
    { rewrite (room_placed (segs im) (segs im1)) in G' by (intros j _; apply P1). cbn [room fold_right]. fold (room (segs im) r). fold (segment im k). fold (add_of (segment im k)).
      replace (lim + ((if real (segs im) k then add_of (segment im k) else 0) + room (segs im) r)) with (lim + (if real (segs im) k then add_of (segment im k) else 0) + room (segs im) r) by lia. exact G'. }
    cbn [packed]. fold (segment im2 k). assert (segment im2 k = segment im1 k) as EK by (apply EJ'; exact NI).
    assert (real (segs im2) k = real (segs im) k) as ER by (apply real_placed; fold (segment im k) (segment im2 k); rewrite EK; exact PK). rewrite ER.
    destruct (real (segs im) k) eqn:RK.
    + destruct C as (C1 & C2 & C3 & C4 & _). rewrite EK, C1. rewrite C4 in PP. destruct PK as (a & b & c & PK).
      assert (s_align (segment im1 k) = s_align (segment im k)) as EA by (rewrite PK; reflexivity). rewrite EA.
      pose proof (gd_ok _ _ G k (B k ltac:(left; reflexivity))) as OK. unfold real in RK. apply negb_true_iff, Z.eqb_neq in RK. destruct (OK RK) as (A & _).
      destruct (up_spec (s_align (segment im k)) (fileoffset (cp im)) ltac:(lia)) as [U1 U2]. split; [exact U1|]. split; [exact U2|]. exact PP.
    + destruct C as (C1 & _). rewrite C1 in PP. exact PP.
Qed.

Lemma existsb_ext' : forall A (f g : A -> bool) l, (forall x, f x = g x) -> existsb f l = existsb g l.
Proof. intros A f g l H. induction l as [|x l IH]; [reflexivity|]. cbn [existsb]. rewrite H, IH. reflexivity. Qed.
(** the start of the location counter *)
Lemma calc_loc : forall fmt flat pre k post im lim, ready im lim (pre ++ k :: post) ->
  let im' := calc_all fmt flat (pre ++ k :: post) im in
  s_start_loc (segment im' k) = if negb (real (segs im) k) || keeps_org flat (first (cp im) && negb (existsb (real (segs im)) pre)) (segment im k) then s_start_loc (segment im k) else 0.
Proof.
  intros fmt flat. induction pre as [|j pre IH]; intros k post im lim R im'; unfold im'.
  - cbn [app] in *. rewrite calc_cons. destruct (calc_step fmt flat k post im lim R) as (R1 & _ & _ & _ & _ & _ & C). set (im1 := CalcOffset fmt flat k im) in *.
    destruct (calc_frame fmt flat post im1 _ R1) as (_ & _ & _ & EJ & _). destruct R as (_ & _ & ND & _). inversion ND; subst. rewrite EJ by assumption.
    cbn [existsb negb]. rewrite andb_true_r. destruct (real (segs im) k); cbn [negb orb].
    + destruct C as (_ & C & _). exact C.
    + apply C.
  - cbn [app] in *. rewrite calc_cons. destruct (calc_step fmt flat j (pre ++ k :: post) im lim R) as (R1 & _ & _ & _ & EJ & PJ & C). set (im1 := CalcOffset fmt flat j im) in *.
    destruct R as (_ & _ & ND & _). inversion ND as [|? ? NI ND']; subst.
    assert (k <> j) as KJ by (intros ->; apply NI, in_app_iff; right; left; reflexivity).
    cbv zeta in IH. rewrite (IH k post im1 _ R1). rewrite (EJ k KJ).
    assert (forall i, real (segs im1) i = real (segs im) i) as ER.
    { intros i. apply real_placed. fold (segment im i) (segment im1 i). destruct (Nat.eq_dec i j) as [->|N]; [exact PJ|rewrite (EJ i N); apply placed_refl]. }
    assert (existsb (real (segs im1)) pre = existsb (real (segs im)) pre) as -> by (apply existsb_ext'; exact ER).
    rewrite ER. cbn [existsb]. destruct (real (segs im) j).
    + destruct C as (_ & _ & C & _). rewrite C. cbn [orb negb andb]. rewrite andb_false_r. reflexivity.
    + destruct C as (C & _). rewrite C. reflexivity.
Qed.

(** * addresses *)
Lemma NoDup_front : forall A (a b : list A), NoDup (a ++ b) -> NoDup a.
Proof. intros A a b. induction a as [|x a IH]; intros H; constructor; inversion H; subst; auto. intros X. apply H2, in_app_iff. left. exact X. Qed.
Lemma calc_start_nogroup : forall fmt flat ks im lim, ready im lim ks -> forall k, In k ks -> real (segs im) k = true -> s_grp (segment im k) = None ->
  let im' := calc_all fmt flat ks im in s_start (segment im' k) = s_fileofs (segment im' k) - sizehdr (cp im').
Proof.
  intros fmt flat. induction ks as [|j r IH]; intros im lim R k K RK NG im'; [destruct K|]. unfold im'. rewrite calc_cons.
  destruct (calc_step fmt flat j r im lim R) as (R1 & _ & _ & HS & EJ & PJ & C). set (im1 := CalcOffset fmt flat j im) in *.
  destruct (calc_frame fmt flat r im1 _ R1) as (_ & _ & HS' & EJ' & _). destruct R as (_ & _ & ND & _). inversion ND as [|? ? NI ND']; subst.
  destruct K as [<-|K].
  - rewrite EJ', HS', HS by exact NI. rewrite RK in C. destruct C as (C1 & _ & _ & _ & C5 & _). rewrite C1, C5, NG. reflexivity.
  - assert (k <> j) as KJ by (intros ->; contradiction). apply (IH im1 _ R1 k K); [|rewrite (EJ k KJ); exact NG].
    rewrite (real_placed (segs im)); [exact RK|]. fold (segment im k) (segment im1 k). rewrite (EJ k KJ). apply placed_refl.
Qed.
Lemma calc_start_abs : forall fmt flat ks im lim, ready im lim ks -> forall k, In k ks -> real (segs im) k = false ->
  let im' := calc_all fmt flat ks im in s_start (segment im' k) = 16 * s_abs_frame (segment im k) mod 2 ^ 32.
Proof.
  intros fmt flat. induction ks as [|j r IH]; intros im lim R k K RK im'; [destruct K|]. unfold im'. rewrite calc_cons.
  destruct (calc_step fmt flat j r im lim R) as (R1 & _ & _ & HS & EJ & PJ & C). set (im1 := CalcOffset fmt flat j im) in *.
  destruct (calc_frame fmt flat r im1 _ R1) as (_ & _ & HS' & EJ' & _). destruct R as (_ & _ & ND & _). inversion ND as [|? ? NI ND']; subst.
  destruct K as [<-|K].
  - rewrite EJ' by exact NI. rewrite RK in C. apply C.
  - assert (k <> j) as KJ by (intros ->; contradiction). rewrite <- (EJ k KJ). apply (IH im1 _ R1 k K).
    rewrite (real_placed (segs im)); [exact RK|]. fold (segment im k) (segment im1 k). rewrite (EJ k KJ). apply placed_refl.
Qed.
(** the address of a group doesn't change once it has bytes *)
Lemma group_stays : forall fmt flat ks im lim g, ready im lim ks -> 0 < total im g -> g_offset (group_of (calc_all fmt flat ks im) g) = g_offset (group_of im g).
Proof.
  intros fmt flat. induction ks as [|j r IH]; intros im lim g R T; [reflexivity|]. rewrite calc_cons.
  destruct (calc_step fmt flat j r im lim R) as (R1 & _ & _ & HS & EJ & PJ & C). set (im1 := CalcOffset fmt flat j im) in *.
  assert (0 < total im1 g /\ g_offset (group_of im1 g) = g_offset (group_of im g)) as [T1 O1].
  { destruct (real (segs im) j) eqn:RJ.
    - destruct C as (_ & _ & _ & _ & C5 & C6 & _). unfold total. rewrite C6. destruct (s_grp (segment im j)) as [h|] eqn:EH; [|auto].
      destruct (Nat.eqb_spec g h) as [->|]; [|auto]. cbn [g_offset g_total]. destruct (Z.eqb_spec (total im h) 0); [lia|]. split; [|reflexivity].
      rewrite C5. destruct R as (G & _ & _ & B). unfold real in RJ. apply negb_true_iff, Z.eqb_neq in RJ.
      destruct (gd_ok _ _ G j (B j ltac:(left; reflexivity)) RJ) as (A & SL & _). pose proof (up_spec (s_align (segment im j)) (fileoffset (cp im)) ltac:(lia)). lia.
    - destruct C as (_ & C & _). unfold total, group_of. rewrite C. auto. }
  rewrite (IH im1 _ g R1 T1). exact O1.
Qed.
(** the group g, its members processed so far being contiguous *)
Definition contiguous (im : image) (g : nat) (orgs : Z) : Prop :=
  (total im g = 0 /\ orgs = 0) \/ (0 < total im g /\ g_offset (group_of im g) + total im g = fileoffset (cp im) - sizehdr (cp im) + orgs).
Definition member (fmt : format) (ss : list seg) (g k : nat) : Prop := real ss k = true -> s_grp (nth k ss no_seg) = Some g /\ (fmt = NONE \/ s_type (nth k ss no_seg) <> 3).
Lemma contiguous_step : forall fmt flat k r im lim g orgs, ready im lim (k :: r) -> member fmt (segs im) g k -> contiguous im g orgs ->
  let im' := CalcOffset fmt flat k im in contiguous im' g (orgs + if real (segs im) k then s_start_loc (segment im' k) else 0).
Proof.
  intros fmt flat k r im lim g orgs R M CG im'. destruct (calc_step fmt flat k r im lim R) as (R1 & _ & _ & HS & EJ & PJ & C). fold im' in R1, HS, EJ, PJ, C.
  destruct R as (G & _ & _ & B). specialize (M : real (segs im) k = true -> _). destruct (real (segs im) k) eqn:RK.
  - destruct (M eq_refl) as [MG MT]. fold (segment im k) in MG, MT. destruct C as (_ & C2 & _ & C4 & C5 & C6 & _). rewrite MG in C5, C6. specialize (C6 g). rewrite Nat.eqb_refl in C6.
    unfold real in RK. apply negb_true_iff, Z.eqb_neq in RK. destruct (gd_ok _ _ G k (B k ltac:(left; reflexivity)) RK) as (A & SL & _).
    pose proof (up_spec (s_align (segment im k)) (fileoffset (cp im)) ltac:(lia)) as [U _].
    assert (0 <= s_start_loc (segment im' k) <= s_max_offset (segment im k)) as LB by (rewrite C2; unfold keep; destruct (keeps_org _ _ _); lia).
    assert (reserved fmt (segment im' k) = s_max_offset (segment im k) - s_start_loc (segment im' k)) as ER.
    { destruct PJ as (a & b & c & PJ). rewrite PJ. unfold reserved, extent. cbn [place s_type s_max_offset s_start_loc]. destruct fmt; [reflexivity|]. destruct MT as [MT|MT]; [discriminate|].
      apply Z.eqb_neq in MT. rewrite MT. reflexivity. }
    rewrite ER in C4. unfold contiguous. unfold total at 1 2 3. rewrite C6. cbn [g_offset g_total]. rewrite C5, C4, HS. pose proof (gd_tot _ _ G g).
    destruct CG as [[T ->]|[T E]].
    + rewrite T. change (0 =? 0) with true. destruct (Z.eq_dec (s_max_offset (segment im k)) 0) as [E0|E0]; [left; lia|right; lia].
    + replace (total im g =? 0) with false by (symmetry; apply Z.eqb_neq; lia). right. lia.
  - destruct C as (C1 & C2 & _). rewrite Z.add_0_r. unfold contiguous, total, group_of. rewrite C1, C2. exact CG.
Qed.
Lemma contiguous_all : forall fmt flat mid r im lim g orgs, ready im lim (mid ++ r) -> (forall k, In k mid -> member fmt (segs im) g k) -> contiguous im g orgs ->
  let im' := calc_all fmt flat mid im in
  contiguous im' g (orgs + sum_org im' mid) /\ exists lim', ready im' lim' r.
Proof.
  intros fmt flat. induction mid as [|k mid IH]; intros r im lim g orgs R M CG im'; unfold im'.
  - rewrite calc_nil. cbn [sum_org fold_right]. rewrite Z.add_0_r. split; [exact CG|]. exists lim. exact R.
  - rewrite calc_cons. cbn [app] in R. pose proof (contiguous_step fmt flat k (mid ++ r) im lim g orgs R (M k ltac:(left; reflexivity)) CG) as C1. cbv zeta in C1.
    destruct (calc_step fmt flat k (mid ++ r) im lim R) as (R1 & _ & _ & _ & EJ & PJ & _). set (im1 := CalcOffset fmt flat k im) in *.
    assert (forall j, placed (segment im j) (segment im1 j)) as P1 by (intros j; destruct (Nat.eq_dec j k) as [->|N]; [exact PJ|rewrite (EJ j N); apply placed_refl]).
    assert (forall j, In j mid -> member fmt (segs im1) g j) as M1.
    { intros j J RJ. rewrite (real_placed (segs im) (segs im1) j (P1 j)) in RJ. specialize (M j ltac:(right; exact J) RJ). destruct (P1 j) as (a & b & c & EP). unfold segment in EP. rewrite EP. exact M. }
    destruct (IH r im1 _ g _ R1 M1 C1) as [C2 X]. split; [|exact X].
    set (im2 := calc_all fmt flat mid im1) in *. cbn [sum_org fold_right]. fold (sum_org im2 mid).
    assert (ready im1 (lim + (if real (segs im) k then add_of (segment im k) else 0)) mid) as R2.
    { destruct R1 as (G1 & L1 & ND1 & B1). split; [exact G1|]. rewrite room_app in L1.
      assert (0 <= room (segs im1) r) by (apply (room_nonneg im1 _ G1); intros; apply B1, in_app_iff; right; assumption).
      split; [lia|]. split; [apply NoDup_front in ND1; exact ND1|]. intros j J. apply B1, in_app_iff. left. exact J. }
    destruct (calc_frame fmt flat mid im1 _ R2) as (_ & _ & _ & EF & PF & _). fold im2 in EF, PF.
    assert (~ In k mid) as NK. { destruct R as (_ & _ & ND & _). inversion ND as [|? ? NI _]; subst. intros X'. apply NI, in_app_iff. left. exact X'. }
    rewrite (EF k NK). rewrite (real_placed (segs im) (segs im2) k) by (fold (segment im k) (segment im2 k); rewrite (EF k NK); apply P1).
    rewrite Z.add_assoc. exact C2.
Qed.
Lemma total_zero : forall fmt flat pre r im lim g, ready im lim (pre ++ r) -> total im g = 0 -> (forall k, In k pre -> real (segs im) k = true -> s_grp (segment im k) <> Some g) ->
  let im' := calc_all fmt flat pre im in total im' g = 0 /\ exists lim', ready im' lim' r.
Proof.
  intros fmt flat. induction pre as [|k pre IH]; intros r im lim g R T H im'; unfold im'.
  - split; [exact T|]. exists lim. exact R.
  - rewrite calc_cons. cbn [app] in R. destruct (calc_step fmt flat k (pre ++ r) im lim R) as (R1 & _ & _ & _ & EJ & PJ & C). set (im1 := CalcOffset fmt flat k im) in *.
    assert (forall j, placed (segment im j) (segment im1 j)) as P1 by (intros j; destruct (Nat.eq_dec j k) as [->|N]; [exact PJ|rewrite (EJ j N); apply placed_refl]).
    apply (IH r im1 _ g R1).
    + destruct (real (segs im) k) eqn:RK.
      * destruct C as (_ & _ & _ & _ & _ & C6 & _). unfold total. rewrite C6. specialize (H k ltac:(left; reflexivity) RK).
        destruct (s_grp (segment im k)) as [h|]; [|exact T]. destruct (Nat.eqb_spec g h) as [->|]; [contradiction|exact T].
      * destruct C as (_ & C & _). unfold total, group_of. rewrite C. exact T.
    + intros j J RJ. rewrite (real_placed (segs im) (segs im1) j (P1 j)) in RJ. specialize (H j ltac:(right; exact J) RJ). destruct (P1 j) as (a & b & c & EP). rewrite EP. exact H.
Qed.
(** a member whose predecessors in the group are adjacent to it *)
Lemma calc_base_group : forall fmt flat pre mid k post im lim g, ready im lim (pre ++ mid ++ k :: post) ->
  real (segs im) k = true -> s_grp (segment im k) = Some g -> 0 < s_max_offset (segment im k) -> total im g = 0 ->
  (forall j, In j pre -> real (segs im) j = true -> s_grp (segment im j) <> Some g) -> (forall j, In j mid -> member fmt (segs im) g j) ->
  let im' := calc_all fmt flat (pre ++ mid ++ k :: post) im in
  base im' k = s_fileofs (segment im' k) - sizehdr (cp im') + sum_org im' mid.
Proof.
  intros fmt flat pre mid k post im lim g R RK GK MK T0 HP HM im'. unfold im'. rewrite calc_app.
  destruct (total_zero fmt flat pre (mid ++ k :: post) im lim g R T0 HP) as [T1 [lim1 R1]].
  assert (ready im lim pre) as RP.
  { destruct R as (G & L & ND & B). split; [exact G|]. rewrite room_app in L. assert (0 <= room (segs im) (mid ++ k :: post)) by (apply (room_nonneg im _ G); intros; apply B, in_app_iff; right; assumption).
    split; [lia|]. split; [apply NoDup_front in ND; exact ND|]. intros j J. apply B, in_app_iff. left. exact J. }
  destruct (calc_frame fmt flat pre im lim RP) as (_ & _ & HS1 & E1 & P1 & _). set (im1 := calc_all fmt flat pre im) in *.
  rewrite calc_app.
  assert (forall j, In j mid -> member fmt (segs im1) g j) as M1.
  { intros j J RJ. rewrite (real_placed (segs im) (segs im1) j (P1 j)) in RJ. specialize (HM j J RJ). destruct (P1 j) as (a & b & c & EP). unfold segment in EP. rewrite EP. exact HM. }
  destruct (contiguous_all fmt flat mid (k :: post) im1 lim1 g 0 R1 M1 ltac:(left; split; [exact T1|reflexivity])) as [C2 [lim2 R2]].
  assert (ready im1 lim1 mid) as RM.
  { destruct R1 as (G & L & ND & B). split; [exact G|]. rewrite room_app in L. assert (0 <= room (segs im1) (k :: post)) by (apply (room_nonneg im1 _ G); intros; apply B, in_app_iff; right; assumption).
    split; [lia|]. split; [apply NoDup_front in ND; exact ND|]. intros j J. apply B, in_app_iff. left. exact J. }
  destruct (calc_frame fmt flat mid im1 lim1 RM) as (_ & _ & HS2 & E2 & P2 & _). set (im2 := calc_all fmt flat mid im1) in *.
  rewrite calc_cons. destruct (calc_step fmt flat k post im2 lim2 R2) as (R3 & _ & _ & HS3 & E3 & P3 & C3).
  assert (placed (segment im k) (segment im2 k)) as PK by (eapply placed_trans; [apply P1|apply P2]).
  rewrite (real_placed (segs im) (segs im2) k PK), RK in C3. set (im3 := CalcOffset fmt flat k im2) in *.
  destruct (calc_frame fmt flat post im3 _ R3) as (_ & _ & HS4 & E4 & P4 & _).
  assert (~ In k post) as NK by (destruct R2 as (_ & _ & ND & _); inversion ND; assumption).
  assert (forall j, In j mid -> ~ In j post /\ j <> k) as NM.
  { intros j J. destruct R1 as (_ & _ & ND & _). apply in_split in J. destruct J as (a & b & ->). rewrite <- app_assoc in ND. cbn [app] in ND. apply NoDup_remove_2 in ND. split.
    - intros X. apply ND. apply in_app_iff. right. apply in_app_iff. right. right. exact X.
    - intros ->. apply ND. apply in_app_iff. right. apply in_app_iff. right. left. reflexivity. }
  assert (s_grp (segment im2 k) = Some g /\ s_max_offset (segment im2 k) = s_max_offset (segment im k)) as [GK2 MK2] by (destruct PK as (a & b & c & ->); split; [exact GK|reflexivity]).
  destruct C3 as (C31 & C32 & _ & C34 & C35 & C36 & _). rewrite GK2 in C35, C36. specialize (C36 g). rewrite Nat.eqb_refl in C36.
  assert (s_grp (segment im3 k) = Some g) as GK3 by (destruct P3 as (a & b & c & ->); exact GK2).
  assert (g_offset (group_of im3 g) + s_start (segment im3 k) = s_fileofs (segment im3 k) - sizehdr (cp im3) + sum_org im2 mid) as BASE.
  { rewrite C36. cbn [g_offset]. rewrite C35, C31, HS3. rewrite Z.add_0_l in C2. destruct C2 as [[T E]|[T E]].
    - rewrite T. change (0 =? 0) with true. cbv iota. lia.
    - replace (total im2 g =? 0) with false by (symmetry; apply Z.eqb_neq; lia). lia. }
  assert (0 < total im3 g) as T3.
  { unfold total. rewrite C36. cbn [g_total]. rewrite C35, MK2. destruct R2 as (G2 & _ & _ & B2). pose proof (gd_tot _ _ G2 g).
    assert (s_type (segment im2 k) <> 5) as TK by (destruct PK as (a & b & c & ->); unfold real in RK; apply negb_true_iff, Z.eqb_neq in RK; exact RK).
    destruct (gd_ok _ _ G2 k (B2 k ltac:(left; reflexivity)) TK) as (A & _). pose proof (up_spec (s_align (segment im2 k)) (fileoffset (cp im2)) ltac:(lia)). destruct (total im2 g =? 0); lia. }
  unfold base. rewrite (E4 k NK), GK3, HS4, (group_stays fmt flat post im3 _ g R3 T3).
  assert (sum_org (calc_all fmt flat post im3) mid = sum_org im2 mid) as ->.
  { clear -NM E4 E3. revert NM. generalize mid as m. induction m as [|j m IH]; intros NM; [reflexivity|]. cbn [sum_org fold_right]. fold (sum_org im2 m) (sum_org (calc_all fmt flat post im3) m).
    rewrite IH by (intros i J; apply NM; right; exact J). destruct (NM j ltac:(left; reflexivity)) as [N1 N2].
    assert (segment (calc_all fmt flat post im3) j = segment im2 j) as EQ by (rewrite (E4 j N1); apply E3; exact N2). rewrite EQ. unfold real. fold (segment (calc_all fmt flat post im3) j) (segment im2 j). rewrite EQ. reflexivity. }
  lia.
Qed.
