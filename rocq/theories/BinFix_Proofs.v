From Verif Require Import Base Data_Proofs OmfDataRun_Proofs Bin_Model Bin_Spec.

Definition splice (p w v : Z) (b : list Z) : list Z := firstn (Z.to_nat p) b ++ le_bytes (Z.to_nat w) v ++ skipn (Z.to_nat (p + w)) b.
Definition inside (p w : Z) (b : list Z) : bool := (0 <=? p) && (p + w <=? zlen b).
Lemma poke_eq : forall p w v b, poke p w v b = if inside p w b then Ok (splice p w v b) else UB.
Proof. reflexivity. Qed.
Lemma peek_eq : forall p w b, peek p w b = if inside p w b then Ok (field b p w) else UB.
Proof. reflexivity. Qed.
Lemma zlen_nat : forall A (l : list A), Z.to_nat (zlen l) = length l.
Proof. intros. unfold zlen. apply Nat2Z.id. Qed.
Lemma skipn_skipn' : forall A (l : list A) n m, skipn n (skipn m l) = skipn (n + m) l.
Proof. induction l as [|x l IH]; intros n [|m]; cbn; rewrite ?skipn_nil, ?Nat.add_0_r; auto. rewrite <- plus_n_Sm. cbn. apply IH. Qed.
Lemma nth_skipn' : forall A (d : A) l n i, nth i (skipn n l) d = nth (n + i) l d.
Proof. intros A d. induction l as [|x l IH]; intros [|n] i; cbn; auto. destruct i; reflexivity. Qed.
Lemma nth_firstn' : forall A (d : A) l n i, nth i (firstn n l) d = if Nat.ltb i n then nth i l d else d.
Proof. intros A d. induction l as [|x l IH]; intros [|n] [|i]; cbn [firstn nth]; try reflexivity. - destruct (Nat.ltb _ _); reflexivity. - rewrite IH. reflexivity. Qed.
Lemma splice_length : forall p w v b, inside p w b = true -> 0 <= w -> zlen (splice p w v b) = zlen b.
Proof.
  intros p w v b H W. unfold inside in H. apply andb_true_iff in H. destruct H as [H1 H2]. apply Z.leb_le in H1, H2. unfold splice.
  unfold zlen in *. rewrite !app_length, firstn_length, skipn_length, le_bytes_length. lia.
Qed.
Lemma splice_mod : forall p w v b, 0 <= w -> splice p w (v mod 2 ^ (8 * w)) b = splice p w v b.
Proof.
  intros p w v b W. unfold splice. do 2 f_equal. apply le_bytes_cong. rewrite Z2Nat.id by lia. rewrite Z.mod_mod; [reflexivity|]. pose proof (pow2_pos (8 * w) ltac:(lia)). lia.
Qed.
Lemma splice_two : forall p n v m u b, 0 <= n -> 0 <= m -> inside p (n + m) b = true ->
  splice (p + n) m u (splice p n v b) = splice p (n + m) (v mod 2 ^ (8 * n) + 2 ^ (8 * n) * u) b.
Proof.
  intros p n v m u b N M H. unfold inside in H. apply andb_true_iff in H. destruct H as [H1 H2]. apply Z.leb_le in H1, H2.
  assert (length b = Z.to_nat (zlen b)) as LB by (symmetry; apply zlen_nat). pose proof (zlen_nonneg b) as ZB.
  unfold splice. set (P := firstn (Z.to_nat p) b). set (Q := skipn (Z.to_nat (p + n)) b).
  assert (length P = Z.to_nat p) as LP by (unfold P; rewrite firstn_length; lia).
  assert (length (le_bytes (Z.to_nat n) v) = Z.to_nat n) as LN by apply le_bytes_length.
  rewrite (app_assoc P). rewrite (firstn_app (Z.to_nat (p + n))). rewrite app_length, LP, LN.
  replace (Z.to_nat (p + n) - (Z.to_nat p + Z.to_nat n))%nat with 0%nat by lia. rewrite firstn_O, app_nil_r. rewrite firstn_all2 by (rewrite app_length, LP, LN; lia).
  rewrite <- app_assoc. f_equal. rewrite skipn_app. rewrite app_length, LP, LN.
  rewrite (skipn_all2 (P ++ _)) by (rewrite app_length, LP, LN; lia). cbn [app].
  assert (skipn (Z.to_nat (p + n + m) - (Z.to_nat p + Z.to_nat n)) Q = skipn (Z.to_nat (p + (n + m))) b) as ->.
  { unfold Q. rewrite skipn_skipn'. f_equal. lia. }
  replace (Z.to_nat (n + m)) with (Z.to_nat n + Z.to_nat m)%nat by lia. rewrite le_bytes_app, <- app_assoc. rewrite !Z2Nat.id by lia.
  pose proof (pow2_pos (8 * n) ltac:(lia)) as PP. f_equal.
  - apply le_bytes_cong. rewrite Z2Nat.id by lia. rewrite (Z.mul_comm (2 ^ (8 * n)) u), Z_mod_plus_full, Z.mod_mod by lia. reflexivity.
  - f_equal. f_equal. rewrite (Z.mul_comm (2 ^ (8 * n)) u), Z.div_add by lia. rewrite Z.div_small by (apply Z.mod_pos_bound; lia). reflexivity.
Qed.
Lemma inside_sub : forall p n m b, 0 <= n -> 0 <= m -> inside p (n + m) b = true -> inside p n b = true /\ inside (p + n) m b = true.
Proof. intros p n m b N M H. unfold inside in *. apply andb_true_iff in H. destruct H as [H1 H2]. apply Z.leb_le in H1, H2. rewrite !andb_true_iff, !Z.leb_le. lia. Qed.

(** * one fixup *)
Lemma list_eqb_eq : forall a b, list_eqb a b = true <-> a = b.
Proof.
  induction a as [|x a IH]; intros [|y b]; cbn; try (split; congruence). rewrite andb_true_iff, Z.eqb_eq, IH. split; [intros [-> ->]; reflexivity|]. intros E. injection E as -> ->. auto.
Qed.
Lemma stem_some : forall n p, stem n = Some p <-> exists q, n = p ++ 36 :: q /\ ~ In 36 p.
Proof.
  induction n as [|ch r IH]; intros p; cbn [stem].
  - split; [discriminate|]. intros (q & E & _). destruct p; discriminate E.
  - destruct (Z.eqb_spec ch 36) as [->|N].
    + split.
      * intros E. injection E as <-. exists r. cbn. auto.
      * intros (q & E & NI). destruct p as [|x p]; [reflexivity|]. cbn in E. injection E as <- _. exfalso. apply NI. left. reflexivity.
    + destruct (stem r) as [p'|] eqn:ES.
      * split.
        -- intros E. injection E as <-. destruct (proj1 (IH p') eq_refl) as (q & -> & NI). exists q. split; [reflexivity|]. intros [X|X]; [congruence|contradiction].
        -- intros (q & E & NI). destruct p as [|x p]; cbn in E; [congruence|]. injection E as <- E. assert (Some p' = Some p) as X.
           { apply (IH p). exists q. split; [exact E|]. intros X. apply NI. right. exact X. }
           injection X as ->. reflexivity.
      * split; [discriminate|]. intros (q & E & NI). destruct p as [|x p]; cbn in E; [congruence|]. injection E as <- E. assert (None = Some p) as X.
        { apply (IH p). exists q. split; [exact E|]. intros X. apply NI. right. exact X. }
        discriminate X.
Qed.
Lemma find_some' : forall (P : nat -> bool) l d, find P l = Some d <-> exists u v, l = u ++ d :: v /\ P d = true /\ forall x, In x u -> P x = false.
Proof.
  intros P. induction l as [|x l IH]; intros d; cbn [find].
  - split; [discriminate|]. intros (u & v & E & _). destruct u; discriminate E.
  - destruct (P x) eqn:EP.
    + split.
      * intros E. injection E as <-. exists [], l. cbn. repeat split; auto. intros ? [].
      * intros ([|y u] & v & E & PD & H); cbn in E; injection E as -> E; [reflexivity|]. rewrite (H y ltac:(left; reflexivity)) in EP. discriminate EP.
    + rewrite IH. split.
      * intros (u & v & -> & PD & H). exists (x :: u), v. split; [reflexivity|]. split; [exact PD|]. intros y [<-|Y]; [exact EP|apply H; exact Y].
      * intros ([|y u] & v & E & PD & H); cbn in E; injection E as -> E; [congruence|]. exists u, v. split; [exact E|]. split; [exact PD|]. intros z Z'. apply H. right. exact Z'.
Qed.
Definition secfind (l : list nat) (im : image) (k : nat) : option nat :=
  match stem (s_name (segment im k)) with None => None | Some p => find (fun d => list_eqb (s_name (segment im d)) p) l end.
Lemma named_iff : forall l im k d, named l im k d <-> secfind l im k = Some d.
Proof.
  intros l im k d. unfold named, secfind. split.
  - intros (p & q & E & NI & u & v & EL & ND & H). assert (stem (s_name (segment im k)) = Some p) as -> by (apply stem_some; exists q; auto).
    apply find_some'. exists u, v. split; [exact EL|]. split; [apply list_eqb_eq; exact ND|]. intros x X. destruct (list_eqb _ _) eqn:EQ; [|reflexivity]. apply list_eqb_eq in EQ. destruct (H x X EQ).
  - destruct (stem (s_name (segment im k))) as [p|] eqn:ES; [|discriminate]. intros F. apply find_some' in F. destruct F as (u & v & EL & ND & H).
    apply stem_some in ES. destruct ES as (q & E & NI). exists p, q. split; [exact E|]. split; [exact NI|]. exists u, v. split; [exact EL|]. split; [apply list_eqb_eq; exact ND|].
    intros x X EQ. apply list_eqb_eq in EQ. rewrite (H x X) in EQ. discriminate EQ.
Qed.

Section F.
Variables (fmt : format) (l : list nat) (im : image) (s : seg).
Hypothesis SANE : addresses_ok im.
Definition step (f : fixup) (b : list Z) : res (list Z) := bindr (fix_value l im f) (fun '(sg, value) => fix_apply fmt im s f sg value (at_ s f) b).
Definition ref_value (f : fixup) (k : nat) (o : Z) : Z := base im k + o - frame_base im f k.
Lemma land15 : forall x, Z.land x 0xf = x mod 16.
Proof. intros x. change 0xf with (Z.ones 4). rewrite Z.land_ones by lia. reflexivity. Qed.
Lemma value_gen : forall f k o, target f = Some (k, o) -> fix_value l im f = Ok (Some k, wrap 32 (
  let t := f_type f in
  if t =? 12 then s_start (segment im k) + o - imagestart (cp im)
  else if t =? 13 then match secfind l im k with None => o - s_start_loc (segment im k) | Some d => s_start (segment im k) + o - s_start (segment im d) end
  else if (t =? 1) || (t =? 2) || (t =? 3) then s_start (segment im k) + o
  else ref_value f k o)).
Proof.
  intros f k o T. unfold fix_value.
  assert (exists off, o = off + f_offset f /\ (match f_sym f with SVar k => (k, 0) | SSeg k => (Some k, 0) | SLab k o => (k, o) | _ => (None, 0) end) = (Some k, off) /\
          match f_sym f with SVar _ => true | SSeg _ => true | SLab (Some _) _ => true | _ => false end = true) as (off & EO & E1 & E2).
  { unfold target in T. destruct (f_sym f) as [|g|j|[j|]|[j|] x]; try discriminate T; injection T as <- <-; eexists; (split; [|split; reflexivity]); lia. }
  rewrite E2. cbn [negb]. rewrite E1. f_equal. f_equal. unfold FIX_OFF32_IMGREL, FIX_OFF32_SECREL, FIX_RELOFF8, FIX_RELOFF16, FIX_RELOFF32. cbv zeta.
  destruct (f_type f =? 12); [f_equal; lia|]. destruct (f_type f =? 13).
  - unfold secfind. destruct (stem _) as [p|]; [|f_equal; lia]. destruct (find _ _); f_equal; lia.
  - destruct ((f_type f =? 1) || (f_type f =? 2) || (f_type f =? 3)); [f_equal; lia|]. f_equal. unfold ref_value, base, frame_base, grp_base, FRAME_SEG.
    destruct (s_grp (segment im k)) as [g|]; rewrite ?land15.
    + pose proof (Z.div_mod (g_offset (group_of im g)) 16 ltac:(lia)). pose proof (Z.div_mod (s_start (segment im k)) 16 ltac:(lia)).
      destruct (f_frame f =? 0); cbn [negb]; lia.
    + pose proof (Z.div_mod (s_start (segment im k)) 16 ltac:(lia)). lia.
Qed.
Definition behaves (f : fixup) : Prop :=
  exists g, (forall old, effect fmt l im s f (width fmt f) old (g old)) /\ 0 < width fmt f <= 8 /\
            forall b, step f b = if inside (at_ s f) (width fmt f) b then Ok (splice (at_ s f) (width fmt f) (g (field b (at_ s f) (width fmt f))) b) else UB.
Definition refuses (f : fixup) : Prop := (forall b, step f b = Err \/ step f b = UB) /\ forall w o n, ~ effect fmt l im s f w o n.
Lemma wrap_mod : forall n x, 0 <= n <= 4 -> wrap 32 x mod 2 ^ (8 * n) = x mod 2 ^ (8 * n).
Proof.
  intros n x N. unfold wrap. assert (n = 0 \/ n = 1 \/ n = 2 \/ n = 3 \/ n = 4) as [->|[->|[->|[->| ->]]]] by lia;
    rewrite <- Znumtheory.Zmod_div_mod; try lia; try reflexivity; try (apply Z.mod_pos_bound; reflexivity).
  all: match goal with |- (2 ^ ?a | 2 ^ ?b) => exists (2 ^ (b - a)); reflexivity end.
Qed.
Lemma splice_eq : forall p w v u b, 0 <= w -> v mod 2 ^ (8 * w) = u mod 2 ^ (8 * w) -> splice p w v b = splice p w u b.
Proof. intros p w v u b W E. rewrite <- (splice_mod p w v b W), E. apply splice_mod. exact W. Qed.
Lemma ptr_eq : forall p n v sel b, 0 <= n ->
  bindr (poke p n v b) (fun b => poke (p + n) 2 sel b) = if inside p (n + 2) b then Ok (splice p (n + 2) (v mod 2 ^ (8 * n) + 2 ^ (8 * n) * (sel mod 2 ^ 16)) b) else UB.
Proof.
  intros p n v sel b N. rewrite poke_eq. destruct (inside p (n + 2) b) eqn:E.
  - destruct (inside_sub p n 2 b N ltac:(lia) E) as [E1 E2]. rewrite E1. cbn [bindr]. rewrite poke_eq.
    assert (inside (p + n) 2 (splice p n v b) = true) as ->.
    { unfold inside in *. rewrite splice_length by assumption. exact E2. }
    f_equal. rewrite <- (splice_mod (p + n) 2 sel) by lia. apply splice_two; [lia|lia|exact E].
  - destruct (inside p n b) eqn:E1; [|reflexivity]. cbn [bindr]. rewrite poke_eq.
    assert (inside (p + n) 2 (splice p n v b) = false) as ->; [|reflexivity].
    unfold inside in *. rewrite splice_length by assumption. apply andb_true_iff in E1. destruct E1 as [E1 E2]. rewrite E1 in E. cbn [andb] in E. apply Z.leb_le in E1. apply Z.leb_gt in E.
    apply andb_false_iff. right. apply Z.leb_gt. lia.
Qed.
Lemma para_eq : forall k, seg_para im k = base im k / 16.
Proof. intros k. unfold seg_para. fold (base im k). rewrite wrap_small by apply (proj1 SANE k). rewrite Z.shiftr_div_pow2 by lia. reflexivity. Qed.
Lemma grp_eq : forall g, Z.shiftr (g_offset (group_of im g)) 4 = g_offset (group_of im g) / 16.
Proof. intros g. rewrite Z.shiftr_div_pow2 by lia. reflexivity. Qed.

Ltac types T := unfold FIX_RELOFF8, FIX_RELOFF16, FIX_RELOFF32, FIX_OFF8, FIX_OFF16, FIX_OFF32, FIX_OFF64, FIX_SEG, FIX_PTR16, FIX_PTR32, FIX_HIBYTE, FIX_OFF32_IMGREL, FIX_OFF32_SECREL, FRAME_GRP, FRAME_SEG; rewrite ?T; cbn [Z.eqb Pos.eqb orb].
Lemma step_target : forall f k o v, target f = Some (k, o) -> fix_value l im f = Ok (Some k, v) -> forall b, step f b = fix_apply fmt im s f (Some k) v (at_ s f) b.
Proof. intros f k o v T E b. unfold step. rewrite E. reflexivity. Qed.
Lemma step_rel : forall f k o n, target f = Some (k, o) -> (f_type f = 1 /\ n = 1 \/ f_type f = 2 /\ n = 2 \/ f_type f = 3 /\ n = 4 /\ s_use64 s = false) -> behaves f.
Proof.
  intros f k o n T H. exists (fun old => (old + (s_start (segment im k) + o) - (s_start s + f_locofs f + n)) mod 2 ^ (8 * n)).
  assert (width fmt f = n /\ 0 < n <= 4) as [-> N] by (unfold width; destruct H as [[-> ->]|[[-> ->]|[-> [-> _]]]]; split; reflexivity || lia).
  split; [intros old; eapply eff_rel; eassumption|]. split; [lia|]. intros b. rewrite (step_target f k o _ T (value_gen f k o T)).
  set (v := wrap 32 _). assert (v = wrap 32 (s_start (segment im k) + o)) as EV by (unfold v; cbv zeta; destruct H as [[-> _]|[[-> _]|[-> _]]]; reflexivity). clearbody v. subst v.
  assert (forall loc, loc = f_locofs f -> (bindr (peek (at_ s f) n b) (fun old => poke (at_ s f) n (old + (wrap 32 (s_start (segment im k) + o) - (loc + s_start s) - n)) b)) =
    if inside (at_ s f) n b then Ok (splice (at_ s f) n ((field b (at_ s f) n + (s_start (segment im k) + o) - (s_start s + f_locofs f + n)) mod 2 ^ (8 * n)) b) else UB) as X.
  { intros loc ->. rewrite peek_eq. destruct (inside (at_ s f) n b) eqn:E; [|reflexivity]. cbn [bindr]. rewrite poke_eq, E. f_equal. apply splice_eq; [lia|].
    pose proof (pow2_pos (8 * n) ltac:(lia)). rewrite Z.mod_mod by lia.
    replace (field b (at_ s f) n + (wrap 32 (s_start (segment im k) + o) - (f_locofs f + s_start s) - n)) with (wrap 32 (s_start (segment im k) + o) + (field b (at_ s f) n - (f_locofs f + s_start s) - n)) by lia.
    rewrite Zplus_mod, wrap_mod, <- Zplus_mod by lia. f_equal. lia. }
  unfold fix_apply. types I. destruct H as [[-> ->]|[[-> ->]|[-> [-> ->]]]]; cbn [Z.eqb Pos.eqb]; apply X; reflexivity.
Qed.
Lemma step_rip : forall f k o, target f = Some (k, o) -> f_type f = 3 -> s_use64 s = true -> behaves f.
Proof.
  intros f k o T TY U. exists (fun old => (old + (s_start (segment im k) + o) - (s_start s + f_locofs f + f_addbytes f)) mod 2 ^ 32).
  assert (width fmt f = 4) as -> by (unfold width; rewrite TY; reflexivity).
  split; [intros old; eapply eff_rip; eassumption|]. split; [lia|]. intros b. rewrite (step_target f k o _ T (value_gen f k o T)).
  unfold fix_apply. types TY. rewrite U, peek_eq. destruct (inside (at_ s f) 4 b) eqn:E; [|reflexivity]. cbn [bindr]. rewrite poke_eq, E. f_equal. apply splice_eq; [lia|].
  change (8 * 4) with 32. rewrite Z.mod_mod by lia.
  replace (field b (at_ s f) 4 + (wrap 32 (s_start (segment im k) + o) - (f_locofs f + f_addbytes f - 4 + s_start s) - 4)) with (wrap 32 (s_start (segment im k) + o) + (field b (at_ s f) 4 - (f_locofs f + s_start s) - f_addbytes f)) by lia.
  rewrite Zplus_mod. rewrite (wrap_mod 4 _ ltac:(lia) : _ mod 2 ^ 32 = _ mod 2 ^ 32), <- Zplus_mod by lia. f_equal. lia.
Qed.
Lemma step_simple : forall f k o w v, target f = Some (k, o) -> (forall old, effect fmt l im s f w old (v mod 2 ^ (8 * w))) -> width fmt f = w -> 0 < w <= 8 ->
  (forall b, step f b = poke (at_ s f) w v b) -> behaves f.
Proof.
  intros f k o w v T E W B H. exists (fun _ => v mod 2 ^ (8 * w)). rewrite W. split; [exact E|]. split; [exact B|].
  intros b. rewrite H, poke_eq. destruct (inside _ _ _); [|reflexivity]. f_equal. symmetry. apply splice_mod. lia.
Qed.
Lemma step_ptr : forall f k o n sel, target f = Some (k, o) -> (f_type f = 9 /\ n = 2 \/ f_type f = 10 /\ n = 4) -> selector fmt im f k sel ->
  (forall b v, fix_value l im f = Ok (Some k, v) -> step f b = bindr (poke (at_ s f) n v b) (fun b => poke (at_ s f + n) 2 sel b)) -> behaves f.
Proof.
  intros f k o n sel T TY S0 H. exists (fun _ => ref_value f k o mod 2 ^ (8 * n) + 2 ^ (8 * n) * (sel mod 2 ^ 16)).
  assert (width fmt f = n + 2 /\ 0 < n <= 4) as [-> N] by (unfold width; destruct TY as [[-> ->]|[-> ->]]; split; reflexivity || lia).
  split. { intros old. destruct TY as [[TY ->]|[TY ->]]; [eapply eff_ptr16|eapply eff_ptr32]; eassumption. }
  split; [lia|]. intros b. rewrite (H b _ (value_gen f k o T)). rewrite ptr_eq by lia. destruct (inside _ _ _); [|reflexivity]. do 2 f_equal. f_equal.
  replace (wrap 32 _) with (wrap 32 (ref_value f k o)) by (destruct TY as [[-> _]|[-> _]]; reflexivity). apply wrap_mod. lia.
Qed.
Lemma abs_true : forall k, is_abs im k = true <-> s_type (segment im k) = 5.
Proof. intros k. unfold is_abs, SEGTYPE_ABS. apply Z.eqb_eq. Qed.
Lemma abs_false : forall k, is_abs im k = false <-> s_type (segment im k) <> 5.
Proof. intros k. unfold is_abs, SEGTYPE_ABS. apply Z.eqb_neq. Qed.
(** the selector exists, or there is none *)
Lemma selector_dec : forall f k, (exists sel, selector fmt im f k sel) \/ (forall sel, ~ selector fmt im f k sel) /\ s_type (segment im k) <> 5 /\ (fmt = NONE \/ f_frame f = 1 /\ s_grp (segment im k) = None).
Proof.
  intros f k. destruct (Z.eq_dec (s_type (segment im k)) 5) as [A|A]; [left; eexists; apply sel_abs; exact A|].
  destruct fmt eqn:EF.
  - right. split; [|auto]. intros sel S0. inversion S0; congruence.
  - destruct (Z.eq_dec (f_frame f) 1) as [F|F]; [|left; eexists; apply sel_seg; auto]. destruct (s_grp (segment im k)) as [g|] eqn:G; [left; eexists; eapply sel_grp; eauto|].
    right. split; [|auto]. intros sel S0. inversion S0; congruence.
Qed.
Lemma ptr_select : forall f k (b : list Z) n (ptr : Z -> res (list Z)) sel, selector fmt im f k sel -> (n = 2 \/ n = 4) ->
  (if is_abs im k then ptr (s_abs_frame (segment im k))
   else match fmt with
        | MZ => if f_frame f =? 1 then bindr (grp_para im k) ptr else ptr (seg_para im k)
        | NONE => Err
        end) = ptr sel.
Proof.
  intros f k b n ptr sel S0 N. destruct S0 as [A|g M A F G|M A F].
  - apply abs_true in A. rewrite A. reflexivity.
  - apply abs_false in A. rewrite A, M, F. cbn [Z.eqb Pos.eqb]. unfold grp_para. rewrite G, grp_eq. reflexivity.
  - apply abs_false in A. rewrite A, M. apply Z.eqb_neq in F. rewrite F, para_eq. reflexivity.
Qed.
Lemma ptr_refuse : forall f k (ptr : Z -> res (list Z)), s_type (segment im k) <> 5 -> (fmt = NONE \/ f_frame f = 1 /\ s_grp (segment im k) = None) ->
  let r := (if is_abs im k then ptr (s_abs_frame (segment im k))
   else match fmt with
        | MZ => if f_frame f =? 1 then bindr (grp_para im k) ptr else ptr (seg_para im k)
        | NONE => Err
        end) in r = Err \/ r = UB.
Proof.
  intros f k ptr A H. apply abs_false in A. rewrite A. destruct H as [->|[F G]]; [left; reflexivity|]. destruct fmt; [left; reflexivity|]. rewrite F. cbn [Z.eqb Pos.eqb]. unfold grp_para. rewrite G. right. reflexivity.
Qed.
Lemma width_ok : forall f w o n, effect fmt l im s f w o n -> w = width fmt f.
Proof.
  intros f w o n E. unfold width.
  destruct E as [n' k o' old H T|k o' old H U T|n' k o' old H T|k o' old H T|k o' old H T|k o' old H T|k o' old H T N|k d o' old H T N|k o' sel old H T S0|k o' sel old H T S0|g old H F Y|k old H Y A|k old H F Y A|k o' g old H F T Y FR G|k o' old H F T Y FR|k o' old H F T Y A].
  1: destruct H as [[-> ->]|[[-> ->]|[-> [-> _]]]]; reflexivity.
  2: destruct H as [[-> ->]|[[-> ->]|[-> ->]]]; reflexivity.
  all: rewrite H; try reflexivity.
  all: try (rewrite F; reflexivity).
  - rewrite Y. destruct fmt; reflexivity.
  - rewrite F. unfold target in T. destruct (f_sym f); try reflexivity. injection T as -> _. destruct Y. reflexivity.
Qed.
Lemma step_spec : forall f, aimed f -> behaves f \/ refuses f.
Proof.
  intros f AI. destruct (target f) as [[k o]|] eqn:T.
  2: { destruct AI as [AI|[TY [g G]]]; [contradiction|].
       assert (fix_value l im f = Ok (None, 0)) as FV by (unfold fix_value; rewrite G; reflexivity).
       destruct fmt eqn:EF.
       - right. split.
         + intros b. unfold step. rewrite FV. cbn [bindr]. unfold fix_apply. types TY. rewrite G, EF. left. reflexivity.
         + intros w o n E. destruct E; try congruence; try (destruct H as [[? ?]|[[? ?]|[? ?]]]; congruence).
       - left. exists (fun _ => (g_offset (group_of im g) / 16) mod 2 ^ 16). unfold width. rewrite TY, EF. split; [intros old; apply eff_seg_grp; auto|]. split; [lia|].
         intros b. unfold step. rewrite FV. cbn [bindr]. unfold fix_apply. types TY. rewrite EF, G, poke_eq, grp_eq. destruct (inside _ _ _); [|reflexivity]. f_equal. symmetry. apply splice_mod. lia. }
  pose proof (value_gen f k o T) as FV. cbv zeta in FV. assert (forall b v, fix_value l im f = Ok (Some k, v) -> step f b = fix_apply fmt im s f (Some k) v (at_ s f) b) as ST by (intros b v E; apply (step_target f k o v T E)).
  destruct (Z.eq_dec (f_type f) 1) as [TY|N1]; [left; apply (step_rel f k o 1 T); auto|].
  destruct (Z.eq_dec (f_type f) 2) as [TY|N2]; [left; apply (step_rel f k o 2 T); auto|].
  destruct (Z.eq_dec (f_type f) 3) as [TY|N3]; [left; destruct (s_use64 s) eqn:U; [apply (step_rip f k o T TY U)|apply (step_rel f k o 4 T); auto]|].
  destruct (Z.eq_dec (f_type f) 4) as [TY|N4].
  { left. rewrite TY in FV. cbn [Z.eqb Pos.eqb orb] in FV. apply (step_simple f k o 1 (wrap 32 (ref_value f k o)) T); [|unfold width; rewrite TY; reflexivity|lia|].
    - intros old. rewrite wrap_mod by lia. eapply eff_off; eauto.
    - intros b. rewrite (ST b _ FV). unfold fix_apply. types TY. reflexivity. }
  destruct (Z.eq_dec (f_type f) 5) as [TY|N5].
  { left. rewrite TY in FV. cbn [Z.eqb Pos.eqb orb] in FV. apply (step_simple f k o 2 (wrap 32 (ref_value f k o)) T); [|unfold width; rewrite TY; reflexivity|lia|].
    - intros old. rewrite wrap_mod by lia. eapply eff_off; eauto.
    - intros b. rewrite (ST b _ FV). unfold fix_apply. types TY. reflexivity. }
  destruct (Z.eq_dec (f_type f) 6) as [TY|N6].
  { left. rewrite TY in FV. cbn [Z.eqb Pos.eqb orb] in FV. apply (step_simple f k o 4 (wrap 32 (ref_value f k o)) T); [|unfold width; rewrite TY; reflexivity|lia|].
    - intros old. rewrite wrap_mod by lia. eapply eff_off; eauto.
    - intros b. rewrite (ST b _ FV). unfold fix_apply. types TY. reflexivity. }
  destruct (Z.eq_dec (f_type f) 7) as [TY|N7].
  { left. rewrite TY in FV. cbn [Z.eqb Pos.eqb orb] in FV. apply (step_simple f k o 8 (wrap 32 (ref_value f k o)) T); [|unfold width; rewrite TY; reflexivity|lia|].
    - intros old. rewrite Z.mod_small; [eapply eff_off64; eauto|]. pose proof (wrap_range 32 (ref_value f k o) ltac:(lia)). assert (2 ^ 32 < 2 ^ (8 * 8)) by reflexivity. lia.
    - intros b. rewrite (ST b _ FV). unfold fix_apply. types TY. reflexivity. }
  destruct (Z.eq_dec (f_type f) 11) as [TY|N11].
  { left. rewrite TY in FV. cbn [Z.eqb Pos.eqb orb] in FV. apply (step_simple f k o 1 (Z.shiftr (wrap 32 (ref_value f k o)) 8) T); [|unfold width; rewrite TY; reflexivity|lia|].
    - intros old. rewrite Z.shiftr_div_pow2 by lia. change (2 ^ (8 * 1)) with 256. change (2 ^ 8) with 256. unfold wrap.
      replace ((ref_value f k o mod 2 ^ 32 / 256) mod 256) with ((ref_value f k o / 256) mod 256); [eapply eff_hibyte; eauto|].
      set (x := ref_value f k o). rewrite (Z.div_mod x (2 ^ 32)) at 1 by lia. change (2 ^ 32) with (16777216 * 256). replace (16777216 * 256 * (x / (16777216 * 256)) + x mod (16777216 * 256)) with (x mod (16777216 * 256) + (65536 * (x / (16777216 * 256)) * 256) * 256) by lia.
      rewrite Z.div_add by lia. rewrite Z_mod_plus_full. reflexivity.
    - intros b. rewrite (ST b _ FV). unfold fix_apply. types TY. reflexivity. }
  destruct (Z.eq_dec (f_type f) 12) as [TY|N12].
  { left. rewrite TY in FV. cbn [Z.eqb Pos.eqb orb] in FV. apply (step_simple f k o 4 (wrap 32 (s_start (segment im k) + o - imagestart (cp im))) T); [|unfold width; rewrite TY; reflexivity|lia|].
    - intros old. rewrite wrap_mod by lia. change (8 * 4) with 32. eapply eff_imgrel; eauto.
    - intros b. rewrite (ST b _ FV). unfold fix_apply. types TY. reflexivity. }
  destruct (Z.eq_dec (f_type f) 13) as [TY|N13].
  { left. rewrite TY in FV. cbn [Z.eqb Pos.eqb orb] in FV. eapply (step_simple f k o 4 _ T); [|unfold width; rewrite TY; reflexivity|lia|].
    2: { intros b. rewrite (ST b _ FV). unfold fix_apply. types TY. reflexivity. }
    intros old. rewrite wrap_mod by lia. change (8 * 4) with 32. destruct (secfind l im k) as [d|] eqn:SF.
    - eapply eff_secrel_named; eauto. apply named_iff. exact SF.
    - apply eff_secrel; auto. intros d D. apply named_iff in D. congruence. }
  destruct (Z.eq_dec (f_type f) 9) as [TY|N9].
  { destruct (selector_dec f k) as [[sel S0]|[NS [A H]]].
    - left. apply (step_ptr f k o 2 sel T ltac:(auto) S0). intros b v E. rewrite (ST b v E). unfold fix_apply. types TY.
      rewrite <- (ptr_select f k b 2 (fun sel => bindr (poke (at_ s f) 2 v b) (fun b => poke (at_ s f + 2) 2 sel b)) sel S0 ltac:(auto)).
      destruct (is_abs im k) eqn:EA; [reflexivity|]. destruct fmt; [reflexivity|]. reflexivity.
    - right. split.
      + intros b. rewrite (ST b _ FV). unfold fix_apply. types TY.
        destruct (ptr_refuse f k (fun sel => bindr (poke (at_ s f) 2 (wrap 32 (ref_value f k o)) b) (fun b => poke (at_ s f + 2) 2 sel b)) A H) as [X|X];
          apply abs_false in A; rewrite A in *; destruct fmt; auto.
      + intros w o' n E. destruct E; try congruence; try (match goal with H : _ \/ _ |- _ => destruct H as [[? ?]|[[? ?]|[? ?]]]; congruence end).
        assert (k = k0) by congruence. subst k0. eapply NS; eassumption. }
  destruct (Z.eq_dec (f_type f) 10) as [TY|N10].
  { destruct (selector_dec f k) as [[sel S0]|[NS [A H]]].
    - left. apply (step_ptr f k o 4 sel T ltac:(auto) S0). intros b v E. rewrite (ST b v E). unfold fix_apply. types TY.
      rewrite <- (ptr_select f k b 4 (fun sel => bindr (poke (at_ s f) 4 v b) (fun b => poke (at_ s f + 4) 2 sel b)) sel S0 ltac:(auto)).
      destruct (is_abs im k) eqn:EA; [reflexivity|]. destruct fmt; [reflexivity|]. reflexivity.
    - right. split.
      + intros b. rewrite (ST b _ FV). unfold fix_apply. types TY.
        destruct (ptr_refuse f k (fun sel => bindr (poke (at_ s f) 4 (wrap 32 (ref_value f k o)) b) (fun b => poke (at_ s f + 4) 2 sel b)) A H) as [X|X];
          apply abs_false in A; rewrite A in *; destruct fmt; auto.
      + intros w o' n E. destruct E; try congruence; try (match goal with H : _ \/ _ |- _ => destruct H as [[? ?]|[[? ?]|[? ?]]]; congruence end).
        assert (k = k0) by congruence. subst k0. eapply NS; eassumption. }
  destruct (Z.eq_dec (f_type f) 8) as [TY|N8].
  2: { right. split.
       - intros b. rewrite (ST b _ FV). unfold fix_apply. types I. replace (f_type f =? 1) with false by (symmetry; apply Z.eqb_neq; assumption).
         repeat match goal with N : f_type f <> ?c |- context [f_type f =? ?c] => replace (f_type f =? c) with false by (symmetry; apply Z.eqb_neq; exact N) end. left. reflexivity.
       - intros w o' n E. destruct E; try congruence; try (match goal with H : _ \/ _ |- _ => destruct H as [[? ?]|[[? ?]|[? ?]]]; congruence end). }
  rewrite TY in FV. cbn [Z.eqb Pos.eqb orb] in FV.
  assert (f_sym f = SSeg k \/ f_sym f <> SSeg k /\ forall A (x : nat -> A) y n g, match f_sym f with SSeg k => x k | SNone => n | SGrp j => g j | SVar _ | SLab _ _ => y end = y) as [Y|[Y YM]].
  { unfold target in T. destruct (f_sym f) as [|g|j|[j|]|[j|] x]; try discriminate T.
    - injection T as -> _. left. reflexivity.
    - right. split; [discriminate|reflexivity].
    - right. split; [discriminate|reflexivity]. }
  - (* the segment itself *)
    destruct (Z.eq_dec (s_type (segment im k)) 5) as [A|A].
    + left. apply (step_simple f k o 2 (s_abs_frame (segment im k)) T); [|unfold width; rewrite TY, Y; destruct fmt; reflexivity|lia|].
      * intros old. eapply eff_seg_abs; eauto.
      * intros b. rewrite (ST b _ FV). unfold fix_apply. types TY. rewrite Y. apply abs_true in A. rewrite A. reflexivity.
    + destruct fmt eqn:EF.
      * right. split.
        -- intros b. rewrite (ST b _ FV). unfold fix_apply. types TY. rewrite Y. apply abs_false in A. rewrite A. left. reflexivity.
        -- intros w o' n E. destruct E; try congruence; try (match goal with H : _ \/ _ |- _ => destruct H as [[? ?]|[[? ?]|[? ?]]]; congruence end).
      * left. apply (step_simple f k o 2 (base im k / 16) T); [|unfold width; rewrite TY, EF; reflexivity|lia|].
        -- intros old. eapply eff_seg_seg; eauto.
        -- intros b. rewrite (ST b _ FV). unfold fix_apply. types TY. rewrite Y. apply abs_false in A. rewrite A, para_eq. reflexivity.
  - (* a label *)
    destruct fmt eqn:EF.
    + destruct (Z.eq_dec (s_type (segment im k)) 5) as [A|A].
      * left. exists (fun _ => ref_value f k o mod 2 ^ 16 + 2 ^ 16 * (s_abs_frame (segment im k) mod 2 ^ 16)).
        assert (width fmt f = 4) as W. { unfold width. rewrite TY, EF. unfold target in T. destruct (f_sym f); try reflexivity. injection T as -> _. destruct Y. reflexivity. }
        rewrite W. split; [intros old; eapply eff_seg_none; eauto|]. split; [lia|]. intros b. rewrite (ST b _ FV). unfold fix_apply. types TY. apply abs_true in A. rewrite A.
        transitivity (bindr (poke (at_ s f) 2 (wrap 32 (ref_value f k o)) b) (fun b => poke (at_ s f + 2) 2 (s_abs_frame (segment im k)) b)).
        -- unfold target in T. destruct (f_sym f) as [|g|j|[j|]|[j|] x]; try discriminate T; try reflexivity. injection T as -> _. destruct Y. reflexivity.
        -- rewrite ptr_eq by lia. change (2 + 2) with 4. rewrite (wrap_mod 2) by lia. reflexivity.
      * right. split.
        -- intros b. rewrite (ST b _ FV). unfold fix_apply. types TY. apply abs_false in A. unfold target in T. destruct (f_sym f) as [|g|j|[j|]|[j|] x]; try discriminate T.
           ++ injection T as -> _. destruct Y. reflexivity.
           ++ rewrite A. left. reflexivity.
           ++ rewrite A. left. reflexivity.
        -- intros w o' n E. destruct E; try congruence; try (match goal with H : _ \/ _ |- _ => destruct H as [[? ?]|[[? ?]|[? ?]]]; congruence end).
           unfold target in T. rewrite H0 in T. congruence.
    + assert (forall b, step f b = if f_frame f =? 1 then bindr (grp_para im k) (fun v => poke (at_ s f) 2 v b) else poke (at_ s f) 2 (Z.shiftr (s_start (segment im k)) 4) b) as SE.
      { intros b. rewrite (ST b _ FV). unfold fix_apply. types TY. unfold target in T. destruct (f_sym f) as [|g|j|[j|]|[j|] x]; try discriminate T; try reflexivity. injection T as -> _. destruct Y. reflexivity. }
      destruct (Z.eq_dec (f_frame f) 1) as [FR|FR].
      * rewrite FR in SE. cbn [Z.eqb Pos.eqb] in SE. unfold grp_para in SE. destruct (s_grp (segment im k)) as [g|] eqn:G.
        -- left. apply (step_simple f k o 2 (g_offset (group_of im g) / 16) T); [|unfold width; rewrite TY, EF; reflexivity|lia|].
           ++ intros old. eapply eff_seg_lab_grp; eauto.
           ++ intros b. rewrite SE. cbn [bindr]. rewrite grp_eq. reflexivity.
        -- right. split; [intros b; right; apply SE|].
           intros w o' n E. destruct E; try congruence; try (match goal with H : _ \/ _ |- _ => destruct H as [[? ?]|[[? ?]|[? ?]]]; congruence end).
           ++ unfold target in T. rewrite H1 in T. discriminate T.
           ++ unfold target in T. rewrite H0 in T. congruence.
           ++ unfold target in T. rewrite H1 in T. congruence.
      * left. apply (step_simple f k o 2 (s_start (segment im k) / 16) T); [|unfold width; rewrite TY, EF; reflexivity|lia|].
        -- intros old. eapply eff_seg_lab; eauto.
        -- intros b. rewrite SE. apply Z.eqb_neq in FR. rewrite FR. rewrite Z.shiftr_div_pow2 by lia. reflexivity.
Qed.
End F.

(** * all fixups of a segment *)
Lemma inside_iff : forall p w b, inside p w b = true <-> 0 <= p /\ p + w <= zlen b.
Proof. intros. unfold inside. rewrite andb_true_iff, !Z.leb_le. reflexivity. Qed.
Lemma nth_splice : forall p w v b i, inside p w b = true -> 0 <= w ->
  nth i (splice p w v b) 0 = if (p <=? Z.of_nat i) && (Z.of_nat i <? p + w) then nth (i - Z.to_nat p) (le_bytes (Z.to_nat w) v) 0 else nth i b 0.
Proof.
  intros p w v b i H W. apply inside_iff in H. destruct H as [H1 H2]. unfold splice.
  assert (length (firstn (Z.to_nat p) b) = Z.to_nat p) as LP by (rewrite firstn_length; unfold zlen in H2; lia).
  destruct (Z.leb_spec p (Z.of_nat i)) as [A|A]; cbn [andb].
  - rewrite app_nth2 by lia. rewrite LP. destruct (Z.ltb_spec (Z.of_nat i) (p + w)) as [B|B].
    + rewrite app_nth1 by (rewrite le_bytes_length; lia). reflexivity.
    + rewrite app_nth2 by (rewrite le_bytes_length; lia). rewrite le_bytes_length. rewrite nth_skipn'. f_equal. lia.
  - rewrite app_nth1 by lia. rewrite nth_firstn'. destruct (Nat.ltb_spec i (Z.to_nat p)); [reflexivity|lia].
Qed.
Lemma list_ext : forall (a b : list Z), length a = length b -> (forall i, (i < length a)%nat -> nth i a 0 = nth i b 0) -> a = b.
Proof. intros a b L H. apply (nth_ext a b 0 0 L H). Qed.
Lemma field_ext : forall a b p w, zlen a = zlen b -> 0 <= p -> p + w <= zlen a -> (forall i, p <= Z.of_nat i < p + w -> nth i a 0 = nth i b 0) -> field a p w = field b p w.
Proof.
  intros a b p w L P W H. unfold field. f_equal. unfold zlen in *. apply list_ext; [rewrite !firstn_length, !skipn_length; lia|].
  intros i I'. rewrite firstn_length, skipn_length in I'. rewrite !nth_firstn', !nth_skipn'. destruct (Nat.ltb_spec i (Z.to_nat w)); [|reflexivity]. apply H. lia.
Qed.
Lemma field_splice : forall p w v b, inside p w b = true -> 0 <= w -> field (splice p w v b) p w = v mod 2 ^ (8 * w).
Proof.
  intros p w v b H W. apply inside_iff in H. destruct H as [H1 H2]. unfold field, splice.
  assert (length (firstn (Z.to_nat p) b) = Z.to_nat p) as LP by (rewrite firstn_length; unfold zlen in H2; lia).
  rewrite skipn_app, LP, Nat.sub_diag. rewrite skipn_all2 by lia. cbn [app skipn]. rewrite firstn_app, le_bytes_length, Nat.sub_diag, firstn_O, app_nil_r.
  rewrite firstn_all2 by (rewrite le_bytes_length; lia). rewrite le_val_le_bytes. rewrite Z2Nat.id by lia. reflexivity.
Qed.
Lemma effect_range : forall fmt l im s f w o n, effect fmt l im s f w o n -> 0 <= n < 2 ^ (8 * w).
Proof.
  intros fmt l im s f w o n E. destruct E.
  all: try (apply Z.mod_pos_bound; (apply pow2_pos; lia) || reflexivity).
  - assert (2 ^ 32 < 2 ^ (8 * 8)) by reflexivity. pose proof (Z.mod_pos_bound (base im k + o - frame_base im f k) (2 ^ 32) ltac:(reflexivity)). lia.
  - pose proof (Z.mod_pos_bound (base im k + o - frame_base im f k) (2 ^ 16) ltac:(reflexivity)) as A. pose proof (Z.mod_pos_bound sel (2 ^ 16) ltac:(reflexivity)) as B.
    change (2 ^ (8 * 4)) with 4294967296. change (2 ^ 16) with 65536 in *. lia.
  - pose proof (Z.mod_pos_bound (base im k + o - frame_base im f k) (2 ^ 32) ltac:(reflexivity)) as A. pose proof (Z.mod_pos_bound sel (2 ^ 16) ltac:(reflexivity)) as B.
    change (2 ^ (8 * 6)) with 281474976710656. change (2 ^ 16) with 65536 in *. change (2 ^ 32) with 4294967296 in *. lia.
  - pose proof (Z.mod_pos_bound (base im k + o - frame_base im f k) (2 ^ 16) ltac:(reflexivity)) as A. pose proof (Z.mod_pos_bound (s_abs_frame (segment im k)) (2 ^ 16) ltac:(reflexivity)) as B.
    change (2 ^ (8 * 4)) with 4294967296. change (2 ^ 16) with 65536 in *. lia.
Qed.
Lemma fixups_cons : forall fmt l im s f fs b, do_fixups fmt l im s (f :: fs) b = bindr (step fmt l im s f b) (do_fixups fmt l im s fs).
Proof. intros. cbn [do_fixups]. unfold step, at_. destruct (fix_value l im f) as [[sg v]| |]; reflexivity. Qed.
Definition untouched (fmt : format) (s : seg) (fs : list fixup) (i : nat) : Prop := forall f, In f fs -> ~ (at_ s f <= Z.of_nat i < at_ s f + width fmt f).
Lemma fix_list : forall fmt l im s, addresses_ok im -> forall fs, Forall aimed fs -> ForallOrdPairs (apart fmt s) fs -> forall b b', do_fixups fmt l im s fs b = Ok b' ->
  zlen b' = zlen b /\
  (forall f, In f fs -> within fmt s f b /\ effect fmt l im s f (width fmt f) (field b (at_ s f) (width fmt f)) (field b' (at_ s f) (width fmt f))) /\
  (forall i, untouched fmt s fs i -> nth i b' 0 = nth i b 0).
Proof.
  intros fmt l im s SA. induction fs as [|f fs IH]; intros AI AP b b' E.
  - cbn in E. injection E as <-. split; [reflexivity|]. split; [intros f []|reflexivity].
  - inversion AI as [|? ? A1 A2]; subst. inversion AP as [|? ? P1 P2]; subst. rewrite fixups_cons in E.
    destruct (step_spec fmt l im s SA f A1) as [(g & EF & WF & ST)|[NS _]].
    2: { destruct (NS b) as [X|X]; rewrite X in E; discriminate E. }
    rewrite ST in E. destruct (inside (at_ s f) (width fmt f) b) eqn:IN; [|discriminate E]. cbn [bindr] in E.
    set (b1 := splice _ _ _ b) in E. destruct (IH A2 P2 b1 b' E) as (L & F & U).
    assert (zlen b1 = zlen b) as L1 by (apply splice_length; [exact IN|lia]).
    assert (field b1 (at_ s f) (width fmt f) = g (field b (at_ s f) (width fmt f))) as FG.
    { unfold b1. rewrite field_splice by (exact IN || lia). apply Z.mod_small. eapply effect_range. apply EF. }
    pose proof (proj1 (inside_iff _ _ _) IN) as W1.
    assert (forall i, untouched fmt s [f] i -> nth i b1 0 = nth i b 0) as U1.
    { intros i UI. unfold b1. rewrite nth_splice by (exact IN || lia). specialize (UI f ltac:(left; reflexivity)).
      destruct (Z.leb_spec (at_ s f) (Z.of_nat i)), (Z.ltb_spec (Z.of_nat i) (at_ s f + width fmt f)); cbn [andb]; try reflexivity. lia. }
    split; [lia|]. split.
    + intros f' [<-|IN'].
      * split; [exact W1|]. rewrite (field_ext b' b1); [rewrite FG; apply EF|exact L|lia|lia|]. intros i I'. apply U. intros f' F' C. rewrite Forall_forall in P1. specialize (P1 f' F'). unfold apart in P1. lia.
      * destruct (F f' IN') as [W' E']. rewrite L1 in *. unfold within in W'. rewrite L1 in W'. split; [exact W'|]. rewrite (field_ext b b1); [exact E'|lia|lia|lia|]. intros i I'. symmetry. apply U1.
        intros f2 [<-|[]] C. rewrite Forall_forall in P1. specialize (P1 f' IN'). unfold apart in P1. lia.
    + intros i UI. rewrite U by (intros f' F'; apply UI; right; exact F'). apply U1. intros f' [<-|[]]. apply UI. left. reflexivity.
Qed.
Lemma fix_total : forall fmt l im s, addresses_ok im -> forall fs b, Forall aimed fs ->
  (forall f, In f fs -> within fmt s f b /\ exists o n, effect fmt l im s f (width fmt f) o n) -> exists b', do_fixups fmt l im s fs b = Ok b'.
Proof.
  intros fmt l im s SA. induction fs as [|f fs IH]; intros b AI H; [exists b; reflexivity|]. inversion AI as [|? ? A1 A2]; subst. rewrite fixups_cons.
  destruct (H f ltac:(left; reflexivity)) as [W (o & n & E)]. destruct (step_spec fmt l im s SA f A1) as [(g & EF & WF & ST)|[_ NE]]; [|destruct (NE _ _ _ E)].
  assert (inside (at_ s f) (width fmt f) b = true) as IN by (apply inside_iff; exact W). rewrite ST, IN. cbn [bindr]. apply IH; [exact A2|].
  intros f' F'. destruct (H f' ltac:(right; exact F')) as [W' E']. split; [|exact E']. unfold within. rewrite splice_length by (exact IN || lia). exact W'.
Qed.
