(** The section table. *)
From Coq Require Import ZArith List Bool Lia.
From Verif Require Import Base Pe_Model Pe_Spec PePlace_Proofs.
Import ListNotations.
Open Scope Z_scope.

Local Arguments Z.pow : simpl never.
Local Arguments Z.div : simpl never.
Local Arguments Z.modulo : simpl never.

Definition nonempty (s : seg) : bool := negb (p_size s =? 0).
Definition chars_of (c : Z) (r : list seg) : Z := fold_left (fun c s => Z.lor c (characteristics s)) (filter nonempty r) c.

(** The state behind a section. *)
Definition with_cur (st : fst_) (c : sect) : fst_ :=
  {| s_done := s_done st; s_cur := c; s_i := s_i st; s_hdr := s_hdr st;
     s_cb := s_cb st; s_cs := s_cs st; s_db := s_db st; s_ds := s_ds st |}.
Definition finish (fa : Z) (rest : list placed) (st : fst_) : fst_ :=
  match rest with [] => close_sect fa st | _ => next_sect (close_sect fa st) end.
Definition grown (st : fst_) (e : Z) (r : list seg) : fst_ :=
  let c := s_cur st in
  with_cur st {| t_name := t_name c; t_vsize := extent e r; t_va := t_va c;
                 t_raw := if is_bss r then t_raw c else t_raw c + sizes r; t_ptr := t_ptr c; t_chars := chars_of (t_chars c) r |}.

Definition other (i : Z) (rest : list placed) : Prop := match rest with q :: _ => idx (q_s q) <> i | [] => True end.

Lemma lay_head : forall b f e s r, exists q t, lay b f e (s :: r) = q :: t /\ q_s q = s.
Proof. intros. cbn [lay]. eexists. eexists. split; reflexivity. Qed.

Lemma fill_in : forall fa r e b f rest st i, r <> [] -> Forall sound r -> Forall (fun s => idx s = i) r -> i <> 0 ->
  s_i st = i -> other i rest -> t_va (s_cur st) = b -> 0 <= e -> 0 <= b -> 0 <= t_raw (s_cur st) ->
  t_raw (s_cur st) + sizes r < LIM -> extent e r < LIM -> (forall d, 0 < p_size (last r d)) ->
  fill fa (lay b f e r ++ rest) st = fill fa rest (finish fa rest (grown st e r)).
Proof.
  intros fa r. induction r as [|s r IH]; intros e b f rest st i NE SO ID I0 SI OT VA E0 B0 R0 LR LM LA; [congruence|].
  clear NE. pose proof (Forall_inv SO) as S1. pose proof (Forall_inv_tail SO) as S2.
  pose proof (Forall_inv ID) as I1. pose proof (Forall_inv_tail ID) as I2. cbv beta in I1. pose proof (so_idx s S1) as SX. destruct S1 as [SA SS SL SK SF].
  pose proof (up_bounds (2 ^ p_align s) e (pow_pos (p_align s) ltac:(lia))) as UB.
  assert (EG := extent_ge r (up (2 ^ p_align s) e + p_size s) (sized r S2)).
  assert (SN := sizes_nonneg r (sized r S2)).
  cbn [extent] in LM. cbn [sizes fold_right] in LR. fold (sizes r) in LR.
  assert (HD : (p_type s =? T_HDR) = false).
  { apply Z.eqb_neq. intro E. apply I0. rewrite <- I1. unfold idx. rewrite E. reflexivity. }
  cbn [lay app fill q_s]. rewrite HD. cbn [orb].
  destruct (p_size s =? 0) eqn:Z0.
  - apply Z.eqb_eq in Z0.
    destruct r as [|s' r]; [specialize (LA s); cbn [last] in LA; lia|].
    rewrite (IH _ _ _ _ _ i); [|discriminate|assumption..|lia|assumption|assumption|rewrite Z0 in LR; exact LR|exact LM|exact LA].
    f_equal. f_equal. unfold grown. cbn [extent]. f_equal. f_equal.
    + cbn [is_bss]. pose proof (Forall_inv I2) as I3. cbv beta in I3. rewrite <- I1 in I3.
      assert (BE : bss s' = bss s) by (unfold bss; rewrite (idx_type (p_type s') (p_type s)); [reflexivity|exact I3|rewrite <- I3 in SX; exact SX]).
      rewrite BE. destruct (bss s); [reflexivity|]. cbn [sizes fold_right]. lia.
    + unfold chars_of. cbn [filter]. assert (NE : nonempty s = false) by (unfold nonempty; rewrite Z0; reflexivity). rewrite NE. reflexivity.
  - rewrite SI, I1, Z.eqb_refl. assert (NE : nonempty s = true) by (unfold nonempty; rewrite Z0; reflexivity).
    set (st' := add_seg _ st).
    assert (RAW : t_raw (s_cur st') = if bss s then t_raw (s_cur st) else t_raw (s_cur st) + p_size s).
    { unfold st', add_seg, bss. cbn [s_cur t_raw q_s]. destruct (p_type s =? T_BSS); [reflexivity|]. apply wrap_small.
      unfold LIM in *. change (2 ^ 31) with 2147483648 in *. change (2 ^ 32) with 4294967296. lia. }
    assert (VS : t_vsize (s_cur st') = up (2 ^ p_align s) e + p_size s).
    { unfold st', add_seg. cbn [s_cur t_vsize q_s q_rva]. rewrite wrap_small; [lia|].
      unfold LIM in *. change (2 ^ 31) with 2147483648 in *. change (2 ^ 32) with 4294967296. lia. }
    assert (CH : t_chars (s_cur st') = Z.lor (t_chars (s_cur st)) (characteristics s)) by reflexivity.
    destruct r as [|s' r].
    + cbn [lay app].
      assert (GR : grown st e [s] = st').
      { unfold grown, with_cur. cbn [extent is_bss sizes fold_right]. rewrite Z.add_0_r. unfold chars_of. cbn [filter]. rewrite NE. cbn [fold_left].
        rewrite <- VS, <- RAW, <- CH. unfold st', add_seg. reflexivity. }
      rewrite GR. unfold finish. destruct rest as [|n rest]; [reflexivity|]. cbn [other] in OT.
      assert (NN : (idx (q_s n) =? s_i st') = false) by (apply Z.eqb_neq; unfold st'; cbn [add_seg s_i]; rewrite SI; exact OT).
      rewrite NN. reflexivity.
    + pose proof (Forall_inv I2) as I3. cbv beta in I3. rewrite <- I1 in I3.
      assert (BE : bss s' = bss s) by (unfold bss; rewrite (idx_type (p_type s') (p_type s)); [reflexivity|exact I3|rewrite <- I3 in SX; exact SX]).
      destruct (lay_head b f (up (2 ^ p_align s) e + p_size s) s' r) as (q & t & LQ & QS).
      cbn [lay] in LQ. cbn [lay app]. 
      assert (SI' : s_i st' = idx s) by (unfold st'; cbn [add_seg s_i]; congruence).
      cbn [q_s]. rewrite SI', I3, Z.eqb_refl.
      change (fill fa (lay b f (up (2 ^ p_align s) e + p_size s) (s' :: r) ++ rest) st' = fill fa rest (finish fa rest (grown st e (s :: s' :: r)))).
      rewrite (IH _ _ _ _ _ i); [|discriminate|assumption..|congruence|assumption|exact VA|lia|assumption| | |exact LM|exact LA].
      * f_equal. f_equal. unfold grown, with_cur. cbn [extent is_bss]. rewrite RAW, CH, BE.
        unfold chars_of. cbn [filter]. rewrite NE. cbn [fold_left].
        unfold st', add_seg. cbn [s_done s_i s_hdr s_cb s_cs s_db s_ds s_cur t_name t_va t_ptr]. f_equal. f_equal.
        destruct (bss s); [reflexivity|]. cbn [sizes fold_right]. lia.
      * rewrite RAW. destruct (bss s); lia.
      * rewrite RAW. destruct (bss s); lia.
Qed.

(** ** A section *)

Definition head_title (r : list seg) : list Z := match filter nonempty r with s :: _ => firstn 8 (p_title s) | [] => [] end.

Definition opened (st : fst_) (i b f : Z) (r : list seg) : fst_ :=
  {| s_done := s_done st;
     s_cur := {| t_name := head_title r; t_vsize := extent 0 r; t_va := b; t_raw := if is_bss r then 0 else sizes r;
                 t_ptr := if is_bss r then 0 else f; t_chars := chars_of 0 r |};
     s_i := i; s_hdr := if s_hdr st =? 0 then f else s_hdr st;
     s_cb := s_cb st; s_cs := s_cs st; s_db := s_db st; s_ds := s_ds st |}.

Lemma last_cons : forall A (x y : A) r d, last (x :: y :: r) d = last (y :: r) d.
Proof. reflexivity. Qed.

Lemma fill_sect : forall fa r b f rest st i, r <> [] -> Forall sound r -> Forall (fun s => idx s = i) r -> i <> 0 ->
  s_i st <> i -> s_cur st = no_sect -> other i rest -> 0 <= b ->
  extent 0 r < LIM -> (forall d, 0 < p_size (last r d)) ->
  fill fa (lay b f 0 r ++ rest) st = fill fa rest (finish fa rest (opened st i b f r)).
Proof.
  intros fa r. induction r as [|s r IH]; intros b f rest st i NE SO ID I0 SI CU OT B0 LM LA; [congruence|].
  clear NE. pose proof (Forall_inv SO) as S1. pose proof (Forall_inv_tail SO) as S2.
  pose proof (Forall_inv ID) as I1. pose proof (Forall_inv_tail ID) as I2. cbv beta in I1. pose proof S1 as S0. pose proof (so_idx s S1) as SX. destruct S1 as [SA SS SL SK SF].
  assert (HD : (p_type s =? T_HDR) = false).
  { apply Z.eqb_neq. intro E. apply I0. rewrite <- I1. unfold idx. rewrite E. reflexivity. }
  assert (U0 : up (2 ^ p_align s) 0 = 0) by (apply up_zero2; lia).
  destruct (p_size s =? 0) eqn:Z0.
  - cbn [lay app fill q_s]. rewrite HD, Z0. cbn [orb]. apply Z.eqb_eq in Z0.
    destruct r as [|s' r]; [specialize (LA s); cbn [last] in LA; lia|].
    cbn [extent] in LM. rewrite U0, Z0 in LM. change (0 + 0) with 0 in LM.
    rewrite U0, Z0. change (0 + 0) with 0.
    rewrite (IH _ _ _ _ i); [|discriminate|assumption..|exact LA].
    assert (NE : nonempty s = false) by (unfold nonempty; rewrite Z0; reflexivity).
    pose proof (Forall_inv I2) as I3. cbv beta in I3. rewrite <- I1 in I3.
    assert (BE : bss s' = bss s) by (unfold bss; rewrite (idx_type (p_type s') (p_type s)); [reflexivity|exact I3|rewrite <- I3 in SX; exact SX]).
    f_equal. f_equal. unfold opened, head_title, chars_of. cbn [filter is_bss]. rewrite NE, BE.
    cbn [extent]. rewrite U0, Z0. change (0 + 0) with 0.
    assert (SZ : sizes (s :: s' :: r) = sizes (s' :: r)) by (cbn [sizes fold_right]; lia). rewrite SZ. reflexivity.
  - assert (NE : nonempty s = true) by (unfold nonempty; rewrite Z0; reflexivity).
    set (q := {| q_s := s; q_rva := b; q_fo := f; q_loc := 0 |}).
    assert (EX := extent_ge (s :: r) 0 (sized (s :: r) SO)).
    assert (LQ : lay b f 0 (s :: r) = q :: lay b f (p_size s) r).
    { cbn [lay]. rewrite U0, !Z.add_0_r, Z.add_0_l. unfold q. destruct (bss s); reflexivity. }
    transitivity (fill fa (lay b f 0 (s :: r) ++ rest) (open_sect q st)).
    { rewrite LQ. cbn [app fill q q_s]. rewrite HD, Z0. cbn [orb].
      assert (E1 : (idx s =? s_i st) = false) by (apply Z.eqb_neq; congruence).
      rewrite E1. cbn [open_sect s_i q_s]. fold q. rewrite Z.eqb_refl. reflexivity. }
    rewrite (fill_in fa (s :: r) 0 b f rest (open_sect q st) i); try assumption; try discriminate; try reflexivity; try lia.
    + f_equal. f_equal. unfold grown, opened, with_cur, open_sect, q. rewrite CU.
      cbn [s_done s_i s_hdr s_cb s_cs s_db s_ds s_cur t_name t_va t_ptr t_raw t_chars q_s q_fo q_rva no_sect is_bss].
      unfold head_title. cbn [filter]. rewrite NE. rewrite I1. unfold bss. rewrite Z.add_0_l. reflexivity.
    + cbn [open_sect s_cur t_raw]. rewrite CU. cbn. lia.
    + cbn [open_sect s_cur t_raw]. rewrite CU. cbn [no_sect t_raw]. lia.
Qed.

(** ** All sections *)

Definition bit_base (bit : Z) (c : Z) (t : list sect) : Z := if c =? 0 then base_of bit t else c.
Definition raws (bit : Z) (t : list sect) : Z := fold_right (fun x n => t_raw x + n) 0 (filter (has bit) t).

Lemma chars_filter : forall c r, chars_of c r = fold_left (fun c s => Z.lor c (characteristics s)) (filter (fun s => negb (p_size s =? 0)) r) c.
Proof. reflexivity. Qed.

Lemma close_opened : forall k st i b f r, 0 <= k <= 16 -> Forall sound r -> extent 0 r < LIM ->
  let x := section_of (2 ^ k) (b, f, r) in
  close_sect (2 ^ k) (opened st i b f r) =
  {| s_done := s_done st; s_cur := x; s_i := i; s_hdr := if s_hdr st =? 0 then f else s_hdr st;
     s_cb := if has 0x20000000 x && (s_cb st =? 0) then b else s_cb st;
     s_cs := if has 0x20000000 x then wrap 32 (s_cs st + t_raw x) else s_cs st;
     s_db := if has 0x40 x && (s_db st =? 0) then b else s_db st;
     s_ds := if has 0x40 x then wrap 32 (s_ds st + t_raw x) else s_ds st |}.
Proof.
  intros k st i b f r K SO LM. cbv zeta.
  assert (EX := extent_ge r 0 (sized r SO)). assert (SN := sizes_nonneg r (sized r SO)).
  assert (RW : round_up (if is_bss r then 0 else sizes r) (2 ^ k) = if is_bss r then 0 else up (2 ^ k) (sizes r)).
  { destruct (is_bss r); [rewrite round_ok by (unfold LIM in *; lia); apply up_zero; apply pow_pos; lia|apply round_ok; lia]. }
  unfold close_sect, opened. cbn [s_done s_i s_hdr s_cb s_cs s_db s_ds s_cur t_name t_va t_ptr t_raw t_chars t_vsize].
  rewrite RW. reflexivity.
Qed.

Lemma wrap_add : forall a b, wrap 32 (wrap 32 a + b) = wrap 32 (a + b).
Proof. intros. unfold wrap. apply Z.add_mod_idemp_l. apply Z.pow_nonzero; lia. Qed.

Definition tidy_run (k : Z) (r : list seg) : Prop := okrun k r /\ forall d, 0 < p_size (last r d).

Lemma fill_all : forall k m R i b f st, 0 <= k <= m -> m <= 16 -> chain i R -> 0 <= i -> Forall (tidy_run k) R -> R <> [] ->
  s_i st <= i -> s_cur st = no_sect -> 0 < b -> 0 < f ->
  fst (ends (2 ^ k) (2 ^ m) b f R) < LIM -> 0 <= s_cs st < 2 ^ 32 -> 0 <= s_ds st < 2 ^ 32 ->
  let X := bases (2 ^ k) (2 ^ m) b f R in let t := map (section_of (2 ^ k)) X in
  let st' := fill (2 ^ k) (flat_map alone X) st in
  s_done st' ++ [s_cur st'] = s_done st ++ t /\
  s_hdr st' = (if s_hdr st =? 0 then match X with (_, f0, _) :: _ => f0 | [] => 0 end else s_hdr st) /\
  s_cb st' = bit_base 0x20000000 (s_cb st) t /\ s_cs st' = wrap 32 (s_cs st + raws 0x20000000 t) /\
  s_db st' = bit_base 0x40 (s_db st) t /\ s_ds st' = wrap 32 (s_ds st + raws 0x40 t).
Proof.
  intros k m. induction R as [|r R IH]; intros i b f st K M CH I0 TI NE SI CU B0 F0 LM C1 C2; [congruence|].
  destruct r as [|s u]; [destruct CH|]. destruct CH as (H1 & H2 & H3).
  pose proof (Forall_inv TI) as [[SO AL] LA]. pose proof (Forall_inv_tail TI) as TI2.
  cbn [bases ends] in *. cbv zeta in LM |- *. pose proof (so_align s (Forall_inv SO)) as SA.
  set (B := up (2 ^ m) b) in *. set (F := up (Z.max (2 ^ k) (2 ^ p_align s)) f) in *.
  pose proof (up_bounds (2 ^ m) b (pow_pos m ltac:(lia))) as UB. fold B in UB.
  assert (UF : f <= F).
  { unfold F. rewrite max_pow by lia. apply (up_bounds (2 ^ Z.max k (p_align s)) f). apply pow_pos. lia. }
  assert (OKR : Forall (okrun k) R) by (eapply Forall_impl; [|exact TI2]; intros a A; exact (proj1 A)).
  destruct (ends_ge k m R (B + extent 0 (s :: u)) (if is_bss (s :: u) then F else F + extent 0 (s :: u)) ltac:(lia) ltac:(lia) OKR) as [G1 _].
  pose proof (extent_nonneg (s :: u) SO) as EN.
  assert (IDR : Forall (fun x => idx x = idx s) (s :: u)) by (constructor; [reflexivity|exact H2]).
  set (X := bases (2 ^ k) (2 ^ m) (B + extent 0 (s :: u)) (if is_bss (s :: u) then F else F + extent 0 (s :: u)) R) in *.
  cbn [flat_map map]. change (alone (B, F, s :: u)) with (lay B F 0 (s :: u)).
  assert (OT : other (idx s) (flat_map alone X)).
  { unfold X. destruct R as [|[|s2 u2] R2]; [exact Logic.I|destruct H3|]. cbn [bases flat_map alone lay app other q_s]. destruct H3 as [H3 _]. lia. }
  rewrite (fill_sect (2 ^ k) (s :: u) B F (flat_map alone X) st (idx s)); try assumption; try discriminate; try lia.
  pose proof (close_opened k st (idx s) B F (s :: u) ltac:(lia) SO ltac:(lia)) as CO. cbv zeta in CO.
  set (x := section_of (2 ^ k) (B, F, s :: u)) in *.
  assert (VX : t_va x = B) by reflexivity.
  assert (P2 : forall bit c t, bit_base bit (if has bit x && (c =? 0) then B else c) t = bit_base bit c (x :: t)).
  { intros bit c t. unfold bit_base, base_of. cbn [filter]. destruct (has bit x); cbn [andb]; [|reflexivity].
    destruct (c =? 0) eqn:E.
    - assert (E2 : (B =? 0) = false) by (apply Z.eqb_neq; lia). rewrite E2. symmetry. exact VX.
    - rewrite E. reflexivity. }
  assert (P5 : forall bit c, (if has bit x && (c =? 0) then B else c) = bit_base bit c [x]).
  { intros bit c. unfold bit_base, base_of. cbn [filter]. destruct (has bit x); cbn [andb];
    destruct (c =? 0) eqn:E; try reflexivity; try (apply Z.eqb_eq in E; exact E). }
  assert (P3 : forall bit c t, 0 <= c < 2 ^ 32 -> wrap 32 ((if has bit x then wrap 32 (c + t_raw x) else c) + raws bit t) = wrap 32 (c + raws bit (x :: t))).
  { intros bit c t C. unfold raws. cbn [filter]. destruct (has bit x); [|reflexivity]. rewrite wrap_add. cbn [fold_right]. f_equal. lia. }
  assert (P4 : forall bit c, 0 <= c < 2 ^ 32 -> 0 <= (if has bit x then wrap 32 (c + t_raw x) else c) < 2 ^ 32).
  { intros bit c C. destruct (has bit x); [apply wrap_range; lia|exact C]. }
  destruct R as [|r2 R2].
  - unfold X. cbn [bases flat_map fill finish map]. rewrite CO. cbn [s_done s_i s_hdr s_cb s_cs s_db s_ds s_cur].
    split; [reflexivity|]. split; [reflexivity|].
    repeat split; try (rewrite <- P3 by assumption; unfold raws; cbn [filter fold_right]; rewrite Z.add_0_r; symmetry; apply wrap_small; apply P4; assumption).
    + apply P5.
    + apply P5.
  - assert (FN : finish (2 ^ k) (flat_map alone X) (opened st (idx s) B F (s :: u)) = next_sect (close_sect (2 ^ k) (opened st (idx s) B F (s :: u)))).
    { unfold finish, X. destruct r2 as [|s2 u2]; [destruct H3|]. reflexivity. }
    rewrite FN, CO.
    specialize (IH (idx s) (B + extent 0 (s :: u)) (if is_bss (s :: u) then F else F + extent 0 (s :: u))
      (next_sect {| s_done := s_done st; s_cur := x; s_i := idx s; s_hdr := if s_hdr st =? 0 then F else s_hdr st;
     s_cb := if has 0x20000000 x && (s_cb st =? 0) then B else s_cb st;
     s_cs := if has 0x20000000 x then wrap 32 (s_cs st + t_raw x) else s_cs st;
     s_db := if has 0x40 x && (s_db st =? 0) then B else s_db st;
     s_ds := if has 0x40 x then wrap 32 (s_ds st + t_raw x) else s_ds st |}) K M H3 ltac:(lia) TI2).
    cbn [next_sect s_done s_i s_hdr s_cb s_cs s_db s_ds s_cur] in IH. fold X in IH.
    destruct IH as (Q1 & Q2 & Q3 & Q4 & Q5 & Q6); try discriminate; try reflexivity; try lia; try (apply P4; assumption).
    { destruct (is_bss (s :: u)); lia. }
    cbv zeta in *.
    rewrite Q1, Q2, Q3, Q4, Q5, Q6, !P2, !P3 by assumption.
    split; [rewrite <- app_assoc; reflexivity|]. split; [|repeat split].
    destruct (s_hdr st =? 0) eqn:E; [|rewrite E; reflexivity]. assert (E2 : (F =? 0) = false) by (apply Z.eqb_neq; lia). rewrite E2. reflexivity.
Qed.
