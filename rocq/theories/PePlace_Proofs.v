(** RVAs and file offsets. *)
From Coq Require Import ZArith List Bool Lia.
From Verif Require Import Base Pe_Model Pe_Spec.
Import ListNotations.
Open Scope Z_scope.

Local Arguments Z.pow : simpl never.
Local Arguments Z.div : simpl never.
Local Arguments Z.modulo : simpl never.

(** ** Rounding *)

Lemma mask : forall y j, 0 <= y < 2 ^ 32 -> 0 <= j <= 32 ->
  Z.land (wrap 32 y) (wrap 32 (- 2 ^ j)) = y - y mod 2 ^ j.
Proof.
  intros y j Y J. rewrite wrap_small by exact Y.
  assert (E : Z.land y (wrap 32 (- 2 ^ j)) = Z.land y (- 2 ^ j)).
  { apply Z.bits_inj'. intros i I0. rewrite !Z.land_spec. unfold wrap.
    destruct (Z_lt_ge_dec i 32) as [L|L]; [rewrite Z.mod_pow2_bits_low by lia; reflexivity|].
    rewrite <- (Z.mod_small y (2 ^ 32)) by exact Y. rewrite !(Z.mod_pow2_bits_high y) by lia. reflexivity. }
  rewrite E. replace (- 2 ^ j) with (Z.lnot (Z.ones j)) by (rewrite Z.ones_equiv; unfold Z.lnot; lia).
  fold (Z.ldiff y (Z.ones j)). rewrite <- Z.ldiff_land. rewrite Z.ldiff_ones_r by lia.
  rewrite Z.shiftl_mul_pow2, Z.shiftr_div_pow2 by lia.
  pose proof (Z.div_mod y (2 ^ j) ltac:(apply Z.pow_nonzero; lia)). lia.
Qed.

Lemma up_mod : forall a x, 0 < a -> up a x = (x + a - 1) - (x + a - 1) mod a.
Proof. intros a x A. unfold up. pose proof (Z.div_mod (x + a - 1) a ltac:(lia)). lia. Qed.

Lemma up_bounds : forall a x, 0 < a -> x <= up a x < x + a.
Proof. intros a x A. rewrite up_mod by exact A. pose proof (Z.mod_pos_bound (x + a - 1) a A). lia. Qed.

Lemma up_divide : forall a x, (a | up a x).
Proof. intros. exists ((x + a - 1) / a). reflexivity. Qed.

Lemma up_of_divide : forall a x, 0 < a -> (a | x) -> up a x = x.
Proof.
  intros a x A [n N]. subst. unfold up. replace (n * a + a - 1) with (a - 1 + n * a) by lia.
  rewrite Z.div_add, Z.div_small by lia. lia.
Qed.

Lemma up_shift : forall a b x, 0 < a -> (a | b) -> up a (b + x) = b + up a x.
Proof.
  intros a b x A [n N]. subst. unfold up. replace (n * a + x + a - 1) with (x + a - 1 + n * a) by lia.
  rewrite Z.div_add by lia. lia.
Qed.

Lemma up_zero : forall a, 0 < a -> up a 0 = 0.
Proof. intros a A. apply up_of_divide; [exact A|apply Z.divide_0_r]. Qed.

Lemma up_least : forall a x y, 0 < a -> (a | y) -> x <= y -> up a x <= y.
Proof.
  intros a x y A [n N] L. subst. unfold up. apply Z.mul_le_mono_nonneg_r; [lia|].
  assert ((x + a - 1) / a < n + 1); [|lia]. apply Z.div_lt_upper_bound; lia.
Qed.

Lemma pow_pos : forall j, 0 <= j -> 0 < 2 ^ j.
Proof. intros. apply Z.pow_pos_nonneg; lia. Qed.

Lemma pow_le : forall a b, 0 <= a <= b -> 2 ^ a <= 2 ^ b.
Proof. intros. apply Z.pow_le_mono_r; lia. Qed.

Lemma pow_div : forall a b, 0 <= a <= b -> (2 ^ a | 2 ^ b).
Proof. intros a b H. exists (2 ^ (b - a)). rewrite <- Z.pow_add_r by lia. f_equal. lia. Qed.

Definition LIM := 2 ^ 31.

Lemma round_ok : forall x j, 0 <= x < LIM -> 0 <= j <= 16 -> round_up x (2 ^ j) = up (2 ^ j) x.
Proof.
  intros x j X J. unfold round_up. pose proof (pow_pos j ltac:(lia)) as P. pose proof (pow_le j 16 ltac:(lia)) as Q.
  unfold LIM in X. change (2 ^ 31) with 2147483648 in X. change (2 ^ 16) with 65536 in Q.
  replace (Z.lnot (2 ^ j - 1)) with (- 2 ^ j) by (unfold Z.lnot; lia).
  rewrite mask; [|change (2 ^ 32) with 4294967296; lia|lia]. rewrite up_mod by exact P.
  replace (x + (2 ^ j - 1)) with (x + 2 ^ j - 1) by lia. reflexivity.
Qed.

Lemma file_ok : forall x j, 0 <= x < LIM -> 0 <= j <= 16 ->
  wrap 32 (x + wrap 32 (Z.land (wrap 32 (x + (2 ^ j - 1))) (wrap 32 (- 2 ^ j)) - x)) = up (2 ^ j) x.
Proof.
  intros x j X J. pose proof (pow_pos j ltac:(lia)) as P. pose proof (pow_le j 16 ltac:(lia)) as Q.
  unfold LIM in X. change (2 ^ 31) with 2147483648 in X. change (2 ^ 16) with 65536 in Q.
  rewrite mask; [|change (2 ^ 32) with 4294967296; lia|lia].
  replace (x + (2 ^ j - 1)) with (x + 2 ^ j - 1) by lia. rewrite <- up_mod by exact P.
  pose proof (up_bounds (2 ^ j) x P).
  rewrite (wrap_small 32 (up (2 ^ j) x - x)) by (change (2 ^ 32) with 4294967296; lia).
  rewrite wrap_small by (change (2 ^ 32) with 4294967296; lia). lia.
Qed.

Lemma bit_ok : forall k, 0 <= k <= 16 -> get_bit 32 (2 ^ k) = k.
Proof.
  intros k K. assert (k = 0 \/ k = 1 \/ k = 2 \/ k = 3 \/ k = 4 \/ k = 5 \/ k = 6 \/ k = 7 \/ k = 8 \/ k = 9 \/ k = 10 \/ k = 11 \/ k = 12 \/
    k = 13 \/ k = 14 \/ k = 15 \/ k = 16) as H by lia.
  repeat (destruct H as [H|H]; [subst; reflexivity|]). subst; reflexivity.
Qed.

(** ** Kinds *)

Lemma idx_type : forall t u, lname_idx t = lname_idx u -> lname_idx t <> 10 -> t = u.
Proof.
  intros t u. unfold lname_idx, T_ERROR. intros E N.
  repeat match goal with H : context [if ?x =? ?y then _ else _] |- _ => destruct (x =? y) eqn:?; try congruence; try lia end;
  repeat match goal with H : (_ =? _) = true |- _ => apply Z.eqb_eq in H end; congruence.
Qed.

Lemma so_idx : forall s, sound s -> idx s <> 10.
Proof.
  intros s [_ _ _ K _]. unfold idx. cbn [kinds In] in K.
  repeat (destruct K as [K|K]; [rewrite <- K; vm_compute; discriminate|]). destruct K.
Qed.

Lemma idx_range : forall t, lname_idx t <> 10 -> 0 <= lname_idx t <= 6.
Proof.
  intros t. unfold lname_idx, T_ERROR. intro N.
  repeat match goal with |- context [if ?x =? ?y then _ else _] => destruct (x =? y) end; try lia.
Qed.

(** ** Extents *)

Lemma extent_ge : forall r e, Forall (fun s => 0 <= p_align s <= 13 /\ 0 <= p_size s) r -> e + sizes r <= extent e r.
Proof.
  induction r as [|s r IH]; intros e F; [cbn; lia|]. inversion F as [|? ? [A B] G]; subst. cbn [extent sizes fold_right].
  specialize (IH (up (2 ^ p_align s) e + p_size s) G). fold (sizes r).
  pose proof (up_bounds (2 ^ p_align s) e (pow_pos (p_align s) ltac:(lia))). lia.
Qed.

Lemma sizes_nonneg : forall r, Forall (fun s => 0 <= p_align s <= 13 /\ 0 <= p_size s) r -> 0 <= sizes r.
Proof. induction r as [|s r IH]; intros F; [cbn; lia|]. inversion F as [|? ? [A B] G]; subst. cbn [sizes fold_right]. fold (sizes r). specialize (IH G). lia. Qed.

Lemma sized : forall r, Forall sound r -> Forall (fun s => 0 <= p_align s <= 13 /\ 0 <= p_size s) r.
Proof. intros r F. eapply Forall_impl; [|exact F]. intros s [A B _ _ _]. tauto. Qed.

(** ** Inside a section *)

Definition foff (b : bool) (f e : Z) : Z := if b then f else f + e.

Lemma place_in : forall k m r b f e i rest, 0 <= k <= m -> m <= 16 ->
  Forall sound r -> Forall (fun s => p_align s <= k) r -> Forall (fun s => idx s = i) r -> i <> 10 ->
  (2 ^ m | b) -> (2 ^ k | f) -> 0 <= b -> 0 <= f -> 0 <= e -> b + extent e r < LIM ->
  forall B, foff B f (extent e r) < LIM -> Forall (fun s => bss s = B) r ->
  place k (2 ^ m) false i (b + e) (foff B f e) (r ++ rest) =
  let '(t, z) := place k (2 ^ m) false i (b + extent e r) (foff B f (extent e r)) rest in
  (lay b f e r ++ t, z).
Proof.
  intros k m r. induction r as [|s r IH]; intros b f e i rest K M SO AL ID NI DB DF B0 F0 E0 BL B FL BB.
  - cbn [app lay extent]. destruct (place _ _ _ _ _ _ rest). reflexivity.
  - inversion SO as [|? ? S1 S2]; inversion AL as [|? ? A1 A2]; inversion ID as [|? ? I1 I2]; inversion BB as [|? ? B1 B2]; subst.
    pose proof (so_idx s S1) as SI. destruct S1 as [SA SS SL SK SB].
    assert (PA : 0 < 2 ^ p_align s) by (apply pow_pos; lia).
    pose proof (up_bounds (2 ^ p_align s) e PA) as UB.
    assert (D1 : (2 ^ p_align s | b)) by (eapply Z.divide_trans; [|exact DB]; apply pow_div; lia).
    assert (D2 : (2 ^ p_align s | f)) by (eapply Z.divide_trans; [|exact DF]; apply pow_div; lia).
    assert (EG := extent_ge r (up (2 ^ p_align s) e + p_size s) (sized r S2)).
    assert (SN := sizes_nonneg r (sized r S2)).
    cbn [extent] in BL, FL. unfold foff in FL.
    cbn [app place lay extent].
    assert (N1 : (idx s =? T_ERROR) = false) by (apply Z.eqb_neq; exact SI).
    rewrite N1, Z.eqb_refl. cbn [orb negb].
    rewrite Z.gtb_ltb. assert (G0 : (p_align s <? 0) = false) by (apply Z.ltb_ge; lia). rewrite G0.
    rewrite !Z.shiftl_1_l.
    assert (LOC : (if true && existsb (fun c => c =? 36) (p_name s) then 0 else p_loc s) = 0) by (rewrite SL; destruct (true && existsb (fun c => c =? 36) (p_name s)); reflexivity).
    cbv zeta. rewrite LOC.
    rewrite round_ok by (unfold LIM in *; lia). rewrite up_shift by assumption.
    assert (FO : foff (bss s) f e < LIM /\ 0 <= foff (bss s) f e) by (unfold foff; destruct (bss s); lia).
    rewrite file_ok by (unfold LIM in *; lia).
    assert (UF : up (2 ^ p_align s) (foff (bss s) f e) = foff (bss s) f (up (2 ^ p_align s) e)).
    { unfold foff. destruct (bss s); [apply up_of_divide; assumption|apply up_shift; assumption]. }
    rewrite UF. rewrite !Z.sub_0_r.
    assert (W1 : wrap 32 (b + up (2 ^ p_align s) e + p_size s) = b + (up (2 ^ p_align s) e + p_size s)).
    { rewrite wrap_small; [lia|]. unfold LIM in *. change (2 ^ 31) with 2147483648 in *. change (2 ^ 32) with 4294967296. lia. }
    rewrite W1.
    assert (W2 : (if p_type s =? T_BSS then foff (bss s) f (up (2 ^ p_align s) e)
                  else wrap 32 (foff (bss s) f (up (2 ^ p_align s) e) + p_size s)) = foff (bss s) f (up (2 ^ p_align s) e + p_size s)).
    { unfold foff, bss. destruct (p_type s =? T_BSS) eqn:TB0; [reflexivity|]. rewrite wrap_small; [lia|].
      unfold LIM, bss in *. rewrite TB0 in FL. change (2 ^ 31) with 2147483648 in *. change (2 ^ 32) with 4294967296. lia. }
    rewrite W2.
    rewrite (IH b f (up (2 ^ p_align s) e + p_size s) (idx s) rest) by (assumption || lia).
    destruct (place k (2 ^ m) false (idx s) _ _ rest) as [t z].
    unfold foff. destruct (bss s); reflexivity.
Qed.

(** ** Sections *)

(** [runs] by the number of the kind. *)
Fixpoint iruns (l : list seg) : list (list seg) :=
  match l with
  | [] => []
  | s :: r =>
      match iruns r with
      | (x :: g) :: t => if idx s =? idx x then (s :: x :: g) :: t else [s] :: (x :: g) :: t
      | t => [s] :: t
      end
  end.

(** The kinds ascend. *)
Fixpoint chain (i : Z) (R : list (list seg)) : Prop :=
  match R with
  | [] => True
  | r :: R => match r with
              | [] => False
              | s :: t => i < idx s /\ Forall (fun x => idx x = idx s) t /\ chain (idx s) R
              end
  end.

Fixpoint ascending (i : Z) (l : list seg) : Prop :=
  match l with [] => True | s :: r => i <= idx s /\ ascending (idx s) r end.

Lemma iruns_concat : forall l, concat (iruns l) = l.
Proof.
  induction l as [|s l IH]; [reflexivity|]. cbn [iruns]. destruct (iruns l) as [|[|x g] t]; cbn [concat app] in *; [congruence|congruence|].
  destruct (idx s =? idx x); cbn [concat app]; congruence.
Qed.

Lemma chain_runs : forall l i, (match l with s :: _ => i < idx s | [] => True end) ->
  ascending (match l with s :: _ => idx s | [] => 0 end) l -> chain i (iruns l).
Proof.
  induction l as [|s l IH]; intros i H A; [exact Logic.I|]. cbn [ascending] in A. destruct A as [_ A]. cbn [iruns].
  destruct l as [|x l].
  - cbn. split; [exact H|]. split; constructor.
  - pose proof A as A0. cbn [ascending] in A0. destruct A0 as [AX A0].
    assert (CH : chain (idx x - 1) (iruns (x :: l))) by (apply IH; [lia|]; cbn [ascending]; split; [lia|exact A0]).
    pose proof (iruns_concat (x :: l)) as CC.
    destruct (iruns (x :: l)) as [|[|y g] t]; [cbn in CC; discriminate|destruct CH|].
    cbn [concat app] in CC. injection CC as CC1 CC2. subst y. destruct CH as (C1 & C2 & C3).
    destruct (idx s =? idx x) eqn:E.
    + apply Z.eqb_eq in E. cbn [chain]. rewrite E. split; [lia|]. split; [constructor; [reflexivity|exact C2]|exact C3].
    + apply Z.eqb_neq in E. cbn [chain]. split; [exact H|]. split; [constructor|]. split; [lia|]. split; [exact C2|exact C3].
Qed.

Lemma runs_eq : forall l, Forall sound l -> runs l = iruns l.
Proof.
  induction l as [|s l IH]; intro F; [reflexivity|]. inversion F as [|? ? S1 S2]; subst. cbn [runs iruns]. rewrite (IH S2).
  pose proof (iruns_concat l) as C. destruct (iruns l) as [|[|x g] t]; try reflexivity. cbn [concat app] in C. rewrite <- C in S2. inversion S2 as [|? ? X1 X2]; subst.
  assert (E : (p_type s =? p_type x) = (idx s =? idx x)); [|rewrite E; reflexivity].
  destruct (idx s =? idx x) eqn:E.
  - apply Z.eqb_eq in E. apply Z.eqb_eq. apply idx_type; [exact E|]. apply so_idx. exact S1.
  - apply Z.eqb_neq in E. apply Z.eqb_neq. unfold idx in E. congruence.
Qed.

Definition alone (x : Z * Z * list seg) : list placed := let '(b, f, r) := x in lay b f 0 r.

Definition okrun (k : Z) (r : list seg) : Prop := Forall sound r /\ Forall (fun s => p_align s <= k) (tl r).

Lemma max_pow : forall k a, 0 <= k -> 0 <= a -> Z.max (2 ^ k) (2 ^ a) = 2 ^ (Z.max k a).
Proof.
  intros k a K A. destruct (Z.max_spec k a) as [[L E]|[L E]]; rewrite E.
  - apply Z.max_r. apply pow_le. lia.
  - apply Z.max_l. apply pow_le. lia.
Qed.

Lemma run_bss : forall s t, Forall (fun x => idx x = idx s) t -> idx s <> 10 -> Forall (fun x => bss x = bss s) t.
Proof.
  intros s t F N. eapply Forall_impl; [|exact F]. intros x X. unfold bss. unfold idx in X. rewrite (idx_type (p_type x) (p_type s)); [reflexivity|exact X|]. rewrite X. exact N.
Qed.

Lemma extent_nonneg : forall r, Forall sound r -> 0 <= extent 0 r.
Proof. intros r F. pose proof (extent_ge r 0 (sized r F)). pose proof (sizes_nonneg r (sized r F)). lia. Qed.

Lemma ends_ge : forall k m R b f, 0 <= k -> 0 <= m -> Forall (okrun k) R ->
  b <= fst (ends (2 ^ k) (2 ^ m) b f R) /\ f <= snd (ends (2 ^ k) (2 ^ m) b f R).
Proof.
  intros k m. induction R as [|r R IH]; intros b f K M O0; [cbn; lia|]. inversion O0 as [|? ? [O1 O2] O3]; subst.
  cbn [ends]. cbv zeta.
  set (a := Z.max (2 ^ k) _). assert (A : 0 < a) by (unfold a; pose proof (pow_pos k K); lia).
  specialize (IH (up (2 ^ m) b + extent 0 r) (if is_bss r then up a f else up a f + extent 0 r) K M O3).
  pose proof (extent_nonneg r O1). pose proof (up_bounds (2 ^ m) b (pow_pos m M)). pose proof (up_bounds a f A).
  destruct (is_bss r); lia.
Qed.

Definition last_idx (i : Z) (R : list (list seg)) : Z := fold_left (fun i r => match r with s :: _ => idx s | [] => i end) R i.

Lemma place_new : forall k m s first i b f r, 0 <= k <= m -> m <= 16 -> sound s -> i <> idx s -> 0 <= b < LIM -> 0 <= f < LIM ->
  up (2 ^ m) b + p_size s < LIM -> foff (bss s) (up (2 ^ (Z.max k (p_align s))) f) (p_size s) < LIM ->
  place k (2 ^ m) first i b f (s :: r) =
  let '(t, z) := place k (2 ^ m) false (idx s) (up (2 ^ m) b + p_size s) (foff (bss s) (up (2 ^ (Z.max k (p_align s))) f) (p_size s)) r in
  ({| q_s := s; q_rva := up (2 ^ m) b; q_fo := up (2 ^ (Z.max k (p_align s))) f; q_loc := 0 |} :: t, z).
Proof.
  intros k m s first i b f r K M SO0 NI B0 F0 BL FL. destruct SO0 as [SA SS SL SK SB]. cbn [place].
  assert (NW : ((idx s =? T_ERROR) || negb (idx s =? i)) = true).
  { assert (E : (idx s =? i) = false) by (apply Z.eqb_neq; congruence). rewrite E. apply orb_true_r. }
  rewrite NW. cbv zeta. rewrite Z.gtb_ltb.
  assert (MX : (if p_align s <? k then k else p_align s) = Z.max k (p_align s)).
  { destruct (p_align s <? k) eqn:E; [apply Z.ltb_lt in E|apply Z.ltb_ge in E]; lia. }
  rewrite MX, Z.shiftl_1_l.
  assert (LOC : (if negb first && existsb (fun c => c =? 36) (p_name s) then 0 else p_loc s) = 0) by (rewrite SL; destruct (negb first && existsb (fun c => c =? 36) (p_name s)); reflexivity).
  rewrite LOC, round_ok, file_ok, !Z.sub_0_r by lia.
  pose proof (up_bounds (2 ^ m) b (pow_pos m ltac:(lia))).
  pose proof (up_bounds (2 ^ (Z.max k (p_align s))) f (pow_pos (Z.max k (p_align s)) ltac:(lia))).
  rewrite (wrap_small 32 (up (2 ^ m) b + p_size s)) by (unfold LIM in *; change (2 ^ 31) with 2147483648 in *; change (2 ^ 32) with 4294967296; lia).
  unfold foff, bss in *. destruct (p_type s =? T_BSS); [reflexivity|].
  rewrite (wrap_small 32 (up (2 ^ (Z.max k (p_align s))) f + p_size s)) by (unfold LIM in *; change (2 ^ 31) with 2147483648 in *; change (2 ^ 32) with 4294967296; lia).
  reflexivity.
Qed.

Lemma up_zero2 : forall s, 0 <= p_align s -> up (2 ^ p_align s) 0 = 0.
Proof. intros. apply up_zero. apply pow_pos. assumption. Qed.

Lemma place_first : forall k ma i b f s r, p_loc s = 0 -> place k ma true i b f (s :: r) = place k ma false i b f (s :: r).
Proof. intros k ma i b f s r H. cbn [place]. rewrite H. cbn [negb andb]. destruct (existsb _ (p_name s)); reflexivity. Qed.

Lemma place_ok : forall k m R i b f rest, 0 <= k <= m -> m <= 16 -> chain i R -> Forall (okrun k) R ->
  0 <= b -> 0 <= f -> fst (ends (2 ^ k) (2 ^ m) b f R) < LIM -> snd (ends (2 ^ k) (2 ^ m) b f R) < LIM ->
  place k (2 ^ m) false i b f (concat R ++ rest) =
  let '(b', f') := ends (2 ^ k) (2 ^ m) b f R in
  let '(t, z) := place k (2 ^ m) false (last_idx i R) b' f' rest in
  (flat_map alone (bases (2 ^ k) (2 ^ m) b f R) ++ t, z).
Proof.
  intros k m. induction R as [|r R IH]; intros i b f rest K M CH OK B0 F0 BL FL.
  - cbn [concat app ends bases flat_map last_idx fold_left]. destruct (place k (2 ^ m) false i b f rest); reflexivity.
  - destruct r as [|s t]; [destruct CH|]. destruct CH as (C1 & C2 & C3).
    inversion OK as [|? ? [O1 O2] O3]; subst. cbn [tl] in O2. inversion O1 as [|? ? S1 S2]; subst.
    cbn [ends bases concat flat_map last_idx fold_left] in *. cbv zeta in BL, FL |- *.
    fold (last_idx (idx s) R).
    pose proof (so_align s S1) as SA. pose proof (so_size s S1) as SS.
    rewrite max_pow in * by lia.
    set (B := up (2 ^ m) b) in *. set (F := up (2 ^ Z.max k (p_align s)) f) in *.
    pose proof (up_bounds (2 ^ m) b (pow_pos m ltac:(lia))) as UB. fold B in UB.
    pose proof (up_bounds (2 ^ Z.max k (p_align s)) f (pow_pos (Z.max k (p_align s)) ltac:(lia))) as UF. fold F in UF.
    cbn [is_bss] in *.
    set (E := extent 0 (s :: t)) in *.
    assert (EE : E = extent (p_size s) t) by (unfold E; cbn [extent]; rewrite up_zero2 by lia; reflexivity).
    assert (EP : p_size s + sizes t <= E) by (rewrite EE; apply extent_ge; eapply sized; exact S2).
    assert (SN : 0 <= sizes t) by (apply sizes_nonneg; eapply sized; exact S2).
    assert (IE : (if bss s then F else F + E) = foff (bss s) F E) by reflexivity.
    rewrite IE in *.
    destruct (ends_ge k m R (B + E) (foff (bss s) F E) ltac:(lia) ltac:(lia) O3) as [G1 G2].
    cbn [app]. rewrite <- app_assoc.
    rewrite place_new; [|assumption..|lia|lia|unfold foff in *; destruct (bss s); lia|lia|unfold foff in *; destruct (bss s); lia].
    fold B F.
    rewrite (place_in k m t B F (p_size s) (idx s) (concat R ++ rest)) with (B := bss s);
      [|assumption..|apply (so_idx s S1)|apply up_divide| |lia|lia|lia|rewrite <- EE; lia|rewrite <- EE; lia|apply run_bss; [exact C2|apply (so_idx s S1)]].
    2:{ eapply Z.divide_trans; [|apply up_divide]. apply pow_div. lia. }
    rewrite <- EE. rewrite IH; [|assumption..|lia|unfold foff; destruct (bss s); lia|assumption|assumption].
    destruct (ends (2 ^ k) (2 ^ m) (B + E) (foff (bss s) F E) R) as [b' f'].
    destruct (place k (2 ^ m) false (last_idx (idx s) R) b' f' rest) as [u z].
    cbn [alone lay]. rewrite up_zero2 by lia. rewrite !Z.add_0_r, Z.add_0_l. rewrite <- app_assoc. cbn [app].
    destruct (bss s); reflexivity.
Qed.
