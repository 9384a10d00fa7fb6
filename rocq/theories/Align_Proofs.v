From Verif Require Import Base Align_Model Align_Spec.

Definition mode_of (o : ofssize) : mode := match o with USE16 => M16 | USE32 => M32 | USE64 => M64 end.
Definition mx (o : ofssize) : nat := match o with USE16 => 3 | _ => 7 end.

(** the k-byte NOP of each table is one instruction without effect *)
Definition pattern (o : ofssize) (k : nat) : list Z :=
  match o, k with
  | USE16, 1%nat => [0x90] | USE16, 2%nat => [0x8b; 0xc0] | USE16, 3%nat => [0x2e; 0x8b; 0xc0]
  | USE32, 1%nat => [0x90] | USE32, 2%nat => [0x8b; 0xff] | USE32, 3%nat => [0x8d; 0x40; 0]
  | USE32, 4%nat => [0x8d; 0x44; 0x20; 0] | USE32, 5%nat => [0x2e; 0x8d; 0x44; 0x20; 0]
  | USE32, 6%nat => [0x8d; 0x80; 0; 0; 0; 0] | USE32, 7%nat => [0x8d; 0xa4; 0x24; 0; 0; 0; 0]
  | USE64, 1%nat => [0x90] | USE64, 2%nat => [0x66; 0x90] | USE64, 3%nat => [0x0f; 0x1f; 0]
  | USE64, 4%nat => [0x0f; 0x1f; 0x40; 0] | USE64, 5%nat => [0x0f; 0x1f; 0x44; 0; 0]
  | USE64, 6%nat => [0x66; 0x0f; 0x1f; 0x44; 0; 0] | USE64, 7%nat => [0x0f; 0x1f; 0x80; 0; 0; 0; 0]
  | _, _ => []
  end.

Lemma pattern_length o k : (1 <= k <= mx o)%nat -> length (pattern o k) = k.
Proof. intros H. destruct o; cbn [mx] in H; destruct k as [|[|[|[|[|[|[|[|k]]]]]]]]; try lia; reflexivity. Qed.

Lemma mod_add_0 v m : 0 <= v < m -> (v + 0) mod m = v.
Proof. intros. rewrite Z.add_0_r. apply Z.mod_small; assumption. Qed.

Lemma pattern_exec o k rest : (1 <= k <= mx o)%nat ->
  exists e, decode (mode_of o) (pattern o k ++ rest) = Some (e, rest) /\
    forall r, regs_ok (mode_of o) r -> forall x, apply (mode_of o) e r x = r x.
Proof.
  intros H. destruct o; cbn [mx] in H; destruct k as [|[|[|[|[|[|[|[|k]]]]]]]]; try lia;
    (eexists; split; [vm_compute; reflexivity|]; intros r R x; cbn [apply mode_of];
     try reflexivity;
     match goal with |- (if x =? ?d then _ else _) = _ => destruct (Z.eqb_spec x d) as [->|]; [|reflexivity] end;
     try reflexivity; apply mod_add_0; apply R).
Qed.

Lemma nop_bytes_pattern o k : (1 <= k <= mx o)%nat ->
  (let '(t, i) := nop_index (Z.to_nat (nth 0 (NopLists o) 0)) (Z.of_nat k) 1 in nop_bytes (NopLists o) i t) = Ok (pattern o k).
Proof.
  intros H. destruct o; cbn [mx] in H; destruct k as [|[|[|[|[|[|[|[|k]]]]]]]]; try lia; vm_compute; reflexivity.
Qed.
Lemma nop_bytes_full o : nop_bytes (NopLists o) 1 (Z.to_nat (nth 0 (NopLists o) 0)) = Ok (pattern o (mx o)).
Proof. destruct o; reflexivity. Qed.
Lemma nop_head o : nth 0 (NopLists o) 0 = Z.of_nat (mx o).
Proof. destruct o; reflexivity. Qed.

Lemma run_ext m l : forall fuel r r', (forall x, r x = r' x) ->
  match run fuel m l r, run fuel m l r' with
  | Some a, Some b => forall x, a x = b x
  | None, None => True
  | _, _ => False
  end.
Proof.
  intros fuel. revert l. induction fuel as [|fuel IH]; intros l r r' E.
  - destruct l; cbn [run]; auto.
  - destruct l as [|b l]; cbn [run]; [exact E|]. destruct (decode m (b :: l)) as [[e l']|]; [|exact I].
    apply IH. intros x. destruct e; cbn [apply]; [apply E|..]; destruct (x =? d); rewrite ?E; reflexivity.
Qed.
Lemma run_more m : forall fuel l r, (fuel >= length l)%nat -> forall fuel', (fuel' >= fuel)%nat ->
  run fuel m l r <> None -> run fuel' m l r = run fuel m l r.
Proof.
  induction fuel as [|fuel IH]; intros l r F fuel' F' N.
  - destruct l; [destruct fuel'; reflexivity|cbn [length] in F; lia].
  - destruct fuel' as [|fuel']; [lia|]. destruct l as [|b l]; [reflexivity|]. cbn [run] in *.
    destruct (decode m (b :: l)) as [[e l']|] eqn:D; [|reflexivity].
    clear IH. revert N. generalize (apply m e r). clear -F'. revert fuel' F' l'.
    induction fuel as [|fuel IH]; intros fuel' F' l' r N.
    + destruct l'; [destruct fuel'; reflexivity|]. cbn [run] in N. congruence.
    + destruct fuel' as [|fuel']; [lia|]. destruct l' as [|b l']; [reflexivity|]. cbn [run] in *.
      destruct (decode m (b :: l')) as [[e2 l2]|]; [|reflexivity]. apply IH; [lia|exact N].
Qed.

Lemma exec_nil m : executable_padding m [].
Proof. intros r _. exists r. split; [reflexivity|auto]. Qed.
Lemma exec_cons o k l : (1 <= k <= mx o)%nat -> executable_padding (mode_of o) l ->
  executable_padding (mode_of o) (pattern o k ++ l).
Proof.
  intros K H r R. destruct (pattern_exec o k l K) as (e & D & A).
  pose proof (pattern_length o k K) as PL. rewrite app_length, PL.
  destruct (k + length l)%nat as [|n] eqn:N; [lia|].
  destruct (pattern o k ++ l) as [|b t] eqn:E.
  { apply (f_equal (@length Z)) in E. rewrite app_length, PL in E. cbn in E. lia. }
  cbn [run]. rewrite D.
  assert (R2 : regs_ok (mode_of o) (apply (mode_of o) e r)) by (intros x; rewrite A by exact R; apply R).
  destruct (H _ R2) as (r' & E1 & E2).
  rewrite (run_more _ (length l)) by (try lia; congruence).
  exists r'. split; [exact E1|]. intros x. rewrite E2. apply A. exact R.
Qed.

Lemma nop_fill_ok o : forall fuel size, 0 <= size < Z.of_nat fuel ->
  exists l, nop_fill fuel (NopLists o) size = Ok l /\ zlen l = size /\ executable_padding (mode_of o) l.
Proof.
  induction fuel as [|fuel IH]; intros size S; [lia|]. cbn [nop_fill]. cbv zeta. rewrite nop_head.
  assert (M : (1 <= mx o <= 7)%nat) by (destruct o; cbn; lia).
  destruct (size >? Z.of_nat (mx o)) eqn:G.
  - destruct (IH (size - Z.of_nat (mx o))) as (l & E & L & X); [lia|].
    pose proof (nop_bytes_full o) as NF. rewrite nop_head in NF. rewrite NF. cbn [bindr]. rewrite E. cbn [bindr].
    exists (pattern o (mx o) ++ l). split; [reflexivity|]. split.
    + rewrite zlen_app, L. unfold zlen. rewrite pattern_length by lia. lia.
    + apply exec_cons; [lia|exact X].
  - destruct (size =? 0) eqn:Z0.
    + exists []. split; [reflexivity|]. split; [rewrite (@zlen_nil Z); lia|apply exec_nil].
    + pose proof (nop_bytes_pattern o (Z.to_nat size) ltac:(lia)) as NB. rewrite nop_head in NB.
      rewrite Z2Nat.id in NB by lia. rewrite NB.
      exists (pattern o (Z.to_nat size)). split; [reflexivity|]. split.
      * unfold zlen. rewrite pattern_length by lia. lia.
      * rewrite <- (app_nil_r (pattern o (Z.to_nat size))). apply exec_cons; [lia|apply exec_nil].
Qed.

Definition filler_len (f : filler) : Z := match f with Skip n => n | Emit l => zlen l end.
Definition filler_ok (o : ofssize) (s : seg) (f : filler) : Prop :=
  match f with
  | Skip _ => written s = false
  | Emit l => if is_code s then executable_padding (mode_of o) l else Forall (fun b => b = 0) l
  end.

Lemma fill_ok o s size : 0 <= size -> exists f, fill_in_objfile_space o s size = Ok f /\ filler_len f = size /\ filler_ok o s f.
Proof.
  intros S. unfold fill_in_objfile_space. destruct (written s) eqn:W; cbn [negb].
  - destruct (is_code s) eqn:C; cbn [negb].
    + destruct (nop_fill_ok o (Datatypes.S (Z.to_nat size)) size) as (l & E & L & X); [lia|].
      rewrite E. cbn [bindr]. exists (Emit l). split; [reflexivity|]. split; [exact L|]. cbn [filler_ok]. rewrite C. exact X.
    + exists (Emit (repeat 0 (Z.to_nat size))). split; [reflexivity|]. cbn [filler_len filler_ok]. rewrite C. split.
      * unfold zlen. rewrite repeat_length. lia.
      * apply Forall_forall. intros x I. apply repeat_spec in I. exact I.
  - exists (Skip size). split; [reflexivity|]. split; [reflexivity|exact W].
Qed.

Lemma align_step o s a : 0 < a -> 0 <= loc s ->
  exists f, (if negb (loc s mod a =? 0) then fill_in_objfile_space o s (a - loc s mod a) else Ok (Emit [])) = Ok f /\
    0 <= filler_len f < a /\ (loc s + filler_len f) mod a = 0 /\ filler_ok o s f.
Proof.
  intros A L. pose proof (Z.mod_pos_bound (loc s) a A) as B.
  destruct (loc s mod a =? 0) eqn:Z0; cbn [negb].
  - exists (Emit []). split; [reflexivity|]. cbn [filler_len]. rewrite (@zlen_nil Z), Z.add_0_r.
    split; [lia|]. split; [lia|]. cbn [filler_ok]. destruct (is_code s); [apply exec_nil|apply Forall_nil].
  - destruct (fill_ok o s (a - loc s mod a)) as (f & E & FL & FO); [lia|].
    exists f. split; [exact E|]. rewrite FL. split; [lia|]. split; [|exact FO].
    rewrite (Z.div_mod (loc s) a) at 1 by lia.
    replace (a * (loc s / a) + loc s mod a + (a - loc s mod a)) with ((loc s / a + 1) * a) by ring.
    apply Z.mod_mul. lia.
Qed.

Lemma power_loop_spec n : forall k v, 0 <= k -> Z.of_nat n + k = 30 ->
  (v <= 2 ^ 30 -> exists j, k <= j <= 30 /\ power_loop n (2 ^ k) v = Ok (2 ^ j) /\ (2 ^ j = v \/ v <= 2 ^ j /\ (j = k \/ 2 ^ (j - 1) < v))) /\
  (v > 2 ^ 30 -> power_loop n (2 ^ k) v = UB).
Proof.
  induction n as [|n IH]; intros k v K N; cbn [power_loop].
  - assert (k = 30) by lia. subst k. split; intros V.
    + replace (2 ^ 30 <? v) with false by lia. exists 30. split; [lia|]. split; [reflexivity|]. right. lia.
    + replace (2 ^ 30 <? v) with true by lia. reflexivity.
  - assert (P : Z.shiftl (2 ^ k) 1 = 2 ^ (k + 1)).
    { rewrite Z.shiftl_mul_pow2 by lia. rewrite Z.pow_add_r by lia. reflexivity. }
    destruct (IH (k + 1) v ltac:(lia) ltac:(lia)) as [A B].
    assert (LE : 2 ^ k <= 2 ^ 30) by (apply Z.pow_le_mono_r; lia).
    destruct (2 ^ k <? v) eqn:E; rewrite ?P.
    + split; intros V.
      * destruct (A V) as (j & J & Q & D). exists j. split; [lia|]. split; [exact Q|].
        destruct D as [D|[D1 [->|D2]]]; [left; exact D|right|right].
        -- split; [exact D1|]. right. replace (k + 1 - 1) with k by lia. lia.
        -- split; [exact D1|]. right. exact D2.
      * apply B. exact V.
    + split; intros V; [|lia]. exists k. split; [lia|]. split; [reflexivity|]. right. lia.
Qed.

Lemma power_accepts v : (exists j, 0 <= j <= 30 /\ v = 2 ^ j) ->
  bindr (power_loop 30 1 v) (fun p => if negb (p =? v) then Err else Ok v) = Ok v.
Proof.
  intros (j & J & ->). pose proof (Z.pow_le_mono_r 2 j 30 ltac:(lia) ltac:(lia)) as LE.
  destruct (power_loop_spec 30 0 (2 ^ j) ltac:(lia) ltac:(lia)) as [A _].
  destruct (A LE) as (i & I & E & D). change (2 ^ 0) with 1 in E. rewrite E. cbn [bindr].
  assert (X : 2 ^ i = 2 ^ j).
  { destruct D as [D|[D1 [D2|D2]]]; [exact D| |].
    - subst i. change (2 ^ 0) with 1 in *. pose proof (pow2_pos j ltac:(lia)). lia.
    - assert (j <= i) by (apply Z.pow_le_mono_r_iff with (a := 2); lia).
      assert (i - 1 < j) by (apply Z.pow_lt_mono_r_iff with (a := 2); lia).
      replace i with j by lia. reflexivity. }
  rewrite X, Z.eqb_refl. reflexivity.
Qed.
Lemma power_rejects v : v <= 2 ^ 30 -> (forall j, 0 <= j -> v <> 2 ^ j) ->
  bindr (power_loop 30 1 v) (fun p => if negb (p =? v) then Err else Ok v) = Err.
Proof.
  intros LE N. destruct (power_loop_spec 30 0 v ltac:(lia) ltac:(lia)) as [A _].
  destruct (A LE) as (i & I & E & _). change (2 ^ 0) with 1 in E. rewrite E. cbn [bindr].
  destruct (Z.eqb_spec (2 ^ i) v) as [X|X]; cbn [negb]; [|reflexivity]. exfalso. apply (N i); lia.
Qed.
Lemma power_overflows v : v > 2 ^ 30 ->
  bindr (power_loop 30 1 v) (fun p => if negb (p =? v) then Err else Ok v) = UB.
Proof.
  intros G. destruct (power_loop_spec 30 0 v ltac:(lia) ltac:(lia)) as [_ B].
  change (2 ^ 0) with 1 in B. rewrite (B G). reflexivity.
Qed.

(** ** The directive *)
Definition seg_ok (s : seg) : Prop := 0 <= loc s < 2 ^ 32 /\ (0 <= alignment s <= 30 \/ alignment s = 0xff).
(** the alignment of the segment in bytes, page aligned ABS segments counting as 64 *)
Definition seg_bytes (s : seg) : Z := if alignment s =? 0xff then 64 else 2 ^ alignment s.
(** the number of bytes asked for *)
Definition asked (s : seg) (a : align_arg) : Z :=
  match a with ArgConst v => v | ArgEmpty => seg_bytes s | ArgEven => 2 end.

Lemma swrap_small b v : 0 < b -> - 2 ^ (b - 1) <= v < 2 ^ (b - 1) -> swrap b v = v.
Proof.
  intros B V. unfold swrap. assert (P : 2 ^ b = 2 * 2 ^ (b - 1)).
  { rewrite <- Z.pow_succ_r by lia. f_equal. lia. }
  rewrite P. rewrite Z.mod_small by lia. lia.
Qed.

Lemma seg_align_val s : seg_ok s -> GetCurrSegAlign s = seg_bytes s /\ 1 <= seg_bytes s <= 2 ^ 30.
Proof.
  intros [_ A]. unfold GetCurrSegAlign, seg_bytes, MAX_SEGALIGNMENT.
  destruct (alignment s =? 0xff) eqn:E; [split; [reflexivity|lia]|].
  assert (0 <= alignment s <= 30) by lia.
  pose proof (Z.pow_le_mono_r 2 (alignment s) 30 ltac:(lia) ltac:(lia)).
  pose proof (pow2_pos (alignment s) ltac:(lia)).
  rewrite Z.shiftl_1_l. split; [|lia]. unfold wrap. apply Z.mod_small. lia.
Qed.

Lemma align_directive_ok md o s a : seg_ok s ->
  (exists j, 0 <= j <= 30 /\ asked s a = 2 ^ j) ->
  (flat_grp md = None -> pass1 md = false \/ asked s a <= seg_bytes s) ->
  exists w f, AlignDirective md o s a = Ok (w, f) /\
    0 <= filler_len f < asked s a /\ (loc s + filler_len f) mod asked s a = 0 /\ filler_ok o s f /\
    (w = true <-> pass1 md = true /\ flat_grp md = Some false /\ o <> USE64 /\ asked s a > seg_bytes s).
Proof.
  intros SO (j & J & AJ) FG. destruct (seg_align_val s SO) as [GV GB]. destruct SO as [L _].
  pose proof (Z.pow_le_mono_r 2 j 30 ltac:(lia) ltac:(lia)) as LE.
  pose proof (pow2_pos j ltac:(lia)) as PP.
  assert (A : 1 <= asked s a <= 1073741824) by (rewrite AJ; change 1073741824 with (2 ^ 30); lia).
  change (2 ^ 30) with 1073741824 in GB.
  assert (V : align_value_of s a = Ok (asked s a)).
  { destruct a as [v| |]; cbn [asked align_value_of] in *.
    - cbv zeta. rewrite (swrap_small 32 v) by (change (2 ^ (32 - 1)) with 2147483648; lia).
      apply power_accepts. exists j. auto.
    - rewrite GV, (swrap_small 32) by (change (2 ^ (32 - 1)) with 2147483648; lia). reflexivity.
    - reflexivity. }
  unfold AlignDirective. rewrite V. cbn [bindr].
  rewrite GV, (swrap_small 32 (seg_bytes s)) by (change (2 ^ (32 - 1)) with 2147483648; lia).
  replace (seg_bytes s <=? 0) with false by lia.
  assert (T : exists w, too_high md o (asked s a) (seg_bytes s) = Ok w /\
    (w = true <-> pass1 md = true /\ flat_grp md = Some false /\ o <> USE64 /\ asked s a > seg_bytes s)).
  { unfold too_high. destruct (asked s a >? seg_bytes s) eqn:G; [|exists false; split; [reflexivity|]; split; [discriminate|lia]].
    destruct (pass1 md) eqn:P1; [|exists false; split; [reflexivity|]; split; [discriminate|intros [X _]; discriminate]].
    destruct (flat_grp md) as [[|]|] eqn:F.
    - exists false. split; [destruct o; reflexivity|]. split; [discriminate|]. intros (_ & X & _). discriminate.
    - eexists. split; [reflexivity|]. cbn [negb andb]. destruct o; split; try discriminate; auto; try (intros _; repeat split; try discriminate; lia); intros (_ & _ & X & _); congruence.
    - exfalso. destruct (FG eq_refl); [discriminate|lia]. }
  destruct T as (w & T & TW). rewrite T. cbn [bindr]. cbv zeta.
  replace (wrap 32 (asked s a)) with (asked s a) by (unfold wrap; rewrite Z.mod_small; [reflexivity|change (2 ^ 32) with 4294967296; lia]).
  destruct (align_step o s (asked s a) ltac:(lia) ltac:(lia)) as (f & E & B1 & B2 & B3).
  exists w, f. split; [|auto].
  destruct (negb (loc s mod asked s a =? 0)).
  - rewrite E. reflexivity.
  - injection E as <-. reflexivity.
Qed.

Lemma align_directive_rejects md o s v : seg_ok s -> - 2 ^ 31 <= v <= 2 ^ 30 -> (forall j, 0 <= j -> v <> 2 ^ j) ->
  AlignDirective md o s (ArgConst v) = Err.
Proof.
  intros SO V N. unfold AlignDirective, align_value_of. cbv zeta.
  rewrite (swrap_small 32 v) by (change (2 ^ (32 - 1)) with 2147483648; change (2 ^ 31) with 2147483648 in V; change (2 ^ 30) with 1073741824 in V; lia).
  rewrite power_rejects by (auto; lia). reflexivity.
Qed.

Lemma align_curr_ok o s k : 0 <= loc s -> 0 <= k <= 30 ->
  exists f, AlignCurrOffset o s k = Ok f /\
    0 <= filler_len f < 2 ^ k /\ (loc s + filler_len f) mod 2 ^ k = 0 /\ filler_ok o s f.
Proof.
  intros L K. unfold AlignCurrOffset. replace ((k <? 0) || (k >? 30)) with false by lia. cbv zeta.
  rewrite Z.shiftl_1_l. apply align_step; [apply pow2_pos; lia|exact L].
Qed.
