From Verif Require Import Base Expr_Spec Expr_Model ExprRun_Spec.

(** * Fuel *)
Definition runs (F : nat -> ev) (R : ev) : Prop := R <> Fuel /\ exists n, F n = R.
Definition mono (F : nat -> ev) : Prop := forall n m R, (n <= m)%nat -> F n = R -> R <> Fuel -> F m = R.

Lemma bind_mono : forall (F F' : ev) (G G' : opnd -> list tok -> ev) R,
  R <> Fuel -> (F <> Fuel -> F' = F) -> (forall e r, G e r <> Fuel -> G' e r = G e r) -> bind F G = R -> bind F' G' = R.
Proof.
  intros F F' G G' R HR HF HG H. destruct F as [e r| | |].
  - rewrite HF by discriminate. cbn in *. rewrite HG; [exact H|rewrite H; exact HR].
  - rewrite HF by discriminate. exact H.
  - rewrite HF by discriminate. exact H.
  - cbn in H. congruence.
Qed.

Lemma fuel_step : forall n,
  (forall m510 one a ts R, evaluate n m510 one a ts = R -> R <> Fuel -> evaluate (S n) m510 one a ts = R)
  /\ (forall m510 one a ts R, oploop n m510 one a ts = R -> R <> Fuel -> oploop (S n) m510 one a ts = R)
  /\ (forall m510 op ts R, operand n m510 op ts = R -> R <> Fuel -> operand (S n) m510 op ts = R)
  /\ (forall m510 p b ts R, absorb n m510 p b ts = R -> R <> Fuel -> absorb (S n) m510 p b ts = R).
Proof.
  induction n as [|n (I1 & I2 & I3 & I4)].
  - repeat apply conj; intros; cbn in H; congruence.
  - repeat apply conj.
    + intros m510 one a ts R H HR.
      change (evaluate (S n) m510 one a ts) with
        (match a, ts with
         | Some _, _ => oploop n m510 one a ts
         | None, [] => Error
         | None, t :: r => if is_unary_op t then oploop n m510 one None ts
            else match t with TNum l h => oploop n m510 one (Some {| ll := l; hl := h; neg := false |}) r | _ => Error end
         end) in H.
      change (evaluate (S (S n)) m510 one a ts) with
        (match a, ts with
         | Some _, _ => oploop (S n) m510 one a ts
         | None, [] => Error
         | None, t :: r => if is_unary_op t then oploop (S n) m510 one None ts
            else match t with TNum l h => oploop (S n) m510 one (Some {| ll := l; hl := h; neg := false |}) r | _ => Error end
         end).
      destruct a; [apply I2; assumption|]. destruct ts as [|t r]; [assumption|].
      destruct (is_unary_op t); [apply I2; assumption|]. destruct t; try assumption. apply I2; assumption.
    + intros m510 one a ts R H HR.
      destruct ts as [|op r]; [exact H|].
      destruct (match op with TClose => true | _ => false end) eqn:EC; [destruct op; try discriminate; exact H|].
      set (binary := match a with Some _ => true | None => false end).
      assert (forall k, oploop (S k) m510 one a (op :: r) =
        if binary && (negb (is_operator op) || match op with TUn _ => true | _ => false end) then Error
        else bind (operand k m510 op r) (fun b r =>
             bind (absorb k m510 (get_precedence m510 binary op) b r) (fun b r =>
             match calculate m510 op a b with
             | CErr => Error | CUndef => Undefined
             | Val v => if one then Done (Some v) r else oploop k m510 one (Some v) r end))) as E
        by (intros k; destruct op; try discriminate; reflexivity).
      rewrite E in H. rewrite E. clear E.
      destruct (binary && _); [exact H|].
      revert H. apply bind_mono; [exact HR| |].
      * intros HF. apply I3; [reflexivity|exact HF].
      * intros e r0 HG. apply bind_mono with (F := absorb n m510 (get_precedence m510 binary op) e r0)
          (G := fun b r => match calculate m510 op a b with
             | CErr => Error | CUndef => Undefined
             | Val v => if one then Done (Some v) r else oploop n m510 one (Some v) r end); [exact HG| | |reflexivity].
        -- intros HF. apply I4; [reflexivity|exact HF].
        -- intros b r1 HH. destruct (calculate m510 op a b); [|reflexivity|reflexivity].
           destruct one; [reflexivity|]. apply I2; [reflexivity|exact HH].
    + intros m510 op ts R H HR.
      destruct (match op with TOpen => true | _ => false end) eqn:EO.
      * destruct op; try discriminate.
        change (bind (evaluate n m510 false None ts) (fun e r => match r with TClose :: r => Done e r | _ => Error end) = R) in H.
        change (bind (evaluate (S n) m510 false None ts) (fun e r => match r with TClose :: r => Done e r | _ => Error end) = R).
        revert H. apply bind_mono; [exact HR| |reflexivity].
        intros HF. apply I1; [reflexivity|exact HF].
      * assert (forall k, operand (S k) m510 op ts =
          match ts with
          | [] => Error
          | t :: r =>
              if is_unary_op t then evaluate k m510 true None ts
              else match t with TNum l h => Done (Some {| ll := l; hl := h; neg := false |}) r | _ => Error end
          end) as E by (intros k; destruct op; try discriminate; reflexivity).
        rewrite E in H. rewrite E. destruct ts as [|t r]; [exact H|].
        destruct (is_unary_op t); [|exact H]. apply I1; assumption.
    + intros m510 p b ts R H HR.
      destruct ts as [|t r]; [exact H|].
      destruct (match t with TClose => true | _ => false end) eqn:EC; [destruct t; try discriminate; exact H|].
      assert (forall k, absorb (S k) m510 p b (t :: r) =
          if negb (is_operator t) || match t with TUn _ => true | _ => false end then Error
          else if get_precedence m510 true t >=? p then Done b (t :: r)
          else bind (evaluate k m510 true b (t :: r)) (fun b r => absorb k m510 p b r)) as E
        by (intros k; destruct t; try discriminate; reflexivity).
      rewrite E in H. rewrite E. destruct (_ || _); [exact H|]. destruct (_ >=? _); [exact H|].
      revert H. apply bind_mono; [exact HR| |].
      * intros HF. apply I1; [reflexivity|exact HF].
      * intros e r0 HG. apply I4; [reflexivity|exact HG].
Qed.

Lemma step_mono : forall F, (forall n R, F n = R -> R <> Fuel -> F (S n) = R) -> mono F.
Proof. intros F H n m R L. induction L as [|m L IH]; intros E HR; [exact E|]. apply H; [apply IH; assumption|exact HR]. Qed.
Lemma mono_evaluate : forall m510 one a ts, mono (fun n => evaluate n m510 one a ts).
Proof. intros. apply step_mono. intros n R H HR. apply (proj1 (fuel_step n)); assumption. Qed.
Lemma mono_oploop : forall m510 one a ts, mono (fun n => oploop n m510 one a ts).
Proof. intros. apply step_mono. intros n R H HR. apply (proj1 (proj2 (fuel_step n))); assumption. Qed.
Lemma mono_operand : forall m510 op ts, mono (fun n => operand n m510 op ts).
Proof. intros. apply step_mono. intros n R H HR. apply (proj1 (proj2 (proj2 (fuel_step n)))); assumption. Qed.
Lemma mono_absorb : forall m510 p b ts, mono (fun n => absorb n m510 p b ts).
Proof. intros. apply step_mono. intros n R H HR. apply (proj2 (proj2 (proj2 (fuel_step n)))); assumption. Qed.

Definition seq (F : nat -> ev) (G : opnd -> list tok -> nat -> ev) : nat -> ev := fun n => bind (F n) (fun e r => G e r n).
Lemma runs_seq : forall F G e r R, mono F -> mono (G e r) -> runs F (Done e r) -> runs (G e r) R -> runs (seq F G) R.
Proof.
  intros F G e r R MF MG (_ & n & HF) (HR & m & HG). split; [exact HR|]. exists (Nat.max n m). unfold seq.
  rewrite (MF n (Nat.max n m) (Done e r)); [|lia|exact HF|discriminate]. cbn [bind]. apply (MG m); [lia|exact HG|exact HR].
Qed.
Lemma runs_seq_fail : forall F G R, (R = Error \/ R = Undefined) -> runs F R -> runs (seq F G) R.
Proof. intros F G R K (HR & n & H). split; [exact HR|]. exists n. unfold seq. rewrite H. destruct K; subst; reflexivity. Qed.
Lemma runs_seq_inv : forall F G R, runs (seq F G) R -> (exists e r, runs F (Done e r) /\ runs (G e r) R) \/ ((R = Error \/ R = Undefined) /\ runs F R).
Proof.
  intros F G R (HR & n & H). unfold seq in H. destruct (F n) as [e r| | |] eqn:E; cbn [bind] in H.
  - left. exists e, r. split; split; [discriminate|exists n; exact E|exact HR|exists n; exact H].
  - right. subst R. split; [left; reflexivity|]. split; [discriminate|exists n; exact E].
  - right. subst R. split; [right; reflexivity|]. split; [discriminate|exists n; exact E].
  - congruence.
Qed.
Lemma mono_seq : forall F G, mono F -> (forall e r, mono (G e r)) -> mono (seq F G).
Proof.
  intros F G MF MG n m R L H HR. unfold seq in *. destruct (F n) as [e r| | |] eqn:E.
  - rewrite (MF n m _ L E) by discriminate. cbn [bind] in *. apply (MG e r n); assumption.
  - rewrite (MF n m _ L E) by discriminate. exact H.
  - rewrite (MF n m _ L E) by discriminate. exact H.
  - cbn in H. congruence.
Qed.
Lemma runs_S : forall F G R, (forall n, F (S n) = G n) -> runs G R -> runs F R.
Proof. intros F G R H (HR & n & E). split; [exact HR|]. exists (S n). rewrite H. exact E. Qed.
Lemma runs_const : forall R, R <> Fuel -> runs (fun _ => R) R.
Proof. intros R H. split; [exact H|]. exists O. reflexivity. Qed.
Lemma mono_const : forall R, mono (fun _ => R).
Proof. intros R n m R' L H HR. exact H. Qed.
Lemma runs_det : forall F R R', mono F -> runs F R -> runs F R' -> R = R'.
Proof.
  intros F R R' M (H1 & n & E) (H2 & m & E').
  rewrite <- (M n (Nat.max n m) R); [|lia|exact E|exact H1]. apply (M m); [lia|exact E'|exact H2].
Qed.

(** * The value of a tree through [calculate] *)
Definition cal_ev (c : cal) (rest : list tok) : ev := match c with Val v => Done (Some v) rest | CErr => Error | CUndef => Undefined end.
Fixpoint den (t : tree) : cal :=
  match t with
  | Num n => Val {| ll := n; hl := 0; neg := false |}
  | Un o t => match den t with Val v => calculate false (utok o) None (Some v) | x => x end
  | Bin o a b =>
      match den a with
      | Val va => match den b with Val vb => calculate false (btok o) (Some va) (Some vb) | x => x end
      | x => x
      end
  end.
Definition then_ (c : cal) (F : expr -> nat -> ev) : nat -> ev := match c with Val v => F v | CErr => fun _ => Error | CUndef => fun _ => Undefined end.


Lemma s64_sg : forall v, 0 <= v < 2 ^ 64 -> s64 v = sg v.
Proof.
  intros v H. unfold s64, swrap, sg. change (64 - 1) with 63.
  change (2 ^ 63) with 9223372036854775808 in *. change (2 ^ 64) with 18446744073709551616 in *.
  destruct (v <? 9223372036854775808) eqn:E.
  - rewrite Z.mod_small by lia. lia.
  - replace (v + 9223372036854775808) with ((v - 9223372036854775808) + 1 * 18446744073709551616) by lia.
    rewrite Z.mod_add by lia. rewrite Z.mod_small by lia. lia.
Qed.
Lemma sg_inj : forall a b, 0 <= a < 2 ^ 64 -> 0 <= b < 2 ^ 64 -> (sg a =? sg b) = (a =? b).
Proof.
  intros a b Ha Hb. unfold sg. change (2 ^ 63) with 9223372036854775808 in *. change (2 ^ 64) with 18446744073709551616 in *.
  destruct (a <? 9223372036854775808) eqn:E1, (b <? 9223372036854775808) eqn:E2; destruct (a =? b) eqn:E3; lia.
Qed.
Lemma truth_ones : forall b, u64 (truth b) = all_ones b.
Proof. intros [|]; reflexivity. Qed.
Lemma u64_small : forall v, 0 <= v < 2 ^ 64 -> u64 v = v.
Proof. intros v H. unfold u64, wrap. apply Z.mod_small. exact H. Qed.
Lemma u64_range : forall v, 0 <= u64 v < 2 ^ 64.
Proof. intros v. unfold u64, wrap. apply Z.mod_pos_bound. lia. Qed.
Lemma count_swrap : forall v, match count v with None => swrap 32 v < 0 | Some c => swrap 32 v = c /\ 0 <= c end.
Proof.
  intros v. unfold count, swrap. change (32 - 1) with 31. change (2 ^ 31) with 2147483648. change (2 ^ 32) with 4294967296.
  rewrite <- (Z.add_mod_idemp_l v 2147483648 4294967296) by lia.
  pose proof (Z.mod_pos_bound v 4294967296 ltac:(lia)) as B. set (c := v mod 4294967296) in *.
  destruct (c <? 2147483648) eqn:E.
  - rewrite Z.mod_small by lia. lia.
  - replace (c + 2147483648) with ((c - 2147483648) + 1 * 4294967296) by lia. rewrite Z.mod_add by lia. rewrite Z.mod_small by lia. lia.
Qed.
Lemma land_mask : forall a n, 0 <= n -> Z.land a (2 ^ n - 1) = a mod 2 ^ n.
Proof. intros a n H. replace (2 ^ n - 1) with (Z.ones n) by (rewrite Z.ones_equiv; lia). apply Z.land_ones. exact H. Qed.
Lemma pow_more : forall c, 64 <= c -> exists k, 2 ^ c = k * 2 ^ 64 /\ 0 < k.
Proof. intros c H. exists (2 ^ (c - 64)). split; [rewrite <- Z.pow_add_r by lia; f_equal; lia|apply Z.pow_pos_nonneg; lia]. Qed.
Lemma bits_range : forall v lo n, 0 <= n -> 0 <= bits v lo n < 2 ^ n.
Proof. intros. unfold bits. apply Z.mod_pos_bound. apply Z.pow_pos_nonneg; lia. Qed.
Lemma low_bits_64 : forall v n, 0 <= n < 64 -> 0 <= v mod 2 ^ n < 2 ^ 64.
Proof.
  intros v n H. pose proof (Z.mod_pos_bound v (2 ^ n) ltac:(apply Z.pow_pos_nonneg; lia)).
  pose proof (Z.pow_lt_mono_r 2 n 64 ltac:(lia) ltac:(lia) ltac:(lia)). lia.
Qed.
Lemma unary_value : forall o e, 0 <= ll e < 2 ^ 64 ->
  ll (unary_op o e) = uval (match o with NOT => Not | LOW => Low | HIGH => High | LOWWORD => LowWord | HIGHWORD => HighWord | LOW32 => Low32 | HIGH32 => High32 end) (ll e).
Proof.
  intros o e H. destruct o; cbn [unary_op uval set_ll ll]; unfold bits.
  - unfold u64, wrap, Z.lnot, Z.pred. replace (- ll e + -1) with ((2 ^ 64 - 1 - ll e) + (-1) * 2 ^ 64) by lia.
    rewrite Z.mod_add by lia. apply Z.mod_small. lia.
  - change 255 with (2 ^ 8 - 1). rewrite land_mask by lia. change (2 ^ 0) with 1. rewrite Z.div_1_r. apply u64_small, low_bits_64. lia.
  - change 255 with (2 ^ 8 - 1). rewrite land_mask by lia. rewrite u64_small by (apply low_bits_64; lia).
    unfold wrap. rewrite Z.shiftr_div_pow2 by lia.
    replace (ll e / 2 ^ 32 * 2 ^ 32) with (ll e / 2 ^ 32 * 2 ^ 24 * 2 ^ 8) by lia. rewrite Z.mod_add by lia.
    change (2 ^ 32) with (2 ^ 8 * 2 ^ 24). rewrite Z.rem_mul_r by lia.
    rewrite (Z.mul_comm (2 ^ 8)), Z.mod_add by lia. rewrite Z.mod_mod by lia.
    unfold swrap. change (32 - 1) with 31.
    rewrite (Z.mod_eq (ll e + 2 ^ 31)) by lia.
    set (q := (ll e + 2 ^ 31) / 2 ^ 32).
    replace (ll e + 2 ^ 31 - 2 ^ 32 * q - 2 ^ 31) with (ll e + (- q * 2 ^ 24) * 2 ^ 8) by lia.
    rewrite Z.div_add by lia. replace (- q * 2 ^ 24) with (- q * 2 ^ 16 * 2 ^ 8) by lia. apply Z.mod_add. lia.
  - change 65535 with (2 ^ 16 - 1). rewrite land_mask by lia. change (2 ^ 0) with 1. rewrite Z.div_1_r. apply u64_small, low_bits_64. lia.
  - change 65535 with (2 ^ 16 - 1). rewrite land_mask by lia. rewrite u64_small by (apply low_bits_64; lia).
    rewrite Z.shiftr_div_pow2 by lia. unfold swrap. change (32 - 1) with 31. rewrite (Z.mod_eq (ll e + 2 ^ 31)) by lia.
    set (q := (ll e + 2 ^ 31) / 2 ^ 32).
    replace (ll e + 2 ^ 31 - 2 ^ 32 * q - 2 ^ 31) with (ll e + (- q * 2 ^ 16) * 2 ^ 16) by lia.
    rewrite Z.div_add by lia. apply Z.mod_add. lia.
  - change 4294967295 with (2 ^ 32 - 1). rewrite land_mask by lia. change (2 ^ 0) with 1. rewrite Z.div_1_r. apply u64_small, low_bits_64. lia.
  - rewrite Z.shiftr_div_pow2 by lia.
    assert (0 <= ll e / 2 ^ 32 < 2 ^ 32) by (split; [apply Z.div_pos; lia|apply Z.div_lt_upper_bound; lia]).
    rewrite (Z.mod_small (ll e / 2 ^ 32)) by assumption. apply u64_small. lia.
Qed.
Lemma unary_hl : forall o e, hl (unary_op o e) = hl e.
Proof. intros [] e; reflexivity. Qed.
Lemma unary_range : forall o e, 0 <= ll (unary_op o e) < 2 ^ 64.
Proof. intros [] e; cbn [unary_op set_ll ll]; apply u64_range. Qed.

Definition agrees (c : cal) (v : value) : Prop :=
  match c with Val e => v = V (ll e) /\ hl e = 0 /\ 0 <= ll e < 2 ^ 64 | CErr => v = Bad | CUndef => v = Trap end.
Lemma agrees_set : forall a x v, hl a = 0 -> v = u64 x -> agrees (Val (set_ll a x)) (V v).
Proof. intros a x v H E. cbn. subst v. split; [reflexivity|]. split; [exact H|apply u64_range]. Qed.

Lemma un_agrees : forall o e, hl e = 0 -> 0 <= ll e < 2 ^ 64 -> agrees (calculate false (utok o) None (Some e)) (V (uval o (ll e))).
Proof.
  intros o e Hh Hr. unfold calculate. rewrite Hh. change (negb (0 =? 0)) with false. cbn [andb].
  destruct o; cbn [utok].
  - cbn. auto.
  - cbn [agrees negative_op ll hl]. rewrite Hh. cbn [Z.eqb]. split; [reflexivity|]. split; [reflexivity|apply u64_range].
  - cbn [agrees]. rewrite unary_value by assumption. rewrite unary_hl. rewrite <- (unary_value NOT) by assumption. auto using unary_range.
  - cbn [agrees]. rewrite unary_hl. rewrite <- (unary_value LOW) by assumption. auto using unary_range.
  - cbn [agrees]. rewrite unary_hl. rewrite <- (unary_value HIGH) by assumption. auto using unary_range.
  - cbn [agrees]. rewrite unary_hl. rewrite <- (unary_value LOWWORD) by assumption. auto using unary_range.
  - cbn [agrees]. rewrite unary_hl. rewrite <- (unary_value HIGHWORD) by assumption. auto using unary_range.
  - cbn [agrees]. rewrite unary_hl. rewrite <- (unary_value LOW32) by assumption. auto using unary_range.
  - cbn [agrees]. rewrite unary_hl. rewrite <- (unary_value HIGH32) by assumption. auto using unary_range.
Qed.
Lemma land_range : forall a b, 0 <= a < 2 ^ 64 -> 0 <= b < 2 ^ 64 -> 0 <= Z.land a b < 2 ^ 64 /\ 0 <= Z.lor a b < 2 ^ 64 /\ 0 <= Z.lxor a b < 2 ^ 64.
Proof.
  intros a b Ha Hb.
  assert (forall f : Z -> Z -> Z, (forall n, 0 <= n -> Z.testbit (f a b) n = true -> Z.testbit a n = true \/ Z.testbit b n = true) -> 0 <= f a b -> 0 <= f a b < 2 ^ 64) as G.
  { intros f Hf H0. split; [exact H0|]. replace (f a b) with (f a b mod 2 ^ 64); [apply Z.mod_pos_bound; lia|].
    apply Z.bits_inj'. intros n Hn. destruct (Z_lt_le_dec n 64).
    - apply Z.mod_pow2_bits_low. lia.
    - rewrite Z.mod_pow2_bits_high by lia. destruct (Z.testbit (f a b) n) eqn:E; [|reflexivity].
      assert (forall x, 0 <= x < 2 ^ 64 -> Z.testbit x n = false) as K.
      { intros x Hx. rewrite <- (Z.mod_small x (2 ^ 64)) by exact Hx. apply Z.mod_pow2_bits_high. lia. }
      destruct (Hf n Hn E) as [C|C]; rewrite K in C by assumption; discriminate. }
  split; [|split].
  - apply (G Z.land); [|apply Z.land_nonneg; lia]. intros n Hn H. rewrite Z.land_spec in H. apply andb_true_iff in H. tauto.
  - apply (G Z.lor); [|apply Z.lor_nonneg; lia]. intros n Hn H. rewrite Z.lor_spec in H. apply orb_true_iff in H. tauto.
  - apply (G Z.lxor); [|apply Z.lxor_nonneg; lia]. intros n Hn H. rewrite Z.lxor_spec in H. destruct (Z.testbit a n); [left; reflexivity|right; destruct (Z.testbit b n); [reflexivity|discriminate]].
Qed.
Lemma bin_agrees : forall o a b, hl a = 0 -> hl b = 0 -> 0 <= ll a < 2 ^ 64 -> 0 <= ll b < 2 ^ 64 ->
  agrees (calculate false (btok o) (Some a) (Some b)) (bval o (ll a) (ll b)).
Proof.
  intros o a b Ha Hb Ra Rb. unfold calculate. rewrite Hb. change (negb (0 =? 0)) with false. cbn [andb].
  pose proof (count_swrap (ll b)) as CS. pose proof (land_range _ _ Ra Rb) as (L1 & L2 & L3).
  destruct o; cbn [btok binary_op bval]; rewrite ?s64_sg by assumption.
  - apply agrees_set; [exact Ha|reflexivity].
  - destruct (ll b =? 0); [reflexivity|]. destruct (_ && _); [reflexivity|]. apply agrees_set; [exact Ha|reflexivity].
  - destruct (ll b =? 0) eqn:E; [reflexivity|]. apply agrees_set; [exact Ha|]. symmetry. apply u64_small.
    pose proof (Z.mod_pos_bound (ll a) (ll b) ltac:(lia)). lia.
  - destruct (count (ll b)) as [c|].
    + destruct CS as [-> Hc]. rewrite (proj2 (Z.ltb_ge c 0)) by exact Hc. apply agrees_set; [exact Ha|].
      destruct (c >=? 64) eqn:E.
      * destruct (pow_more c ltac:(lia)) as (k & -> & _). rewrite Z.mul_assoc. rewrite Z.mod_mul by lia. reflexivity.
      * rewrite Z.shiftl_mul_pow2 by exact Hc. reflexivity.
    + rewrite (proj2 (Z.ltb_lt _ 0)) by exact CS. reflexivity.
  - destruct (count (ll b)) as [c|].
    + destruct CS as [-> Hc]. rewrite (proj2 (Z.ltb_ge c 0)) by exact Hc. apply agrees_set; [exact Ha|].
      destruct (c >=? 64) eqn:E.
      * rewrite Z.div_small; [reflexivity|]. destruct (pow_more c ltac:(lia)) as (k & -> & ?). nia.
      * rewrite Z.shiftr_div_pow2 by exact Hc. symmetry. apply u64_small.
        pose proof (Z.pow_pos_nonneg 2 c ltac:(lia) Hc). split; [apply Z.div_pos; lia|].
        apply Z.le_lt_trans with (ll a); [apply Z.div_le_upper_bound; nia|lia].
    + rewrite (proj2 (Z.ltb_lt _ 0)) by exact CS. reflexivity.
  - apply agrees_set; [exact Ha|reflexivity].
  - apply agrees_set; [exact Ha|reflexivity].
  - apply agrees_set; [exact Ha|]. rewrite sg_inj, truth_ones by assumption. reflexivity.
  - apply agrees_set; [exact Ha|]. rewrite sg_inj, truth_ones by assumption. reflexivity.
  - apply agrees_set; [exact Ha|]. rewrite truth_ones. reflexivity.
  - apply agrees_set; [exact Ha|]. rewrite truth_ones. reflexivity.
  - apply agrees_set; [exact Ha|]. rewrite truth_ones. rewrite Z.gtb_ltb. reflexivity.
  - apply agrees_set; [exact Ha|]. rewrite truth_ones. rewrite Z.geb_leb. reflexivity.
  - apply agrees_set; [exact Ha|]. symmetry. apply u64_small. exact L1.
  - apply agrees_set; [exact Ha|]. symmetry. apply u64_small. exact L2.
  - apply agrees_set; [exact Ha|]. symmetry. apply u64_small. exact L3.
Qed.
Lemma den_agrees : forall t, in_range t -> agrees (den t) (eval t).
Proof.
  induction t as [n|o t IH|o a IHa b IHb]; intros H.
  - cbn in *. auto.
  - cbn [den eval]. specialize (IH H). destruct (den t) as [e| |]; cbn in IH.
    + destruct IH as (-> & Hh & Hr). apply un_agrees; assumption.
    + rewrite IH. reflexivity.
    + rewrite IH. reflexivity.
  - destruct H as [Ha Hb]. specialize (IHa Ha). specialize (IHb Hb). cbn [den eval].
    destruct (den a) as [va| |]; cbn in IHa; [|rewrite IHa; reflexivity|rewrite IHa; reflexivity].
    destruct IHa as (-> & ? & ?). destruct (den b) as [vb| |]; cbn in IHb; [|rewrite IHb; reflexivity|rewrite IHb; reflexivity].
    destruct IHb as (-> & ? & ?). apply bin_agrees; assumption.
Qed.
