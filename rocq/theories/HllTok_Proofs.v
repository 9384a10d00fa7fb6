(** Proofs about the translation of conditions, part 2: tokens, simple
    expressions and the recursion. *)
From Coq Require Import String Ascii List ZArith Bool Lia.
From Verif Require Import Base Hll_Model Hll_Spec Hll_Proofs.
Import ListNotations.
Open Scope Z_scope.
Local Arguments wrap : simpl never.
Local Arguments swrap : simpl never.
Local Arguments Z.pow : simpl never.

Lemma repeat_snoc {A} (x : A) n r : repeat x (S n) ++ r = repeat x n ++ x :: r.
Proof. induction n as [|n IH]; [reflexivity|]. cbn [repeat app] in *. now rewrite IH. Qed.
Lemma eval_operand_print n o r : eval_operand (repeat TOpen n ++ TOpnd o :: repeat TClose n ++ r) = Ok (o, r).
Proof.
  revert r. induction n as [|n IH]; intros r; [reflexivity|].
  cbn [repeat app eval_operand]. change (TClose :: repeat TClose n ++ r) with (repeat TClose (S n) ++ r).
  rewrite repeat_snoc, IH. reflexivity.
Qed.
Lemma print_opnd_app a r : print_opnd a ++ r = repeat TOpen (parens a) ++ TOpnd (opnd a) :: repeat TClose (parens a) ++ r.
Proof. unfold print_opnd. now rewrite <- !app_assoc. Qed.
Lemma GetToken_print a r : GetToken (print_opnd a ++ r) = Ok (Some (opnd a), r).
Proof.
  rewrite print_opnd_app. pose proof (eval_operand_print (parens a) (opnd a) r) as E.
  destruct (parens a) as [|n]; cbn [repeat app] in *; unfold GetToken, is_cop; cbn [GetCOp]; rewrite E; reflexivity.
Qed.
Lemma scan_open n k r : bracket_scan (S k) (repeat TOpen n ++ r) = bracket_scan (S (n + k)) r.
Proof.
  revert k. induction n as [|n IH]; intros k; [reflexivity|]. cbn [repeat app bracket_scan]. rewrite IH. f_equal. lia.
Qed.
Lemma scan_close n k r : bracket_scan (S (n + k)) (repeat TClose n ++ r) = bracket_scan (S k) r.
Proof. induction n as [|n IH]; [reflexivity|]. cbn [repeat app Nat.add]. cbn [bracket_scan]. exact IH. Qed.
Lemma scan_opnd k a r : bracket_scan (S k) (print_opnd a ++ r) = bracket_scan (S k) r.
Proof. rewrite print_opnd_app, scan_open. cbn [bracket_scan is_cop GetCOp]. apply scan_close. Qed.
(** brackets of an operand at the start of a condition *)
Lemma scan_own n o r : bracket_scan 1 (repeat TOpen n ++ TOpnd o :: repeat TClose (S n) ++ r) = false.
Proof.
  rewrite scan_open. cbn [bracket_scan is_cop GetCOp]. rewrite repeat_snoc, scan_close. reflexivity.
Qed.

Definition follow (rest : list tok) : Prop := head_cop rest = COP_AND \/ head_cop rest = COP_OR \/ rest = [] \/ exists r, rest = TClose :: r.
Lemma follow_none rest : follow rest -> match head_cop rest with COP_AND | COP_OR => COP_NONE | c => c end = COP_NONE.
Proof. intros [E|[E|[->|(r & ->)]]]; [rewrite E|rewrite E| |]; reflexivity. Qed.

(** a simple expression in the form of tokens *)
Definition is_atom (e : cond) : bool := match e with CFlag _ _ | COne _ | CBits _ _ | CCmp _ _ _ => true | _ => false end.
Definition flag_cop (g : flag) : cop :=
  match g with FZero => COP_ZERO | FCarry => COP_CARRY | FSign => COP_SIGN | FParity => COP_PARITY | FOverflow => COP_OVERFLOW
  | FLess => COP_LESS | FGreater => COP_GREATER | FAbove => COP_ABOVE | FEqual => COP_EQUAL | FBelow => COP_BELOW end.
Lemma GetCOp_flag g s : In s (flag_names g) -> GetCOp (TId s) = flag_cop g.
Proof. destruct g; cbn [flag_names In]; intros [<-|[<-|[<-|[]]]]; reflexivity. Qed.
Definition rel_cop (r : rel) : cop :=
  match r with REq => COP_EQ | RNe => COP_NE | RGt => COP_GT | RLt => COP_LT | RGe => COP_GE | RLe => COP_LE end.
Lemma GetCOp_rel r : GetCOp (TStr (rel_name r)) = rel_cop r.
Proof. destruct r; reflexivity. Qed.

(** ** Flags after a comparison *)
Lemma bits_range m W o : 0 < W -> 0 <= bits m W o < 2 ^ W.
Proof. intros H. unfold bits. destruct (k_kind o); apply wrap_range; lia. Qed.
Lemma swrap_add W a k : swrap W (a + k * 2 ^ W) = swrap W a.
Proof.
  unfold swrap. replace (a + k * 2 ^ W + 2 ^ (W - 1)) with (a + 2 ^ (W - 1) + k * 2 ^ W) by lia. now rewrite Z_mod_plus_full.
Qed.
Lemma swrap_if W d : 0 < W -> swrap W d = if wrap W d <? 2 ^ (W - 1) then wrap W d else wrap W d - 2 ^ W.
Proof.
  intros HW. pose proof (wrap_range W d ltac:(lia)) as R. pose proof (pow2_split W HW) as E2.
  assert (Ed : d = wrap W d + d / 2 ^ W * 2 ^ W) by (unfold wrap; pose proof (Z.div_mod d (2 ^ W)); lia).
  rewrite Ed at 1. rewrite swrap_add. destruct (Z.ltb_spec (wrap W d) (2 ^ (W - 1))).
  - apply swrap_small; lia.
  - rewrite <- (swrap_small W (wrap W d - 2 ^ W)) by lia. replace (wrap W d) with (wrap W d - 2 ^ W + 1 * 2 ^ W) at 1 by lia. apply swrap_add.
Qed.
Lemma swrap_neg W d : 0 < W -> Z.testbit (wrap W d) (W - 1) = (swrap W d <? 0).
Proof.
  intros HW. pose proof (wrap_range W d ltac:(lia)) as R. pose proof (pow2_pos (W - 1) ltac:(lia)) as HP.
  assert (E2 : 2 ^ W = 2 * 2 ^ (W - 1)) by (replace W with (Z.succ (W - 1)) at 1 by lia; apply Z.pow_succ_r; lia).
  rewrite Z.testbit_odd, Z.shiftr_div_pow2, swrap_if by lia.
  replace (Z.odd _) with (2 ^ (W - 1) <=? wrap W d).
  - destruct (Z.leb_spec (2 ^ (W - 1)) (wrap W d)), (Z.ltb_spec (wrap W d) (2 ^ (W - 1))); lia.
  - destruct (Z.leb_spec (2 ^ (W - 1)) (wrap W d)).
    + replace (wrap W d / 2 ^ (W - 1)) with 1; [reflexivity|]. apply Z.div_unique with (wrap W d - 2 ^ (W - 1)); lia.
    + rewrite Z.div_small by lia. reflexivity.
Qed.
Lemma wrap_sub_swrap W x y : 0 < W -> wrap W (x - y) = wrap W (swrap W x - swrap W y).
Proof.
  intros HW. unfold wrap. rewrite (Zminus_mod x y), (Zminus_mod (swrap W x)), !swrap_mod by lia. reflexivity.
Qed.
Lemma cmp_less W x y : 0 < W -> xorb (fS (cmp_flags W x y)) (fO (cmp_flags W x y)) = (swrap W x <? swrap W y).
Proof.
  intros HW. cbn [fS fO cmp_flags]. rewrite wrap_sub_swrap, swrap_neg by lia.
  pose proof (swrap_range W x ltac:(lia)) as Rx. pose proof (swrap_range W y ltac:(lia)) as Ry.
  pose proof (pow2_pos (W - 1) ltac:(lia)) as HP.
  assert (E2 : 2 ^ W = 2 * 2 ^ (W - 1)) by (replace W with (Z.succ (W - 1)) at 1 by lia; apply Z.pow_succ_r; lia).
  set (a := swrap W x) in *. set (b := swrap W y) in *.
  destruct (Z.leb_spec (- 2 ^ (W - 1)) (a - b)); [destruct (Z.ltb_spec (a - b) (2 ^ (W - 1)))|]; cbn [andb negb].
  - rewrite swrap_small by lia. rewrite xorb_false_r. destruct (Z.ltb_spec (a - b) 0), (Z.ltb_spec a b); lia.
  - replace (swrap W (a - b)) with (a - b - 2 ^ W).
    2:{ rewrite <- (swrap_small W (a - b - 2 ^ W)) by lia.
        replace (a - b - 2 ^ W) with (a - b + (-1) * 2 ^ W) by lia. apply swrap_add. }
    destruct (Z.ltb_spec (a - b - 2 ^ W) 0), (Z.ltb_spec a b); cbn; lia.
  - replace (swrap W (a - b)) with (a - b + 2 ^ W).
    2:{ rewrite <- (swrap_small W (a - b + 2 ^ W)) by lia.
        replace (a - b + 2 ^ W) with (a - b + 1 * 2 ^ W) by lia. apply swrap_add. }
    destruct (Z.ltb_spec (a - b + 2 ^ W) 0), (Z.ltb_spec a b); cbn; lia.
Qed.
Lemma swrap_eqb W x y : 0 < W -> 0 <= x < 2 ^ W -> 0 <= y < 2 ^ W -> (swrap W x =? swrap W y) = (x =? y).
Proof.
  intros HW Hx Hy. destruct (Z.eqb_spec x y) as [->|E]; [apply Z.eqb_refl|]. apply Z.eqb_neq. intros H. apply E.
  rewrite <- (Z.mod_small x (2 ^ W)), <- (Z.mod_small y (2 ^ W)) by lia. rewrite <- (swrap_mod W x), <- (swrap_mod W y) by lia. now rewrite H.
Qed.
(** TEST x,x and OR x,x leave the flags of CMP x,0 *)
Lemma test_cmp W x : 0 < W -> 0 <= x < 2 ^ W -> log_flags W x = cmp_flags W x 0.
Proof.
  intros HW Hx. unfold log_flags, cmp_flags. rewrite Z.sub_0_r, wrap_small by lia.
  pose proof (swrap_range W x ltac:(lia)) as Rx.
  replace (swrap W 0) with 0.
  2:{ symmetry. apply swrap_small; [lia|]. pose proof (pow2_pos (W - 1) ltac:(lia)). lia. }
  rewrite Z.sub_0_r.
  replace (x <? 0) with false by (symmetry; apply Z.ltb_ge; lia).
  replace (negb _) with false; [reflexivity|]. symmetry. apply negb_false_iff, andb_true_iff. split; [apply Z.leb_le|apply Z.ltb_lt]; lia.
Qed.
(** the letter chosen for a comparison *)
Lemma letter_rel r (sg : bool) m a b : 0 < width m a ->
  let W := width m a in
  forall neg, negif (if neg_cjmptype (rel_cop r) then neg else negb neg)
    (letter (if sg then signed_cjmptype (rel_cop r) else unsigned_cjmptype (rel_cop r)) (cmp_flags W (bits m W a) (bits m W b)))
  = Bool.eqb (rel_value r (number m sg W a) (number m sg W b)) neg.
Proof.
  intros HW W neg. pose proof (bits_range m W a HW) as Ra. pose proof (bits_range m W b HW) as Rb.
  pose proof (cmp_less W (bits m W a) (bits m W b) HW) as Hl. pose proof (swrap_eqb W _ _ HW Ra Rb) as He.
  set (x := bits m W a) in *. set (y := bits m W b) in *.
  assert (Hneg : forall (v : bool), negif neg (negb v) = Bool.eqb v neg) by (intros []; destruct neg; reflexivity).
  assert (Hpos : forall (v : bool), negif (negb neg) v = Bool.eqb v neg) by (intros []; destruct neg; reflexivity).
  unfold number. fold x y.
  destruct sg.
  - assert (Hg : negb (fZ (cmp_flags W x y)) && negb (xorb (fS (cmp_flags W x y)) (fO (cmp_flags W x y))) = (swrap W y <? swrap W x)).
    { rewrite Hl. cbn [fZ cmp_flags]. rewrite <- He. destruct (Z.eqb_spec (swrap W x) (swrap W y)), (Z.ltb_spec (swrap W x) (swrap W y)), (Z.ltb_spec (swrap W y) (swrap W x)); cbn; lia. }
    destruct r; cbn [neg_cjmptype rel_cop signed_cjmptype rel_value].
    + rewrite He. apply Hpos.
    + rewrite He. replace (letter "z" (cmp_flags W x y)) with (negb (negb (x =? y))) by (rewrite negb_involutive; reflexivity). apply Hneg.
    + rewrite <- Hg. apply Hpos.
    + rewrite <- Hl. apply Hpos.
    + rewrite Z.leb_antisym, <- Hl. replace (letter "l" (cmp_flags W x y)) with (negb (negb (xorb (fS (cmp_flags W x y)) (fO (cmp_flags W x y))))) by (rewrite negb_involutive; reflexivity). apply Hneg.
    + rewrite Z.leb_antisym, <- Hg. match goal with |- _ = Bool.eqb (negb ?v) _ => replace (letter "g" (cmp_flags W x y)) with (negb (negb v)) by (rewrite negb_involutive; reflexivity) end. apply Hneg.
  - assert (Hg : negb (fC (cmp_flags W x y)) && negb (fZ (cmp_flags W x y)) = (y <? x)).
    { cbn [fZ fC cmp_flags]. destruct (Z.eqb_spec x y), (Z.ltb_spec x y), (Z.ltb_spec y x); cbn; lia. }
    destruct r; cbn [neg_cjmptype rel_cop unsigned_cjmptype rel_value].
    + apply Hpos.
    + replace (letter "z" (cmp_flags W x y)) with (negb (negb (x =? y))) by (rewrite negb_involutive; reflexivity). apply Hneg.
    + rewrite <- Hg. apply Hpos.
    + apply Hpos.
    + rewrite Z.leb_antisym. replace (letter "b" (cmp_flags W x y)) with (negb (negb (x <? y))) by (rewrite negb_involutive; reflexivity). apply Hneg.
    + rewrite Z.leb_antisym, <- Hg. match goal with |- _ = Bool.eqb (negb ?v) _ => replace (letter "a" (cmp_flags W x y)) with (negb (negb v)) by (rewrite negb_involutive; reflexivity) end. apply Hneg.
Qed.

(** an instruction and a jump *)
Lemma emitted b e L s ins cc neg : L <> 0 -> lasttrue s = 0 ->
  In cc letters -> occs ins = [] -> ending b e = EndJump ->
  (forall m f, sized m -> let '(v, f') := eval m e f in exec m ins (Run f) = Run f' /\ negif neg (letter cc f') = Bool.eqb v b) ->
  let s1 := append s ins in
  res_of b e L s (append (with_jmp s1 (Some (length (buf s1)))) [RenderJcc cc neg L]).
Proof.
  intros HL Hlt Hcc Ho He Hs s1. assert (Hnj : is_jmp (RenderJcc cc neg L) = false) by (clear - Hcc; cbn in Hcc; decompose [or] Hcc; subst; destruct neg; try reflexivity; contradiction).
  destruct (inv_ok_render cc neg L Hcc) as (c1 & c2 & K & E0 & HK & EK). rewrite E0 in *.
  assert (Hl : labels ins = []).
  { destruct (labels ins) as [|x l] eqn:E; [reflexivity|]. exfalso. assert (H : In x (occs ins)) by (apply labels_occs; rewrite E; now left). rewrite Ho in H. destruct H. }
  assert (HF : front b e L 0 ins K).
  { intros m f Hm. specialize (Hs m f Hm). destruct (eval m e f) as [v f']. destruct Hs as [E1 E2]. left. split; [exact E1|]. now rewrite EK. }
  exists (ins ++ [LJ c1 c2 L]). cbn [append with_buf with_jmp buf lbl lastjmp lasttrue s1]. split; [now rewrite app_assoc|]. split.
  - constructor.
    + intros x. rewrite occs_app, Ho. intros [H|[]]. now left.
    + intros x. rewrite labels_app, Hl. intros [].
    + rewrite labels_app, Hl. constructor.
    + lia.
    + intros _. rewrite nojmp_app. split.
      { intros l Hl1. destruct l as [| c3 c4 y | |]; try reflexivity. exfalso.
        assert (H : In y (occs ins)) by (unfold occs; apply in_flat_map; exists (LJ c3 c4 y); split; [exact Hl1|now left]). rewrite Ho in H. destruct H. }
      intros l [<-|[]]. exact Hnj.
    + intros m f Hm. change [LJ c1 c2 L] with (LJ c1 c2 L :: tlab 0). apply (front_sem b e L 0 ins c1 c2 K); auto. exact (proj1 HK).
  - unfold tailed. rewrite He, Hlt. exists ins, c1, c2, K. split; [reflexivity|]. split; [now rewrite app_length|]. split; assumption.
Qed.

Lemma simple_ok masm L b e s rest : is_atom e = true -> wf 2 e -> follow rest -> 0 < L -> lasttrue s = 0 ->
  exists s', simple masm L (print e ++ rest) b s = Ok (rest, s') /\ res_of b e L s s'.
Proof.
  intros Ha Hw Hr HL Hlt. pose proof (follow_none _ Hr) as Hop. destruct e as [g nm|a|a a'|r a a'| | | |]; try discriminate; cbn [print].
  - (* flag *)
    cbn [wf] in Hw. pose proof (GetCOp_flag g nm Hw) as EC. unfold simple. cbn [app].
    unfold GetToken, is_cop. rewrite EC. replace (match flag_cop g with COP_NONE => false | _ => true end) with true by (destruct g; reflexivity).
    cbn [bindr head_cop]. rewrite EC.
    replace (match flag_cop g with COP_AND | COP_OR => COP_NONE | c => c end) with (flag_cop g) by (destruct g; reflexivity).
    assert (Eg : exists cc, flaginstr (flag_cop g) = Some cc /\ In cc letters /\ forall f, letter cc f = flag_value g f).
    { destruct g; cbn [flag_cop flaginstr]; eexists; (split; [reflexivity|]); (split; [cbn; tauto|]); intros f; cbn;
        destruct (fC f), (fZ f), (fS f), (fO f), (fP f); reflexivity. }
    destruct Eg as (cc & Ecc & Hcc & Hv). rewrite Ecc. cbn [bindr].
    replace (match flag_cop g with COP_NONE => TId nm :: rest | _ => tl (TId nm :: rest) end) with rest by (destruct g; reflexivity).
    eexists. split; [reflexivity|]. apply (emitted b (CFlag g nm) L s [] cc (negb b)); auto; try lia.
    intros m f Hm. cbn [eval]. split; [reflexivity|]. rewrite Hv. destruct (flag_value g f), b; reflexivity.
  - (* one operand *)
    unfold simple. rewrite GetToken_print. cbn [bindr]. rewrite Hop. cbn [flaginstr]. cbn [wf] in Hw.
    destruct (k_kind (opnd a)) as [| |v] eqn:Ek.
    + cbn [bindr]. eexists. split; [reflexivity|]. apply (emitted b (COne a) L s [LIns "test" (opnd a) (Some (opnd a))] "z" b); auto; try lia.
      * cbn; tauto.
      * cbn [ending]. now rewrite Ek.
      * intros m f Hm. cbn [eval]. rewrite Ek. cbn. rewrite Z.land_diag, test_cmp by (try apply bits_range; apply Hm). split; [reflexivity|].
        cbn. destruct (bits m (width m (opnd a)) (opnd a) =? 0), b; reflexivity.
    + cbn [bindr]. eexists. split; [reflexivity|]. apply (emitted b (COne a) L s [LIns "cmp" (opnd a) None] "z" b); auto; try lia.
      * cbn; tauto.
      * cbn [ending]. now rewrite Ek.
      * intros m f Hm. cbn [eval]. rewrite Ek. cbn. split; [reflexivity|].
        cbn. destruct (bits m (width m (opnd a)) (opnd a) =? 0), b; reflexivity.
    + assert (Hh : Z.shiftr v 32 = 0 \/ Z.shiftr v 32 = -1).
      { rewrite Z.shiftr_div_pow2 by lia. destruct (Z.le_gt_cases 0 v).
        - left. apply Z.div_small. lia.
        - right. symmetry. apply Z.div_unique with (v + 2 ^ 32); lia. }
      replace (negb (Z.shiftr v 32 =? 0) && negb (Z.shiftr v 32 =? -1)) with false by (destruct Hh as [-> | ->]; reflexivity).
      assert (Hv : (wrap 32 v =? 0) = (v =? 0)).
      { unfold wrap. destruct (Z.eqb_spec v 0) as [->|Hn]; [reflexivity|]. apply Z.eqb_neq. intros Hz. apply Hn.
        apply Z.mod_divide in Hz; [|lia]. destruct Hz as [k Hk]. assert (k = 0) by nia. lia. }
      rewrite Hv.
      destruct ((b && negb (v =? 0)) || (negb b && (v =? 0))) eqn:Ej.
      * assert (Eb : Bool.eqb (negb (v =? 0)) b = true) by (destruct (v =? 0), b; cbn in *; congruence).
        eexists. split; [reflexivity|]. exists [LJ "m" "p" L]. cbn [append with_buf with_jmp buf lbl lastjmp lasttrue].
        split; [reflexivity|]. split.
        -- constructor; [intros x [<-|[]]; now left|intros x []|constructor|lia|cbn [noconst]; rewrite Ek; discriminate|]. intros m f Hm. cbn [eval]. rewrite Ek. rewrite Eb. reflexivity.
        -- unfold tailed. cbn [ending]. rewrite Ek, Eb, Hlt. exists [], "m"%char, "p"%char, (fun _ => true).
           split; [reflexivity|]. split; [f_equal; cbn; lia|]. split; [apply inv_ok_jmp|]. intros m f Hm. cbn [eval]. rewrite Ek. left. split; [reflexivity|now rewrite Eb].
      * assert (Eb : Bool.eqb (negb (v =? 0)) b = false) by (destruct (v =? 0), b; cbn in *; congruence).
        eexists. split; [reflexivity|]. exists []. cbn [with_jmp buf lbl lastjmp lasttrue]. split; [now rewrite app_nil_r|]. split.
        -- constructor; [intros x []|intros x []|constructor|lia|intros _ l []|]. intros m f Hm. cbn [eval]. rewrite Ek. rewrite Eb. reflexivity.
        -- unfold tailed. cbn [ending]. rewrite Ek, Eb. split; [f_equal; cbn; lia|exact Hlt].
  - (* a & b *)
    unfold simple. rewrite <- app_assoc, GetToken_print. cbn [bindr app head_cop tl].
    change (GetCOp (TStr "&")) with COP_ANDB. cbv iota. cbn [flaginstr]. rewrite GetToken_print. cbn [bindr].
    eexists. split; [reflexivity|]. apply (emitted b (CBits a a') L s [LIns "test" (opnd a) (Some (opnd a'))] "e" b); auto; try lia.
    + cbn; tauto.
    + intros m f Hm. cbn [eval]. cbn. split; [reflexivity|]. cbn. destruct (_ =? 0), b; reflexivity.
  - (* comparison *)
    unfold simple. rewrite <- app_assoc, GetToken_print. cbn [bindr app head_cop tl]. rewrite GetCOp_rel.
    replace (match rel_cop r with COP_AND | COP_OR => COP_NONE | c => c end) with (rel_cop r) by (destruct r; reflexivity).
    replace (flaginstr (rel_cop r)) with (@None ascii) by (destruct r; reflexivity).
    replace (match rel_cop r with COP_NONE => TStr (rel_name r) :: print_opnd a' ++ rest | _ => print_opnd a' ++ rest end)
      with (print_opnd a' ++ rest) by (destruct r; reflexivity).
    set (zero := match rel_cop r, k_kind (opnd a), k_kind (opnd a') with
                 | (COP_EQ | COP_NE), KReg, KConst v => v =? 0 | _, _, _ => false end).
    set (ins := if masm && zero then LIns "or" (opnd a) (Some (opnd a)) else if zero then LIns "test" (opnd a) (Some (opnd a)) else LIns "cmp" (opnd a) (Some (opnd a'))).
    set (cc := if k_signed (opnd a) || k_signed (opnd a') then signed_cjmptype (rel_cop r) else unsigned_cjmptype (rel_cop r)).
    set (s1 := append s [ins]).
    exists (append (with_jmp s1 (Some (length (buf s1)))) [RenderJcc cc (if neg_cjmptype (rel_cop r) then b else negb b) L]). split.
    + rewrite GetToken_print. cbn [bindr]. unfold zero, ins, cc, s1. destruct r; reflexivity.
    + apply (emitted b (CCmp r a a') L s [ins] cc (if neg_cjmptype (rel_cop r) then b else negb b)); auto; try lia.
      * unfold cc. destruct (k_signed (opnd a) || k_signed (opnd a')), r; cbn; tauto.
      * unfold ins. destruct (masm && zero), zero; reflexivity.
      * intros m f Hm. cbn [eval]. rewrite <- letter_rel by apply Hm. split; [|reflexivity].
        pose proof (bits_range m (width m (opnd a)) (opnd a) ltac:(apply Hm)) as R.
        assert (Hz : zero = true -> bits m (width m (opnd a)) (opnd a') = 0).
        { unfold zero. intros Hz. unfold bits. destruct r; cbn [rel_cop] in Hz; try discriminate;
            (destruct (k_kind (opnd a)); try discriminate); (destruct (k_kind (opnd a')) as [| |v]; try discriminate);
            apply Z.eqb_eq in Hz as ->; reflexivity. }
        assert (Hi : stepl m (Run f) ins = Run (cmp_flags (width m (opnd a)) (bits m (width m (opnd a)) (opnd a)) (bits m (width m (opnd a)) (opnd a')))).
        { unfold ins. destruct zero eqn:Ez.
          - rewrite (Hz eq_refl), andb_true_r. destruct masm; cbn.
            + now rewrite Z.eqb_refl, Z.lor_diag, test_cmp by (assumption || apply Hm).
            + now rewrite Z.land_diag, test_cmp by (assumption || apply Hm).
          - rewrite andb_false_r. reflexivity. }
        exact Hi.
Qed.

Lemma scan_true e : forall lv k r, wf lv e -> has_operator e = true -> bracket_scan (S k) (print e ++ r) = true.
Proof.
  assert (Two : forall e1 op e2 k r, (forall lv k r, wf lv e1 -> has_operator e1 = true -> bracket_scan (S k) (print e1 ++ r) = true) ->
     is_cop (TStr op) = true -> forall lv, wf lv e1 -> bracket_scan (S k) ((print e1 ++ [TStr op] ++ print e2) ++ r) = true).
  { intros e1 op e2 k r IH Hop lv Hw. rewrite <- !app_assoc. destruct (has_operator e1) eqn:E; [eapply IH; eauto|].
    destruct e1; try discriminate. cbn [print]. rewrite scan_opnd. cbn [app bracket_scan]. now rewrite Hop. }
  induction e as [g s|a|a b|rl a b|e IH|e IH|e1 IH1 e2 IH2|e1 IH1 e2 IH2]; intros lv k r Hw Ho; cbn [print].
  - cbn [wf] in Hw. cbn [app bracket_scan]. unfold is_cop. rewrite (GetCOp_flag g s Hw). now destruct g.
  - discriminate.
  - rewrite <- app_assoc, scan_opnd. reflexivity.
  - rewrite <- app_assoc, scan_opnd. cbn [app bracket_scan]. unfold is_cop. rewrite GetCOp_rel. now destruct rl.
  - reflexivity.
  - cbn [wf] in Hw. destruct Hw as [H1 H2]. cbn [app bracket_scan]. rewrite <- app_assoc. eapply IH; eauto.
  - cbn [wf] in Hw. destruct Hw as (_ & H1 & _). apply (Two e1 "&&"%string e2 k r IH1 eq_refl 1%nat H1).
  - cbn [wf] in Hw. destruct Hw as (_ & H1 & _). apply (Two e1 "||"%string e2 k r IH1 eq_refl 2%nat H1).
Qed.

Lemma GetSimple_atom n masm rep L e rest b s : is_atom e = true -> wf 2 e ->
  GetSimpleExpression (S n) masm rep L (print e ++ rest) b s = simple masm L (print e ++ rest) b s.
Proof.
  intros Ha Hw.
  assert (Op : forall a X, GetSimpleExpression (S n) masm rep L (print_opnd a ++ X) b s = simple masm L (print_opnd a ++ X) b s).
  { intros a X. rewrite print_opnd_app. destruct (parens a) as [|k].
    - reflexivity.
    - cbn [repeat app]. cbn [GetSimpleExpression strip_nots is_not].
      change (TClose :: repeat TClose k ++ X) with (repeat TClose (S k) ++ X). rewrite scan_own. reflexivity. }
  destruct e; try discriminate; cbn [print].
  - reflexivity.
  - apply Op.
  - rewrite <- app_assoc. apply Op.
  - rewrite <- app_assoc. apply Op.
Qed.
Lemma GetSimple_not n masm rep L l b s : GetSimpleExpression n masm rep L (TStr "!" :: l) b s = GetSimpleExpression n masm rep L l (negb b) s.
Proof. destruct n; reflexivity. Qed.

Section Rec.
Variable masm rep : bool.
Variable L : Z.
Hypothesis HL : 0 < L.

Definition ready (s : st) : Prop := lasttrue s = 0 /\ L <= lbl s.
Definition left_of (b : bool) (e : cond) : option cond :=
  match e with CAnd e1 _ => if b then Some e1 else None | COr e1 _ => if b then None else Some e1 | _ => None end.
Definition last_of (b : bool) (e : cond) : cond := if b then last_and e else last_or e.
(** inside a chain of operands that have to be turned *)
Definition chain_st (b : bool) (e : cond) (s : st) (ptr : nat) (T : Z) (s' : st) : Prop :=
  exists acc c lo, accum b (left_of b e) T (lbl s) lo acc /\ coded b (last_of b e) L lo (lbl s') c /\
    tailed b (last_of b e) L (length (buf s ++ acc)) c (lastjmp s') (lasttrue s') /\ buf s' = buf s ++ acc ++ c /\ ptr = length (buf s ++ acc).
Definition and_st (b : bool) (e : cond) (s : st) (T : Z) (s' : st) : Prop :=
  if b then exists ptr, chain_st true e s ptr T s' else T = 0 /\ res_of false e L s s'.
Definition or_st (b : bool) (e : cond) (s : st) (ptr : nat) (T : Z) (s' : st) : Prop :=
  if b then T = 0 /\ res_of true e L s s' else chain_st false e s ptr T s'.

Lemma chain_one b e s s' : left_of b e = None -> last_of b e = e -> res_of b e L s s' -> chain_st b e s (length (buf s)) 0 s'.
Proof.
  intros H1 H2 (c & Hb & Hc & Ht). exists [], c, (lbl s). rewrite H1, H2, app_nil_r. cbn [accum app]. auto.
Qed.
Lemma res_le b e s s' : res_of b e L s s' -> lbl s <= lbl s'.
Proof. intros (c & _ & C & _). apply (cd_le _ _ _ _ _ _ C). Qed.

Lemma and_close b e n s T rest s' : wf 1 e -> L <= lbl s -> and_st b e s T s' -> head_cop rest <> COP_AND ->
  exists s'', and_loop (S n) masm rep L (length (buf s)) T rest b s' = Ok (rest, s'') /\ res_of b e L s s''.
Proof.
  intros Hw Hs Hst Hh.
  assert (E : and_loop (S n) masm rep L (length (buf s)) T rest b s' =
              if T =? 0 then Ok (rest, s') else Ok (rest, with_jmp (append s' [LLab T]) None)).
  { cbn [and_loop]. destruct (head_cop rest); congruence. }
  rewrite E. destruct b; cbn [and_st] in Hst.
  - destruct Hst as (ptr & acc & c & lo & HA & HC & HT & Hb & _).
    destruct e as [g nm|a|a a'|r a a'|e|e|e1 e2|e1 e2]; cbn [left_of last_of last_and] in *.
    7:{ pose proof (chain_end true e1 e2 T L (lbl s) lo (lbl s') acc c HA HC Hs) as CE. destruct HA as (HT1 & _).
        replace (T =? 0) with false by (symmetry; apply Z.eqb_neq; lia). eexists. split; [reflexivity|].
        exists (acc ++ c ++ [LLab T]). cbn [with_jmp append with_buf buf lbl lastjmp lasttrue]. split; [now rewrite Hb, <- !app_assoc|].
        split; [exact CE|]. reflexivity. }
    7:{ cbn [wf] in Hw. lia. }
    all: destruct HA as (-> & -> & ->); rewrite app_nil_r in HT; exists s'; (split; [reflexivity|]); exists c; (split; [exact Hb|]); (split; assumption).
  - destruct Hst as [-> R]. exists s'. split; [reflexivity|exact R].
Qed.

Lemma or_close b e n s ptr T rest s' : L <= lbl s -> fine b e = true -> or_st b e s ptr T s' -> head_cop rest <> COP_OR ->
  exists s'', or_loop (S n) masm rep L (length (buf s)) ptr T rest b s' = Ok (rest, s'') /\ res_of b e L s s''.
Proof.
  intros Hs Hf Hst Hh.
  set (fin := fun s : st => match lastjmp s with
                 | Some p => if lasttrue s =? 0 then Ok s
                             else let b := ReplaceLabel ptr (lasttrue s) T (buf s) in
                                  if (p <? length b)%nat then Ok (with_buf s (firstn (S p) b)) else UB
                 | None => Ok s
                 end).
  assert (E : or_loop (S n) masm rep L (length (buf s)) ptr T rest b s' =
              if T =? 0 then Ok (rest, s') else bindr (fin s') (fun s => Ok (rest, with_true (append s [LLab T]) T))).
  { cbn [or_loop]. destruct (head_cop rest); try congruence; reflexivity. }
  rewrite E. destruct b; cbn [or_st] in Hst.
  - destruct Hst as [-> R]. exists s'. split; [reflexivity|exact R].
  - destruct Hst as (acc & c & lo & HA & HC & HT & Hb & ->).
    destruct e as [g nm|a|a a'|r a a'|e|e|e1 e2|e1 e2]; cbn [left_of last_of last_or] in *.
    8:{ cbn [fine] in Hf. apply andb_true_iff in Hf as [_ Hf]. cbn [orb] in Hf. apply andb_true_iff in Hf as [_ Hf].
        destruct (or_end false (Some e1) e2 T L (lbl s) lo (buf s) acc c s' e1 eq_refl HA HC HT) as (s'' & c' & E1 & E2 & E3 & E4 & E5); auto; try lia.
        { intros H. rewrite H in Hf. discriminate. }
        destruct HA as (HT1 & _).
        replace (T =? 0) with false by (symmetry; apply Z.eqb_neq; lia).
        exists s''. split.
        - change (bindr (fin s') (fun s => Ok (with_true (append s [LLab T]) T)) = Ok s'') in E1.
          destruct (fin s') as [s1| |]; cbn [bindr] in *; congruence.
        - exists c'. split; [exact E2|]. rewrite E3. split; [exact E4|]. unfold tailed. cbn [ending].
          destruct (ending false e2); auto. }
    all: destruct HA as (-> & -> & ->); rewrite app_nil_r in HT; exists s'; (split; [reflexivity|]); exists c; (split; [exact Hb|]); (split; assumption).
Qed.

Definition len (e : cond) : nat := length (print e).
Lemma len_pos e : (1 <= len e)%nat.
Proof.
  unfold len. induction e; cbn [print]; rewrite ?app_length; cbn [length]; try lia.
  unfold print_opnd. rewrite !app_length. cbn [length]. lia.
Qed.
Definition P0 e := forall b n s rest, wf 0 e -> fine b e = true -> follow rest -> ready s -> (4 * len e <= n + 3)%nat ->
  exists s', GetSimpleExpression n masm rep L (print e ++ rest) b s = Ok (rest, s') /\ res_of b e L s s'.
Definition P1 e := forall b n s rest, wf 1 e -> fine b e = true -> follow rest -> ready s -> (4 * len e <= n + 1)%nat ->
  exists n' T s', (n <= n' + 1 + len e)%nat /\
    GetAndExpression n masm rep L (print e ++ rest) b s = and_loop n' masm rep L (length (buf s)) T rest b s' /\ and_st b e s T s'.
Definition P2 e := forall b n s rest, wf 2 e -> fine b e = true -> follow rest -> head_cop rest <> COP_AND -> ready s -> (4 * len e + 1 <= n)%nat ->
  exists n' ptr T s', (n <= n' + 1 + len e)%nat /\
    GetExpression n masm rep L (print e ++ rest) b s = or_loop n' masm rep L (length (buf s)) ptr T rest b s' /\ or_st b e s ptr T s'.

Lemma P1_full e : P1 e -> forall b n s rest, wf 1 e -> fine b e = true -> follow rest -> head_cop rest <> COP_AND -> ready s -> (4 * len e <= n + 1)%nat ->
  exists s', GetAndExpression n masm rep L (print e ++ rest) b s = Ok (rest, s') /\ res_of b e L s s'.
Proof.
  intros H b n s rest Hw Hf Hr Hh Hs Hn. destruct (H b n s rest Hw Hf Hr Hs Hn) as (n' & T & s' & Hn' & E & Hst). rewrite E.
  pose proof (len_pos e). destruct n' as [|n']; [lia|]. apply and_close; auto. apply Hs.
Qed.
Lemma P2_full e : P2 e -> forall b n s rest, wf 2 e -> fine b e = true -> follow rest -> head_cop rest <> COP_AND -> head_cop rest <> COP_OR -> ready s -> (4 * len e + 1 <= n)%nat ->
  exists s', GetExpression n masm rep L (print e ++ rest) b s = Ok (rest, s') /\ res_of b e L s s'.
Proof.
  intros H b n s rest Hw Hf Hr Ha Hh Hs Hn. destruct (H b n s rest Hw Hf Hr Ha Hs Hn) as (n' & ptr & T & s' & Hn' & E & Hst). rewrite E.
  pose proof (len_pos e). destruct n' as [|n']; [lia|]. apply or_close; auto. apply Hs.
Qed.
Definition not_and (e : cond) := match e with CAnd _ _ => False | _ => True end.
Definition not_or (e : cond) := match e with COr _ _ => False | _ => True end.
Lemma P0_P1 e : not_and e -> P0 e -> P1 e.
Proof.
  intros Hna H b n s rest Hw Hf Hr Hs Hn. pose proof (len_pos e). destruct n as [|n]; [lia|].
  assert (Hw0 : wf 0 e) by (destruct e; cbn [wf] in *; try tauto; try lia; contradiction).
  destruct (H b n s rest Hw0 Hf Hr Hs ltac:(lia)) as (s' & E & R).
  exists n, 0, s'. split; [lia|]. cbn [GetAndExpression]. rewrite E. cbn [bindr]. split; [reflexivity|].
  destruct b; cbn [and_st].
  - exists (length (buf s)). apply chain_one; auto; destruct e; try reflexivity; contradiction.
  - split; [reflexivity|exact R].
Qed.
Lemma P1_P2 e : not_or e -> P1 e -> P2 e.
Proof.
  intros Hna H b n s rest Hw Hf Hr Ha Hs Hn. pose proof (len_pos e). destruct n as [|n]; [lia|].
  assert (Hw1 : wf 1 e) by (destruct e; cbn [wf not_or] in *; try tauto; intuition lia).
  destruct (P1_full e H b n s rest Hw1 Hf Hr Ha Hs ltac:(lia)) as (s' & E & R).
  exists n, (length (buf s)), 0, s'. split; [lia|]. cbn [GetExpression]. rewrite E. cbn [bindr]. split; [reflexivity|].
  destruct b; cbn [or_st].
  - split; [reflexivity|exact R].
  - apply chain_one; auto; destruct e; try reflexivity; contradiction.
Qed.

Lemma join_left b e : match e with CAnd _ _ => b = true | COr _ _ => b = false | _ => True end -> join b (left_of b e) (last_of b e) = e.
Proof. destruct b, e; cbn; intros; try reflexivity; discriminate. Qed.

Lemma P1_and e1 e2 : P1 e1 -> P0 e2 -> P1 (CAnd e1 e2).
Proof.
  intros H1 H2 b n s rest (_ & Hw1 & Hw2) Hf Hr Hs Hn. cbn [fine] in Hf.
  apply andb_true_iff in Hf as [Hf Hturn]. apply andb_true_iff in Hf as [Hf1 Hf2].
  assert (Hlen : len (CAnd e1 e2) = (len e1 + 1 + len e2)%nat) by (unfold len; cbn [print]; rewrite !app_length; cbn [length]; lia).
  pose proof (len_pos e1). pose proof (len_pos e2).
  destruct (H1 b n s (TStr "&&" :: print e2 ++ rest)) as (n1 & T & s1 & Hn1 & E & Hst); auto; try lia.
  { left. reflexivity. }
  cbn [print]. rewrite <- app_assoc. cbn [app]. rewrite E. destruct n1 as [|n1]; [lia|].
  cbn [and_loop head_cop tl]. change (GetCOp (TStr "&&")) with COP_AND. cbv iota.
  destruct Hs as [Hs1 Hs2].
  destruct b; cbn [and_st negb orb] in *.
  - destruct Hst as (ptr & acc & c & lo & HA & HC & HT & Hb & _).
    destruct (chain_turn false true (left_of true e1) (last_of true e1) T L (lbl s) lo (buf s) acc c s1 (length (buf s))) as (T' & s2 & acc' & E2 & Ej & Eb & HA' & Hle); auto; try lia.
    rewrite E2. cbn [bindr].
    rewrite (join_left true e1) in HA' by (destruct e1; auto; cbn [wf] in Hw1; lia).
    assert (Hl2 : lbl s <= lbl s2) by (destruct HA' as (? & _); lia).
    destruct (H2 true n1 (with_true s2 0) rest) as (s3 & E3 & (c3 & B3 & C3 & T3)); auto; try lia.
    { split; [reflexivity|]. cbn [with_true lbl]. lia. }
    rewrite E3. cbn [bindr]. exists n1, T', s3. split; [lia|]. split; [reflexivity|]. cbn [and_st].
    cbn [with_true buf lbl] in *.
    exists (length (buf s ++ acc')), acc', c3, (lbl s2). cbn [left_of last_of last_and]. split; [exact HA'|]. split; [exact C3|].
    rewrite Eb in T3, B3. split; [exact T3|]. split; [now rewrite app_assoc|reflexivity].
  - destruct Hst as [-> R1]. cbn [bindr]. pose proof (res_le _ _ _ _ R1).
    destruct (H2 false n1 (with_true s1 0) rest) as (s3 & E3 & R3); auto; try lia.
    { split; [reflexivity|]. cbn [with_true lbl]. lia. }
    rewrite E3. cbn [bindr]. exists n1, 0, s3. split; [lia|]. split; [reflexivity|]. split; [reflexivity|].
    exact (chain_plain false e1 e2 L s s1 s3 Hs2 R1 R3).
Qed.

Lemma P2_or e1 e2 : P2 e1 -> P1 e2 -> P2 (COr e1 e2).
Proof.
  intros H1 H2 b n s rest (_ & Hw1 & Hw2) Hf Hr Ha Hs Hn. pose proof Hf as Hf0. cbn [fine] in Hf.
  apply andb_true_iff in Hf as [Hf Hturn]. apply andb_true_iff in Hf as [Hf1 Hf2].
  assert (Hlen : len (COr e1 e2) = (len e1 + 1 + len e2)%nat) by (unfold len; cbn [print]; rewrite !app_length; cbn [length]; lia).
  pose proof (len_pos e1). pose proof (len_pos e2).
  destruct (H1 b n s (TStr "||" :: print e2 ++ rest)) as (n1 & ptr & T & s1 & Hn1 & E & Hst); auto; try lia.
  { right. left. reflexivity. }
  { cbn. discriminate. }
  cbn [print]. rewrite <- app_assoc. cbn [app]. rewrite E. destruct n1 as [|n1]; [lia|].
  cbn [or_loop head_cop tl]. change (GetCOp (TStr "||")) with COP_OR. cbv iota.
  destruct Hs as [Hs1 Hs2].
  destruct b; cbn [or_st negb orb] in *.
  - destruct Hst as [-> R1]. cbn [bindr]. pose proof (res_le _ _ _ _ R1).
    destruct (P1_full e2 H2 true n1 (with_true s1 0) rest) as (s3 & E3 & R3); auto; try lia.
    { split; [reflexivity|]. cbn [with_true lbl]. lia. }
    rewrite E3. cbn [bindr]. exists n1, (length (buf s1)), 0, s3. split; [lia|]. split; [reflexivity|]. split; [reflexivity|].
    exact (chain_plain true e1 e2 L s s1 s3 Hs2 R1 R3).
  - destruct Hst as (acc & c & lo & HA & HC & HT & Hb & ->). apply andb_true_iff in Hturn as [Hturn _].
    destruct (chain_turn rep false (left_of false e1) (last_of false e1) T L (lbl s) lo (buf s) acc c s1 (length (buf s ++ acc))) as (T' & s2 & acc' & E2 & Ej & Eb & HA' & Hle); auto; try lia.
    rewrite E2. cbn [bindr].
    assert (HA2 : accum false (Some e1) T' (lbl s) (lbl s2) acc').
    { destruct e1; try exact HA'. }
    clear HA'. rename HA2 into HA'.
    assert (Hl2 : lbl s <= lbl s2) by (destruct HA' as (? & _); lia).
    destruct (P1_full e2 H2 false n1 (with_true s2 0) rest) as (s3 & E3 & (c3 & B3 & C3 & T3)); auto; try lia.
    { split; [reflexivity|]. cbn [with_true lbl]. lia. }
    rewrite E3. cbn [bindr]. exists n1, (length (buf s2)), T', s3. split; [lia|]. split; [reflexivity|]. cbn [or_st].
    cbn [with_true buf lbl] in *.
    exists acc', c3, (lbl s2). cbn [left_of last_of last_or]. split; [exact HA'|]. split; [exact C3|].
    rewrite Eb in T3, B3 |- *. split; [exact T3|]. split; [now rewrite app_assoc|reflexivity].
Qed.

Lemma P_all e : P0 e /\ P1 e /\ P2 e.
Proof.
  assert (At : forall e, is_atom e = true -> P0 e).
  { intros e0 Ha b n s rest Hw Hf Hr Hs Hn. pose proof (len_pos e0). destruct n as [|n]; [lia|].
    assert (Hw2 : wf 2 e0) by (destruct e0; try discriminate; exact Hw).
    rewrite GetSimple_atom by assumption. apply simple_ok; auto. apply Hs. }
  assert (Lift : forall e, not_and e -> not_or e -> P0 e -> P0 e /\ P1 e /\ P2 e).
  { intros e0 Hna Hno H. split; [exact H|]. assert (H1 := P0_P1 e0 Hna H). split; [exact H1|]. now apply P1_P2. }
  induction e as [g s|a|a b|rl a b|e IH|e IH|e1 IH1 e2 IH2|e1 IH1 e2 IH2].
  1-4: apply Lift; [exact Logic.I|exact Logic.I|now apply At].
  - apply Lift; [exact Logic.I|exact Logic.I|]. destruct IH as (IH & _ & _). intros b n s rest Hw Hf Hr Hs Hn.
    cbn [wf fine] in *. assert (Hlen : len (CNot e) = S (len e)) by reflexivity.
    cbn [print app]. rewrite GetSimple_not. destruct (IH (negb b) n s rest Hw Hf Hr Hs ltac:(lia)) as (s' & E & (c & B & C & T)).
    exists s'. split; [exact E|]. exists c. split; [exact B|]. split.
    + destruct C as [Co Cl Cn Ce Cj Cs]. constructor; auto. intros m f Hm. rewrite Cs by assumption. cbn [eval]. destruct (eval m e f) as [v f'].
      destruct v, b; reflexivity.
    + unfold tailed in *. cbn [ending]. destruct (ending (negb b) e); auto.
      destruct T as (c0 & c1 & c2 & K & E1 & E2 & E3 & HF). exists c0, c1, c2, K. split; [exact E1|]. split; [exact E2|]. split; [exact E3|].
      intros m f Hm. specialize (HF m f Hm). cbn [eval]. destruct (eval m e f) as [v f'].
      replace (Bool.eqb (negb v) b) with (Bool.eqb v (negb b)) by (destruct v, b; reflexivity). exact HF.
  - apply Lift; [exact Logic.I|exact Logic.I|]. destruct IH as (_ & _ & IH). intros b n s rest [Ho Hw] Hf Hr Hs Hn.
    cbn [fine] in *. assert (Hlen : len (CPar e) = S (S (len e))) by (unfold len; cbn [print length]; rewrite app_length; cbn [length]; lia).
    destruct n as [|n]; [lia|]. cbn [print app]. rewrite <- app_assoc. cbn [app]. cbn [GetSimpleExpression strip_nots is_not].
    rewrite (scan_true e 2 0) by assumption.
    destruct (P2_full e IH b n s (TClose :: rest)) as (s' & E & R); auto; try lia.
    { right. right. right. eauto. } { discriminate. } { discriminate. }
    rewrite E. cbn [bindr]. exists s'. split; [reflexivity|].
    destruct R as (c & B & [Co Cl Cn Ce Cj Cs] & T). exists c. split; [exact B|]. split; [constructor; auto|exact T].
  - assert (H1 : P1 (CAnd e1 e2)) by (apply P1_and; tauto).
    split; [|split; [exact H1|apply P1_P2; [exact Logic.I|exact H1]]]. intros b n s rest Hw. cbn [wf] in Hw. lia.
  - split; [|split].
    + intros b n s rest Hw. cbn [wf] in Hw. lia.
    + intros b n s rest Hw. cbn [wf] in Hw. lia.
    + apply P2_or; tauto.
Qed.
End Rec.

(** the whole translation *)
Lemma evaluate_ok masm rep L b counter e : wf 2 e -> fine b e = true -> 0 < L <= counter ->
  exists code counter', EvaluateHllExpression masm rep L b counter (print e) = Ok (code, counter') /\ coded b e L counter counter' code.
Proof.
  intros Hw Hf HL. unfold EvaluateHllExpression. set (s0 := {| buf := []; lastjmp := None; lasttrue := 0; lbl := counter |}).
  destruct (P_all masm rep L ltac:(lia) e) as (_ & _ & H).
  destruct (P2_full masm rep L ltac:(lia) e H b (4 * length (print e) + 4)%nat s0 []) as (s' & E & (c & B & C & _)); auto.
  - right. right. now left.
  - discriminate.
  - discriminate.
  - split; [reflexivity|]. cbn. lia.
  - unfold len. lia.
  - rewrite app_nil_r in E. rewrite E. cbn [bindr]. exists (buf s'), (lbl s'). split; [reflexivity|]. cbn in B. now rewrite B.
Qed.
