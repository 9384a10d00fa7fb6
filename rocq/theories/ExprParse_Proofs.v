From Verif Require Import Base Expr_Spec Expr_Model ExprRun_Spec Expr_Proofs.

Definition follow (f : Z) (rest : list tok) : Prop :=
  match rest with [] => True | t :: _ => t = TClose \/ exists o, t = btok o /\ f <= prec o end.

Lemma prec_btok : forall o, get_precedence false true (btok o) = prec o.
Proof. intros []; reflexivity. Qed.
Lemma prec_utok : forall o, get_precedence false false (utok o) = uprec o.
Proof. intros []; reflexivity. Qed.
Lemma prec_low : forall o, 8 <= prec o.
Proof. intros []; cbn; lia. Qed.

Lemma set_ll_hl : forall e v, hl (set_ll e v) = hl e.
Proof. reflexivity. Qed.
Lemma den_hl : forall t v, den t = Val v -> hl v = 0.
Proof.
  induction t as [n|o t IH|o a IHa b IHb]; intros v H; cbn [den] in H.
  - injection H as <-. reflexivity.
  - destruct (den t) as [e| |]; try discriminate. specialize (IH e eq_refl). unfold calculate in H. rewrite IH in H.
    change (negb (0 =? 0)) with false in H. cbn [andb] in H.
    destruct o; cbn [utok] in H; injection H as <-; rewrite ?unary_hl; try exact IH.
    cbn [negative_op hl]. rewrite IH. reflexivity.
  - destruct (den a) as [va| |]; try discriminate. destruct (den b) as [vb| |]; try discriminate.
    specialize (IHa va eq_refl). specialize (IHb vb eq_refl). unfold calculate in H. rewrite IHb in H.
    change (negb (0 =? 0)) with false in H. cbn [andb] in H.
    destruct o; cbn [btok binary_op] in H;
      repeat match type of H with context [if ?c then _ else _] =>
        match c with
        | ll _ =? 0 => destruct c
        | _ && _ => destruct c
        | _ <? 0 => destruct c
        end end;
      try discriminate; injection H as <-; rewrite ?set_ll_hl; exact IHa.
Qed.

Lemma absorb_stop : forall p f b rest, follow f rest -> p <= f \/ p <= 8 -> runs (fun n => absorb n false p b rest) (Done b rest).
Proof.
  intros p f b rest F L. split; [discriminate|]. exists 1%nat. destruct rest as [|t r]; [reflexivity|].
  destruct F as [->|(o & -> & Ho)]; [reflexivity|].
  assert (get_precedence false true (btok o) >=? p = true) as G.
  { rewrite prec_btok. pose proof (prec_low o). rewrite Z.geb_leb. apply Z.leb_le. lia. }
  destruct o; cbn [absorb btok is_operator negb orb] in *; rewrite G; reflexivity.
Qed.
Lemma absorb_more : forall p o b r R, prec o < p ->
  runs (seq (fun n => evaluate n false true b (btok o :: r)) (fun b r n => absorb n false p b r)) R -> runs (fun n => absorb n false p b (btok o :: r)) R.
Proof.
  intros p o b r R L. apply runs_S. intros n.
  assert (get_precedence false true (btok o) >=? p = false) as G.
  { rewrite prec_btok. rewrite Z.geb_leb. apply Z.leb_gt. lia. }
  destruct o; cbn [absorb btok is_operator negb orb] in *; rewrite G; reflexivity.
Qed.
Lemma oploop_stop : forall one a rest, match rest with [] => True | t :: _ => t = TClose end -> runs (fun n => oploop n false one a rest) (Done a rest).
Proof.
  intros one a rest H. split; [discriminate|]. exists 1%nat. destruct rest as [|t r]; [reflexivity|]. subst t. reflexivity.
Qed.

Definition finish (one : bool) (op : tok) (a b : opnd) (r : list tok) (n : nat) : ev :=
  match calculate false op a b with
  | CErr => Error
  | CUndef => Undefined
  | Val v => if one then Done (Some v) r else oploop n false one (Some v) r
  end.
Lemma mono_finish : forall one op a b r, mono (finish one op a b r).
Proof.
  intros. unfold finish. destruct (calculate false op a b); try apply mono_const. destruct one; [apply mono_const|]. apply mono_oploop.
Qed.
Lemma oploop_op : forall one a op r R,
  match op with TClose => False | TNum _ _ | TOther | TUn _ => a = None | _ => True end ->
  runs (seq (seq (fun n => operand n false op r) (fun b r n => absorb n false (get_precedence false (match a with Some _ => true | None => false end) op) b r)) (fun b r => finish one op a b r)) R ->
  runs (fun n => oploop n false one a (op :: r)) R.
Proof.
  intros one a op r R G. apply runs_S. intros n.
  transitivity (bind (operand n false op r) (fun b r =>
            bind (absorb n false (get_precedence false (match a with Some _ => true | None => false end) op) b r) (fun b r => finish one op a b r n))).
  - unfold finish. destruct op, a; try contradiction; try discriminate G; reflexivity.
  - unfold seq. destruct (operand n false op r) as [e r'| | |]; cbn [bind]; try reflexivity.
Qed.
Lemma operand_head : forall op t r n, op <> TOpen ->
  operand (S n) false op (t :: r) = if is_unary_op t then evaluate n false true None (t :: r)
    else match t with TNum l h => Done (Some {| ll := l; hl := h; neg := false |}) r | _ => Error end.
Proof. intros op t r n H. destruct op; try reflexivity. congruence. Qed.

Definition M1 p f t ts := forall rest, follow f rest -> forall p0, p < p0 -> forall op, op <> TOpen -> forall R,
  runs (then_ (den t) (fun v n => absorb n false p0 (Some v) rest)) R ->
  runs (seq (fun n => operand n false op (ts ++ rest)) (fun e r n => absorb n false p0 e r)) R.
Definition M2 f t ts := forall rest, follow f rest -> forall R,
  runs (then_ (den t) (fun v n => oploop n false false (Some v) rest)) R ->
  runs (fun n => evaluate n false false None (ts ++ rest)) R.

Lemma cal_not_fuel : forall c r, cal_ev c r <> Fuel.
Proof. intros [] r; discriminate. Qed.
Lemma fail_runs : forall c F r R, (forall v, c <> Val v) -> runs (then_ c F) R -> R = cal_ev c r /\ (R = Error \/ R = Undefined).
Proof. intros c F r R H (HR & n & E). destruct c as [v| |]; [destruct (H v eq_refl)|cbn in E; subst R; auto|cbn in E; subst R; auto]. Qed.

(** an operator with the operand behind it *)
Lemma op_operand : forall one a op p0 p f t ts rest R,
  M1 p f t ts -> follow f rest -> p < p0 -> p0 <= f -> op <> TOpen ->
  match op with TClose => False | TNum _ _ | TOther | TUn _ => a = None | _ => True end ->
  get_precedence false (match a with Some _ => true | None => false end) op = p0 ->
  runs (then_ (den t) (fun v => finish one op a (Some v) rest)) R ->
  runs (fun n => oploop n false one a (op :: ts ++ rest)) R.
Proof.
  intros one a op p0 p f t ts rest R H1 F L1 L2 NO G P HR. apply oploop_op; [exact G|]. rewrite P.
  specialize (H1 rest F p0 L1 op NO).
  destruct (den t) as [v| |] eqn:D; cbn [then_] in HR.
  - apply runs_seq with (e := Some v) (r := rest).
    + apply mono_seq; [apply mono_operand|intros; apply mono_absorb].
    + apply mono_finish.
    + apply H1. cbn [then_]. apply absorb_stop with f; [exact F|lia].
    + exact HR.
  - assert (R = Error) as -> by (destruct HR as (_ & n & E); symmetry; exact E).
    apply runs_seq_fail; [auto|]. apply H1. exact HR.
  - assert (R = Undefined) as -> by (destruct HR as (_ & n & E); symmetry; exact E).
    apply runs_seq_fail; [auto|]. apply H1. exact HR.
Qed.
(** a bracketed expression *)
Lemma op_bracket : forall (one : bool) t ts rest f R,
  (forall rest, follow 15 rest -> forall R, runs (then_ (den t) (fun v n => oploop n false false (Some v) rest)) R -> runs (fun n => evaluate n false false None (ts ++ rest)) R) ->
  follow f rest ->
  runs (then_ (den t) (fun v n => if one then Done (Some v) rest else oploop n false one (Some v) rest)) R ->
  runs (fun n => oploop n false one None (TOpen :: (ts ++ [TClose]) ++ rest)) R.
Proof.
  intros one t ts rest f R H F HR. apply oploop_op; [exact Logic.I|]. rewrite <- app_assoc. cbn [app].
  specialize (H (TClose :: rest) (or_introl eq_refl)).
  assert (runs (fun n => operand n false TOpen (ts ++ TClose :: rest)) (cal_ev (den t) rest)) as O.
  { apply runs_S with (G := seq (fun n => evaluate n false false None (ts ++ TClose :: rest)) (fun e r (_ : nat) => match r with TClose :: r => Done e r | _ => Error end)); [intros n; reflexivity|].
    destruct (den t) as [v| |]; cbn [cal_ev].
    - apply runs_seq with (e := Some v) (r := TClose :: rest); [apply mono_evaluate|apply mono_const| |apply runs_const; discriminate].
      apply H. cbn [then_]. apply oploop_stop. reflexivity.
    - apply runs_seq_fail; [auto|]. apply H. apply runs_const. discriminate.
    - apply runs_seq_fail; [auto|]. apply H. apply runs_const. discriminate. }
  destruct (den t) as [v| |] eqn:D; cbn [then_ cal_ev] in *.
  - apply runs_seq with (e := Some v) (r := rest).
    + apply mono_seq; [apply mono_operand|intros; apply mono_absorb].
    + apply mono_finish.
    + apply runs_seq with (e := Some v) (r := rest); [apply mono_operand|apply mono_absorb|exact O|].
      apply absorb_stop with f; [exact F|]. right. cbn. lia.
    + unfold finish, calculate. rewrite (den_hl t v D). cbn [Z.eqb negb andb]. exact HR.
  - assert (R = Error) as -> by (destruct HR as (_ & n & E); symmetry; exact E).
    apply runs_seq_fail; [auto|]. apply runs_seq_fail; [auto|exact O].
  - assert (R = Undefined) as -> by (destruct HR as (_ & n & E); symmetry; exact E).
    apply runs_seq_fail; [auto|]. apply runs_seq_fail; [auto|exact O].
Qed.

Lemma is_unary_utok : forall o, is_unary_op (utok o) = true.
Proof. intros []; reflexivity. Qed.
Lemma utok_ok : forall o (a : opnd), match utok o with TClose => False | TNum _ _ | TOther | TUn _ => @None expr = None | _ => True end.
Proof. intros [] a; cbn; auto. Qed.
Lemma btok_ok : forall o (a : opnd), match btok o with TClose => False | TNum _ _ | TOther | TUn _ => a = None | _ => True end.
Proof. intros [] a; cbn; auto. Qed.
Lemma utok_open : forall o, utok o <> TOpen.
Proof. intros []; discriminate. Qed.
Lemma btok_open : forall o, btok o <> TOpen.
Proof. intros []; discriminate. Qed.
Lemma evaluate_some : forall one v ts R, runs (fun n => oploop n false one (Some v) ts) R -> runs (fun n => evaluate n false one (Some v) ts) R.
Proof. intros one v ts R. apply runs_S. intros n. reflexivity. Qed.
Lemma evaluate_unary : forall one t ts R, is_unary_op t = true -> runs (fun n => oploop n false one None (t :: ts)) R -> runs (fun n => evaluate n false one None (t :: ts)) R.
Proof. intros one t ts R H. apply runs_S. intros n. cbn [evaluate]. rewrite H. reflexivity. Qed.
Lemma operand_unary : forall op t ts R, op <> TOpen -> is_unary_op t = true -> runs (fun n => oploop n false true None (t :: ts)) R -> runs (fun n => operand n false op (t :: ts)) R.
Proof.
  intros op t ts R NO H HR. apply runs_S with (G := fun n => evaluate n false true None (t :: ts)).
  - intros n. rewrite operand_head by exact NO. rewrite H. reflexivity.
  - apply evaluate_unary; assumption.
Qed.
(** a first part that ends with the value of c, then absorb *)
Lemma then_absorb : forall c p0 rest F R, mono F ->
  runs F (cal_ev c rest) -> runs (then_ c (fun v n => absorb n false p0 (Some v) rest)) R -> runs (seq F (fun e r n => absorb n false p0 e r)) R.
Proof.
  intros c p0 rest F R M H HR. destruct c as [v| |]; cbn [cal_ev then_] in *.
  - apply runs_seq with (e := Some v) (r := rest); [exact M|apply mono_absorb|exact H|exact HR].
  - assert (R = Error) as -> by (destruct HR as (_ & n & E); symmetry; exact E). apply runs_seq_fail; auto.
  - assert (R = Undefined) as -> by (destruct HR as (_ & n & E); symmetry; exact E). apply runs_seq_fail; auto.
Qed.
Lemma finish_one : forall op a v rest, runs (finish true op a (Some v) rest) (cal_ev (calculate false op a (Some v)) rest).
Proof. intros. unfold finish. destruct (calculate false op a (Some v)); apply runs_const; discriminate. Qed.

Theorem parse_all : forall p f t ts, Writes p f t ts -> M1 p f t ts /\ M2 f t ts.
Proof.
  intros p f t ts W.
  induction W as [p f n|p f t ts W [I1 I2]|p f o t ts L W [I1 I2]|p f o a b ta tb L1 L2 Wa [A1 A2] Wb [B1 B2]].
  - split.
    + intros rest F p0 L op NO R HR. cbn [den then_] in HR.
      apply runs_seq with (e := Some {| ll := n; hl := 0; neg := false |}) (r := rest); [apply mono_operand|apply mono_absorb| |exact HR].
      split; [discriminate|]. exists 1%nat. cbn [app]. rewrite operand_head by exact NO. reflexivity.
    + intros rest F R HR. cbn [den then_] in HR. apply runs_S with (2 := HR). intros m. reflexivity.
  - split.
    + intros rest F p0 L op NO R HR. cbn [app].
      apply then_absorb with (c := den t) (rest := rest); [apply mono_operand| |exact HR].
      apply operand_unary; [exact NO|reflexivity|]. apply op_bracket with (t := t) (f := f); [exact I2|exact F|].
      destruct (den t); cbn [then_ cal_ev]; apply runs_const; discriminate.
    + intros rest F R HR. cbn [app]. apply evaluate_unary; [reflexivity|].
      apply op_bracket with (t := t) (f := f); [exact I2|exact F|exact HR].
  - split.
    + intros rest F p0 Lp op NO R HR. cbn [app].
      apply then_absorb with (c := den (Un o t)) (rest := rest); [apply mono_operand| |exact HR].
      apply operand_unary; [exact NO|apply is_unary_utok|].
      apply op_operand with (p0 := uprec o) (p := uprec o - 1) (f := f) (t := t);
        [exact I1|exact F|lia|exact L|apply utok_open|apply (utok_ok o None)|apply prec_utok|].
      cbn [den]. destruct (den t) as [v| |]; cbn [then_ cal_ev]; [apply finish_one|apply runs_const; discriminate|apply runs_const; discriminate].
    + intros rest F R HR. cbn [app]. apply evaluate_unary; [apply is_unary_utok|].
      apply op_operand with (p0 := uprec o) (p := uprec o - 1) (f := f) (t := t);
        [exact I1|exact F|lia|exact L|apply utok_open|apply (utok_ok o None)|apply prec_utok|].
      cbn [den] in HR. destruct (den t) as [v| |]; cbn [then_] in *; [|exact HR|exact HR].
      unfold finish. destruct (calculate false (utok o) None (Some v)); exact HR.
  - assert (forall rest, follow (prec o) (btok o :: tb ++ rest)) as FO.
    { intros rest. right. exists o. split; [reflexivity|lia]. }
    split.
    + intros rest F p0 Lp op NO R HR. rewrite <- app_assoc. cbn [app].
      apply A1; [apply FO|lia|exact NO|]. cbn [den] in HR.
      destruct (den a) as [va| |]; cbn [then_] in *; [|exact HR|exact HR].
      apply absorb_more; [lia|].
      apply then_absorb with (c := match den b with Val vb => calculate false (btok o) (Some va) (Some vb) | x => x end) (rest := rest); [apply mono_evaluate| |exact HR].
      apply evaluate_some.
      apply op_operand with (p0 := prec o) (p := prec o - 1) (f := f) (t := b);
        [exact B1|exact F|lia|exact L2|apply btok_open|apply btok_ok|apply prec_btok|].
      destruct (den b) as [vb| |]; cbn [then_ cal_ev]; [apply finish_one|apply runs_const; discriminate|apply runs_const; discriminate].
    + intros rest F R HR. rewrite <- app_assoc. cbn [app].
      apply A2; [apply FO|]. cbn [den] in HR.
      destruct (den a) as [va| |]; cbn [then_] in *; [|exact HR|exact HR].
      apply op_operand with (p0 := prec o) (p := prec o - 1) (f := f) (t := b);
        [exact B1|exact F|lia|exact L2|apply btok_open|apply btok_ok|apply prec_btok|].
      destruct (den b) as [vb| |]; cbn [then_] in *; [|exact HR|exact HR].
      unfold finish. destruct (calculate false (btok o) (Some va) (Some vb)); exact HR.
Qed.

(** * The fuel given by EvalOperand suffices *)
Definition shorter (x : ev) (k : nat) : Prop := match x with Fuel => False | Done _ r => (length r <= k)%nat | _ => True end.
Lemma bind_shorter : forall x g k, shorter x k -> (forall e r, (length r <= k)%nat -> shorter (g e r) k) -> shorter (bind x g) k.
Proof. intros [] g k H HG; cbn in *; auto. Qed.
Lemma shorter_le : forall x k k', (k <= k')%nat -> shorter x k -> shorter x k'.
Proof. intros [] k k' L H; cbn in *; auto. lia. Qed.

Lemma fuel_enough : forall n,
  (forall m510 one a ts, (4 * length ts + 2 <= n)%nat -> shorter (evaluate n m510 one a ts) (length ts)
     /\ (closes ts = false -> shorter (evaluate n m510 one a ts) (length ts - 1)))
  /\ (forall m510 one a ts, (4 * length ts + 1 <= n)%nat -> shorter (oploop n m510 one a ts) (length ts)
     /\ (closes ts = false -> shorter (oploop n m510 one a ts) (length ts - 1)))
  /\ (forall m510 op ts, (4 * length ts + 3 <= n)%nat -> shorter (operand n m510 op ts) (length ts))
  /\ (forall m510 p b ts, (4 * length ts + 3 <= n)%nat -> shorter (absorb n m510 p b ts) (length ts)).
Proof.
  induction n as [|n (I1 & I2 & I3 & I4)].
  - repeat apply conj; intros; exfalso; lia.
  - repeat apply conj.
    + intros m510 one a ts L.
      assert (closes ts = false -> shorter (evaluate (S n) m510 one a ts) (length ts - 1)) as K.
      { intros C. destruct a as [v|].
        - change (shorter (oploop n m510 one (Some v) ts) (length ts - 1)). apply I2; [lia|exact C].
        - destruct ts as [|t r]; [discriminate|].
          change (shorter (if is_unary_op t then oploop n m510 one None (t :: r)
             else match t with TNum l h => oploop n m510 one (Some {| ll := l; hl := h; neg := false |}) r | _ => Error end) (length (t :: r) - 1)).
          destruct (is_unary_op t); [apply I2; [lia|exact C]|]. destruct t; try exact Logic.I.
          cbn [length] in *. rewrite Nat.sub_succ, Nat.sub_0_r. apply I2. lia. }
      split; [|exact K]. destruct (closes ts) eqn:C.
      * destruct a as [v|]; [change (shorter (oploop n m510 one (Some v) ts) (length ts)); apply I2; lia|].
        destruct ts as [|t r]; [exact Logic.I|]. destruct t; try discriminate. exact Logic.I.
      * apply shorter_le with (length ts - 1)%nat; [lia|auto].
    + intros m510 one a ts L.
      assert (closes ts = false -> shorter (oploop (S n) m510 one a ts) (length ts - 1)) as K.
      { intros C. destruct ts as [|op r]; [discriminate|].
        set (binary := match a with Some _ => true | None => false end).
        assert (oploop (S n) m510 one a (op :: r) =
        if binary && (negb (is_operator op) || match op with TUn _ => true | _ => false end) then Error
        else bind (operand n m510 op r) (fun b r =>
             bind (absorb n m510 (get_precedence m510 binary op) b r) (fun b r =>
             match calculate m510 op a b with
             | CErr => Error | CUndef => Undefined
             | Val v => if one then Done (Some v) r else oploop n m510 one (Some v) r end))) as E
        by (destruct op; try discriminate; reflexivity).
        rewrite E. destruct (_ && _); [exact Logic.I|]. cbn [length] in *. rewrite Nat.sub_succ, Nat.sub_0_r.
        apply bind_shorter; [apply I3; lia|]. intros e r1 L1.
        apply bind_shorter; [apply shorter_le with (length r1); [lia|apply I4; lia]|]. intros e2 r2 L2.
        destruct (calculate m510 op a e2); [|exact Logic.I|exact Logic.I]. destruct one; [exact L2|].
        apply shorter_le with (length r2); [lia|apply I2; lia]. }
      split; [|exact K]. destruct (closes ts) eqn:C.
      * destruct ts as [|t r]; [cbn; lia|]. destruct t; try discriminate. cbn. lia.
      * apply shorter_le with (length ts - 1)%nat; [lia|auto].
    + intros m510 op ts L. destruct (match op with TOpen => true | _ => false end) eqn:EO.
      * destruct op; try discriminate.
        change (shorter (bind (evaluate n m510 false None ts) (fun e r => match r with TClose :: r => Done e r | _ => Error end)) (length ts)).
        apply bind_shorter; [apply I1; lia|]. intros e r Lr. destruct r as [|t r]; [exact Logic.I|]. destruct t; try exact Logic.I. cbn in *. lia.
      * assert (operand (S n) m510 op ts =
          match ts with
          | [] => Error
          | t :: r =>
              if is_unary_op t then evaluate n m510 true None ts
              else match t with TNum l h => Done (Some {| ll := l; hl := h; neg := false |}) r | _ => Error end
          end) as E by (destruct op; try discriminate; reflexivity).
        rewrite E. destruct ts as [|t r]; [exact Logic.I|]. destruct (is_unary_op t); [apply I1; lia|]. destruct t; try exact Logic.I. cbn. lia.
    + intros m510 p b ts L. destruct (closes ts) eqn:C.
      * destruct ts as [|t r]; [cbn; lia|]. destruct t; try discriminate. cbn. lia.
      * destruct ts as [|t r]; [discriminate|].
        assert (absorb (S n) m510 p b (t :: r) =
          if negb (is_operator t) || match t with TUn _ => true | _ => false end then Error
          else if get_precedence m510 true t >=? p then Done b (t :: r)
          else bind (evaluate n m510 true b (t :: r)) (fun b r => absorb n m510 p b r)) as E
        by (destruct t; try discriminate; reflexivity).
        rewrite E. destruct (_ || _); [exact Logic.I|]. destruct (_ >=? _); [cbn; lia|].
        pose proof (proj2 (I1 m510 true b (t :: r) ltac:(lia)) C) as S1.
        destruct (evaluate n m510 true b (t :: r)) as [e r1| | |]; cbn [bind shorter] in *; auto.
        apply shorter_le with (length r1); [cbn [length] in *; lia|]. apply I4. cbn [length] in *. lia.
Qed.
Lemma EvalOperand_total : forall m510 ts, EvalOperand m510 ts <> Fuel.
Proof.
  intros m510 ts. unfold EvalOperand. destruct ts as [|t r]; [discriminate|].
  pose proof (proj1 (proj1 (fuel_enough (8 * length (t :: r) + 8)) m510 false None (t :: r) ltac:(lia))) as K.
  destruct (evaluate _ _ _ _ _); [discriminate|discriminate|discriminate|destruct K].
Qed.
Lemma EvalOperand_runs : forall ts R, ts <> [] -> runs (fun n => evaluate n false false None ts) R -> EvalOperand false ts = R.
Proof.
  intros ts R NE HR. pose proof (EvalOperand_total false ts) as T. unfold EvalOperand in *. destruct ts as [|t r]; [congruence|].
  apply (runs_det (fun n => evaluate n false false None (t :: r))); [apply mono_evaluate| |exact HR].
  split; [exact T|]. eexists. reflexivity.
Qed.
Lemma writes_nonempty : forall p f t ts, Writes p f t ts -> ts <> [].
Proof. intros p f t ts W. destruct W; try discriminate. destruct ta; discriminate. Qed.

Theorem evaluates : forall t ts, Writes 15 15 t ts -> in_range t -> delivers (eval t) (EvalOperand false ts).
Proof.
  intros t ts W H. pose proof (den_agrees t H) as A. destruct (parse_all _ _ _ _ W) as [_ P].
  specialize (P [] Logic.I). rewrite app_nil_r in P.
  destruct (den t) as [v| |]; cbn [agrees then_] in *.
  - destruct A as (-> & Hh & _). exists (neg v). rewrite <- Hh. apply EvalOperand_runs; [apply (writes_nonempty _ _ _ _ W)|].
    apply P. destruct v; apply oploop_stop. exact Logic.I.
  - rewrite A. cbn. apply EvalOperand_runs; [apply (writes_nonempty _ _ _ _ W)|]. apply P. apply runs_const. discriminate.
  - rewrite A. cbn. apply EvalOperand_runs; [apply (writes_nonempty _ _ _ _ W)|]. apply P. apply runs_const. discriminate.
Qed.

Lemma uprec_low : forall o, 6 <= uprec o <= 11.
Proof. intros []; cbn; lia. Qed.
Lemma write_writes : forall t p f, p <= f -> Writes p f t (write p t).
Proof.
  induction t as [n|o t IH|o a IHa b IHb]; intros p f L; cbn [write].
  - constructor.
  - destruct (p <? uprec o) eqn:E; cbn [brackets].
    + apply WPar. pose proof (uprec_low o). apply WUn; [lia|]. apply IH. lia.
    + apply WUn; [lia|]. apply IH. lia.
  - assert (prec o <= 13) by (destruct o; cbn; lia). destruct (p <? prec o) eqn:E; cbn [brackets].
    + apply WPar. apply WBin; [lia|lia|apply IHa; lia|apply IHb; lia].
    + apply WBin; [lia|lia|apply IHa; lia|apply IHb; lia].
Qed.
