(** Every condition that is accepted belongs to the grammar, as a whole. *)
From Coq Require Import String Ascii List ZArith Bool Lia.
From Verif Require Import Base Hll_Model Hll_Spec.
Import ListNotations.
Open Scope Z_scope.

Lemma is_not_eq t : is_not t = true -> t = TStr "!".
Proof. destruct t; cbn; try discriminate. intros H. apply String.eqb_eq in H. subst. reflexivity. Qed.

Lemma strip_nots_ok : forall l b l' b', strip_nots l b = (l', b') ->
  exists n, l = repeat (TStr "!") n ++ l'.
Proof.
  induction l as [|t r IH]; intros b l' b' H; cbn in H.
  - apply pair_equal_spec in H as [<- <-]. exists 0%nat. reflexivity.
  - destruct (is_not t) eqn:Et.
    + apply is_not_eq in Et as ->. destruct (IH _ _ _ H) as [n ->]. exists (S n). reflexivity.
    + apply pair_equal_spec in H as [<- <-]. exists 0%nat. reflexivity.
Qed.

Lemma repeat_snoc {A} (x : A) n : x :: repeat x n = repeat x n ++ [x].
Proof. induction n as [|n IH]; cbn; [reflexivity|]. now rewrite <- IH. Qed.

Lemma eval_operand_ok : forall l o r, eval_operand l = Ok (o, r) -> exists n, l = print_opnd {| parens := n; opnd := o |} ++ r.
Proof.
  fix IH 1. intros l o r H. destruct l as [|t l]; [discriminate|]. destruct t; cbn in H; try discriminate.
  - assert (E : o0 = o /\ l = r) by (inversion H; auto). destruct E as [-> ->]. exists 0%nat. reflexivity.
  - destruct (eval_operand l) as [[o1 r1]| |] eqn:El; cbn in H; try discriminate.
    destruct r1 as [|[] r1]; try discriminate. assert (E : o1 = o /\ r1 = r) by (inversion H; auto). destruct E as [-> ->].
    destruct (IH _ _ _ El) as [n ->]. exists (S n). unfold print_opnd. cbn [parens opnd repeat app].
    rewrite (repeat_snoc TClose). f_equal. rewrite <- !app_assoc. cbn. rewrite <- app_assoc. reflexivity.
Qed.

Lemma GetToken_ok l o r : GetToken l = Ok (o, r) ->
  match o with
  | None => r = l /\ (l = [] \/ exists t l', l = t :: l' /\ is_cop t = true)
  | Some o => exists n, l = print_opnd {| parens := n; opnd := o |} ++ r
  end.
Proof.
  unfold GetToken. destruct l as [|t l].
  - intros H. assert (E : None = o /\ [] = r) by (inversion H; auto). destruct E as [<- <-]. auto.
  - destruct (is_cop t) eqn:Et.
    + intros H. assert (E : None = o /\ t :: l = r) by (inversion H; auto). destruct E as [<- <-]. split; [reflexivity|]. right. eauto.
    + destruct (eval_operand (t :: l)) as [[o1 r1]| |] eqn:El; cbn [bindr]; try discriminate.
      intros H. assert (E : Some o1 = o /\ r1 = r) by (inversion H; auto). destruct E as [<- <-]. now apply eval_operand_ok.
Qed.

(** tokens of the operators *)
Lemma cop_tok t : match GetCOp t with
  | COP_NONE => True
  | COP_EQ => t = TStr "==" | COP_NE => t = TStr "!=" | COP_GT => t = TStr ">" | COP_LT => t = TStr "<"
  | COP_GE => t = TStr ">=" | COP_LE => t = TStr "<=" | COP_AND => t = TStr "&&" | COP_OR => t = TStr "||"
  | COP_ANDB => t = TStr "&" | COP_NEG => t = TStr "!"
  | COP_ZERO => exists s, t = TId s /\ uppers s = "ZERO?" | COP_CARRY => exists s, t = TId s /\ uppers s = "CARRY?"
  | COP_SIGN => exists s, t = TId s /\ uppers s = "SIGN?" | COP_PARITY => exists s, t = TId s /\ uppers s = "PARITY?"
  | COP_OVERFLOW => exists s, t = TId s /\ uppers s = "OVERFLOW?" | COP_LESS => exists s, t = TId s /\ uppers s = "LESS?"
  | COP_GREATER => exists s, t = TId s /\ uppers s = "GREATER?" | COP_ABOVE => exists s, t = TId s /\ uppers s = "ABOVE?"
  | COP_EQUAL => exists s, t = TId s /\ uppers s = "EQUAL?" | COP_BELOW => exists s, t = TId s /\ uppers s = "BELOW?"
  end%string.
Proof.
  destruct t as [s|s| | |]; cbn [GetCOp]; auto; unfold same;
  repeat match goal with
  | |- context [if String.eqb ?a ?b then _ else _] => destruct (String.eqb_spec a b)
  end; subst; eauto.
Qed.

Lemma head_cop_cons l : head_cop l <> COP_NONE -> exists t r, l = t :: r /\ head_cop l = GetCOp t /\ tl l = r.
Proof. destruct l as [|t r]; cbn; [congruence|]. eauto. Qed.

Lemma simple_ok masm L l b s r s' : simple masm L l b s = Ok (r, s') -> exists e, reads 0 e /\ l = print e ++ r /\ (has_operator e = false -> exists a, e = COne a).
Proof.
  unfold simple. destruct (GetToken l) as [[op1 l1]| |] eqn:E1; cbn [bindr]; try discriminate.
  apply GetToken_ok in E1.
  set (op := match head_cop l1 with COP_AND | COP_OR => COP_NONE | c => c end).
  set (l2 := match op with COP_NONE => l1 | _ => tl l1 end).
  intros H.
  destruct (flaginstr op) as [cc|] eqn:Ef.
  - destruct op1; [discriminate|]. cbn [bindr] in H. assert (E : l2 = r) by (inversion H; auto). subst r. clear H.
    destruct E1 as [-> [-> | (t & l' & -> & _)]]; [discriminate|].
    pose proof (cop_tok t) as Ht. unfold l2, op in *. clear l2 op. cbn [head_cop] in *.
    destruct (GetCOp t); try discriminate; destruct Ht as (sx & -> & Hu); cbn [tl].
    all: match type of Hu with _ = ?n =>
      match n with
      | "ZERO?"%string => exists (CFlag FZero sx) | "CARRY?"%string => exists (CFlag FCarry sx) | "SIGN?"%string => exists (CFlag FSign sx)
      | "PARITY?"%string => exists (CFlag FParity sx) | "OVERFLOW?"%string => exists (CFlag FOverflow sx) | "LESS?"%string => exists (CFlag FLess sx)
      | "GREATER?"%string => exists (CFlag FGreater sx) | "ABOVE?"%string => exists (CFlag FAbove sx) | "EQUAL?"%string => exists (CFlag FEqual sx)
      | "BELOW?"%string => exists (CFlag FBelow sx) end end; cbn; rewrite ?Hu; split; [reflexivity|]; split; [reflexivity|discriminate].
  - destruct op1 as [a|]; [|discriminate]. destruct E1 as [n E1].
    assert (Hop : op = COP_NONE \/ (op <> COP_NONE /\ op <> COP_AND /\ op <> COP_OR /\ exists t, l1 = t :: l2 /\ op = GetCOp t)).
    { unfold l2, op. destruct l1 as [|t l']; cbn [head_cop]; [left; reflexivity|]. destruct (GetCOp t) eqn:Et; try (left; reflexivity); right;
      (repeat (split; [congruence|])); exists t; rewrite Et; auto. }
    destruct Hop as [Hop | (Hn & Hna & Hno & t & El1 & Hop)].
    + rewrite Hop in H. unfold l2 in H. rewrite Hop in H.
      exists (COne {| parens := n; opnd := a |}). cbn [reads print has_operator opnd].
      destruct (k_kind a) as [| |v] eqn:Ek.
      * cbn [bindr] in H. assert (E : l1 = r) by (inversion H; auto). subst r. split; [exact Logic.I|]. split; [exact E1|eauto].
      * cbn [bindr] in H. assert (E : l1 = r) by (inversion H; auto). subst r. split; [exact Logic.I|]. split; [exact E1|eauto].
      * destruct (negb (Z.shiftr v 32 =? 0) && negb (Z.shiftr v 32 =? -1)) eqn:Ev; [discriminate|].
        assert (E : l1 = r) by (destruct ((b && _) || _); inversion H; auto). subst r. split; [|split; [exact E1|eauto]].
        rewrite Z.shiftr_div_pow2 in Ev by lia. change (2 ^ 32) with 4294967296 in *. lia.
    + clearbody l2. clearbody op. pose proof (cop_tok t) as Ht. rewrite <- Hop in Ht.
      assert (H2 : bindr (GetToken l2) (fun '(op2, l3) => match op2 with None => Err | Some _ => if (match op with COP_ANDB => true | _ => is_cmp op end) then Ok l3 else Err end) = Ok r).
      { destruct op; try congruence; try discriminate;
        (destruct (GetToken l2) as [[[o2|] l3]| |]; cbn [bindr is_cmp] in *; try discriminate; inversion H; reflexivity). }
      clear H. destruct (GetToken l2) as [[[o2|] l3]| |] eqn:E2; cbn [bindr] in H2; try discriminate.
      apply GetToken_ok in E2. destruct E2 as [n2 E2].
      destruct op; try congruence; try discriminate; cbn [is_cmp] in H2; try discriminate; assert (E : l3 = r) by congruence; subst r l1 t l2.
      all: match goal with Ex : ?lx = _ ++ TStr ?s :: _ |- _ =>
        match s with
        | "=="%string => exists (CCmp REq {| parens := n; opnd := a |} {| parens := n2; opnd := o2 |})
        | "!="%string => exists (CCmp RNe {| parens := n; opnd := a |} {| parens := n2; opnd := o2 |})
        | ">"%string => exists (CCmp RGt {| parens := n; opnd := a |} {| parens := n2; opnd := o2 |})
        | "<"%string => exists (CCmp RLt {| parens := n; opnd := a |} {| parens := n2; opnd := o2 |})
        | ">="%string => exists (CCmp RGe {| parens := n; opnd := a |} {| parens := n2; opnd := o2 |})
        | "<="%string => exists (CCmp RLe {| parens := n; opnd := a |} {| parens := n2; opnd := o2 |})
        | "&"%string => exists (CBits {| parens := n; opnd := a |} {| parens := n2; opnd := o2 |})
        end end; cbn [reads print rel_name has_operator]; (split; [exact Logic.I|]); (split; [rewrite E1; rewrite <- !app_assoc; reflexivity|discriminate]).
Qed.

Lemma reads_up : forall e i j, (i <= j)%nat -> reads i e -> reads j e.
Proof. destruct e; cbn; intros i j Hij H; intuition lia. Qed.

Lemma nots_ok e n : reads 0 e -> exists e', reads 0 e' /\ print e' = repeat (TStr "!") n ++ print e /\ (n = 0%nat -> e' = e) /\ ((0 < n)%nat -> has_operator e' = true).
Proof.
  intros H. induction n as [|n (e' & R & P & _ & _)].
  - exists e. repeat split; auto. lia.
  - exists (CNot e'). cbn [reads print repeat app has_operator]. rewrite P. repeat split; auto. lia.
Qed.

Lemma scan_opens n k l : bracket_scan k (repeat TOpen n ++ l) = bracket_scan (n + k) l.
Proof. revert k. induction n as [|n IH]; intros k; cbn [repeat app bracket_scan]; [reflexivity|]. rewrite IH. f_equal. lia. Qed.
Lemma scan_closes n k l : (1 <= k)%nat -> bracket_scan (n + k) (repeat TClose n ++ l) = bracket_scan k l.
Proof.
  revert k. induction n as [|n IH]; intros k Hk; cbn [repeat app]; [reflexivity|].
  destruct k as [|k]; [lia|]. replace (S n + S k)%nat with (S (S (n + k))) by lia. cbn [bracket_scan].
  replace (S (n + k)) with (n + S k)%nat by lia. apply IH. lia.
Qed.
Lemma scan_opnd a r : bracket_scan 1 (print_opnd a ++ TClose :: r) = false.
Proof.
  unfold print_opnd. rewrite <- !app_assoc, scan_opens. cbn [app]. cbn [bracket_scan is_cop GetCOp].
  rewrite scan_closes by lia. reflexivity.
Qed.

Definition P_simple n := forall masm rep L l b s r s', GetSimpleExpression n masm rep L l b s = Ok (r, s') -> exists e, reads 0 e /\ l = print e ++ r.
Definition P_andl n := forall masm rep L st0 t l b s r s', and_loop n masm rep L st0 t l b s = Ok (r, s') ->
  forall e0, reads 1 e0 -> exists e, reads 1 e /\ print e0 ++ l = print e ++ r.
Definition P_and n := forall masm rep L l b s r s', GetAndExpression n masm rep L l b s = Ok (r, s') -> exists e, reads 1 e /\ l = print e ++ r.
Definition P_orl n := forall masm rep L st0 ptr t l b s r s', or_loop n masm rep L st0 ptr t l b s = Ok (r, s') ->
  forall e0, reads 2 e0 -> exists e, reads 2 e /\ print e0 ++ l = print e ++ r.
Definition P_or n := forall masm rep L l b s r s', GetExpression n masm rep L l b s = Ok (r, s') -> exists e, reads 2 e /\ l = print e ++ r.

Lemma head_and l : head_cop l = COP_AND -> l = TStr "&&" :: tl l.
Proof. destruct l as [|t l]; cbn; [discriminate|]. intros H. pose proof (cop_tok t) as Ht. rewrite H in Ht. now subst. Qed.
Lemma head_or l : head_cop l = COP_OR -> l = TStr "||" :: tl l.
Proof. destruct l as [|t l]; cbn; [discriminate|]. intros H. pose proof (cop_tok t) as Ht. rewrite H in Ht. now subst. Qed.

Lemma all_ok : forall n, P_simple n /\ P_andl n /\ P_and n /\ P_orl n /\ P_or n.
Proof.
  induction n as [|n (IHs & IHal & IHa & IHol & IHo)].
  { unfold P_simple, P_andl, P_and, P_orl, P_or. repeat match goal with |- _ /\ _ => split end; intros; cbn in *; discriminate. }
  repeat match goal with |- _ /\ _ => split end.
  - intros masm rep L l b s r s' H. cbn [GetSimpleExpression] in H.
    destruct (strip_nots l b) as [l1 b1] eqn:En. apply strip_nots_ok in En as [k ->].
    assert (Hc : forall e, reads 0 e -> l1 = print e ++ r -> exists e0, reads 0 e0 /\ repeat (TStr "!") k ++ l1 = print e0 ++ r).
    { intros e R ->. destruct (nots_ok e k R) as (e' & R' & P' & _). exists e'. split; [exact R'|]. rewrite P', <- app_assoc. reflexivity. }
    destruct l1 as [|t l1].
    { apply simple_ok in H as (e & R & E & _). eauto. }
    assert (Hs : simple masm L (t :: l1) b1 s = Ok (r, s') -> exists e0, reads 0 e0 /\ repeat (TStr "!") k ++ t :: l1 = print e0 ++ r).
    { intros Hx. apply simple_ok in Hx as (e & R & E & _). eauto. }
    destruct t; auto.
    destruct (bracket_scan 1 l1) eqn:Eb; auto.
    destruct (GetExpression n masm rep L l1 b1 s) as [[l2 s2]| |] eqn:Eg; cbn [bindr] in H; try discriminate.
    destruct l2 as [|[] l2]; try discriminate. assert (E : l2 = r) by (inversion H; auto). subst l2.
    apply IHo in Eg as (e & R & E). apply (Hc (CPar e)).
    + cbn [reads]. split; [|exact R]. destruct e; try reflexivity. subst l1. cbn [print] in Eb. rewrite scan_opnd in Eb. discriminate.
    + cbn [print]. rewrite E. cbn. rewrite <- app_assoc. reflexivity.
  - intros masm rep L st0 t l b s r s' H e0 R0. cbn [and_loop] in H.
    destruct (head_cop l) eqn:Eh.
    8: { apply head_and in Eh.
      destruct (if b then turn false L st0 st0 t s else Ok (t, s)) as [[t1 s1]| |]; cbn [bindr] in H; try discriminate.
      destruct (GetSimpleExpression n masm rep L (tl l) b (with_true s1 0)) as [[l2 s2]| |] eqn:Eg; cbn [bindr] in H; try discriminate.
      apply IHs in Eg as (e & R & E).
      destruct (IHal _ _ _ _ _ _ _ _ _ _ H (CAnd e0 e)) as (e' & R' & E').
      { cbn [reads]. repeat split; auto. }
      exists e'. split; [exact R'|]. rewrite <- E'. rewrite Eh, E. cbn [print]. rewrite <- !app_assoc. reflexivity. }
    all: exists e0; split; [exact R0|]; destruct (t =? 0); inversion H; reflexivity.
  - intros masm rep L l b s r s' H. cbn [GetAndExpression] in H.
    destruct (GetSimpleExpression n masm rep L l b s) as [[l1 s1]| |] eqn:Eg; cbn [bindr] in H; try discriminate.
    apply IHs in Eg as (e & R & E). destruct (IHal _ _ _ _ _ _ _ _ _ _ H e) as (e' & R' & E').
    { now apply (reads_up e 0 1); [lia|]. }
    exists e'. split; [exact R'|]. now rewrite E, E'.
  - intros masm rep L st0 ptr t l b s r s' H e0 R0. cbn [or_loop] in H.
    destruct (head_cop l) eqn:Eh.
    9: { apply head_or in Eh.
      destruct (if negb b then turn rep L st0 ptr t s else Ok (t, s)) as [[t1 s1]| |]; cbn [bindr] in H; try discriminate.
      destruct (GetAndExpression n masm rep L (tl l) b (with_true s1 0)) as [[l2 s2]| |] eqn:Eg; cbn [bindr] in H; try discriminate.
      apply IHa in Eg as (e & R & E).
      destruct (IHol _ _ _ _ _ _ _ _ _ _ _ H (COr e0 e)) as (e' & R' & E').
      { cbn [reads]. repeat split; auto. }
      exists e'. split; [exact R'|]. rewrite <- E'. rewrite Eh, E. cbn [print]. rewrite <- !app_assoc. reflexivity. }
    all: exists e0; (split; [exact R0|]); f_equal; destruct (t =? 0); [inversion H; reflexivity|];
      match type of H with bindr ?x _ = _ => destruct x as [s1| |]; cbn [bindr] in H; try discriminate end; inversion H; reflexivity.
  - intros masm rep L l b s r s' H. cbn [GetExpression] in H.
    destruct (GetAndExpression n masm rep L l b s) as [[l1 s1]| |] eqn:Eg; cbn [bindr] in H; try discriminate.
    apply IHa in Eg as (e & R & E). destruct (IHol _ _ _ _ _ _ _ _ _ _ _ H e) as (e' & R' & E').
    { now apply (reads_up e 1 2); [lia|]. }
    exists e'. split; [exact R'|]. now rewrite E, E'.
Qed.

Lemma read_whole masm rep L b counter l x : EvaluateHllExpression masm rep L b counter l = Ok x -> exists e, reads 2 e /\ l = print e.
Proof.
  unfold EvaluateHllExpression. intros H.
  destruct (GetExpression _ _ _ _ _ _ _) as [[r s]| |] eqn:Eg; cbn [bindr] in H; try discriminate.
  destruct r; [|discriminate]. destruct (all_ok (4 * length l + 4)) as (_ & _ & _ & _ & Ho).
  apply Ho in Eg as (e & R & E). exists e. split; [exact R|]. now rewrite app_nil_r in E.
Qed.
