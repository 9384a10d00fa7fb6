(** The directives produce the code of the program (see [CP]). *)
From Coq Require Import String Ascii List ZArith Bool Lia.
From Verif Require Import Base Hll_Model Hll_Spec Hll_Proofs HllTok_Proofs HllDir_Model HllDir_Spec HllRun_Proofs.
Import ListNotations.
Open Scope Z_scope.

Lemma CP_weaken :
  (forall bk ct p c, CP bk ct p c -> forall bk' ct', (bk = 0 \/ bk = bk') -> (ct = 0 \/ ct = ct') -> CP bk' ct' p c) /\
  (forall bk ct tl x r c, CR bk ct tl x r c -> forall bk' ct', (bk = 0 \/ bk = bk') -> (ct = 0 \/ ct = ct') -> CR bk' ct' tl x r c).
Proof.
  apply CP_CR_ind; intros; try (econstructor; eauto; fail).
  - destruct H2 as [?|<-]; [contradiction|]. constructor; auto.
  - destruct H3 as [?|<-]; [contradiction|]. econstructor; eauto.
  - destruct H3 as [?|<-]; [contradiction|]. constructor; auto.
  - destruct H4 as [?|<-]; [contradiction|]. econstructor; eauto.
Qed.

Lemma evaluate_const masm rep L k a v : k_kind (opnd a) = KConst v -> wf 2 (COne a) ->
  EvaluateHllExpression masm rep L true k (print (COne a)) = Ok (if v =? 0 then [] else [JMP L], k).
Proof.
  intros Ek Hw. unfold EvaluateHllExpression. set (n := (4 * length (print (COne a)) + 4)%nat).
  assert (exists n', n = S (S (S (S n')))) as [n' ->] by (unfold n; exists (n - 4)%nat; unfold n; lia).
  cbn [GetExpression GetAndExpression].
  pose proof (GetSimple_atom (S n') masm rep L (COne a) [] true {| buf := []; lastjmp := None; lasttrue := 0; lbl := k |} eq_refl Hw) as E.
  rewrite app_nil_r in E. rewrite E. unfold simple.
  pose proof (GetToken_print a []) as ET. rewrite app_nil_r in ET. cbn [print]. rewrite ET. cbn [bindr head_cop flaginstr tl].
  rewrite Ek. cbn [wf] in Hw. rewrite Ek in Hw.
  assert (Hh : Z.shiftr v 32 = 0 \/ Z.shiftr v 32 = -1).
  { rewrite Z.shiftr_div_pow2 by lia. destruct (Z.le_gt_cases 0 v).
    - left. apply Z.div_small. lia.
    - right. symmetry. apply Z.div_unique with (v + 2 ^ 32); lia. }
  replace (negb (Z.shiftr v 32 =? 0) && negb (Z.shiftr v 32 =? -1)) with false by (destruct Hh as [-> | ->]; reflexivity).
  assert (Hv : (wrap 32 v =? 0) = (v =? 0)).
  { unfold wrap. destruct (Z.eqb_spec v 0) as [->|Hn]; [reflexivity|]. apply Z.eqb_neq. intros Hz. apply Hn.
    apply Z.mod_divide in Hz; [|lia]. destruct Hz as [j Hj]. assert (j = 0) by nia. lia. }
  rewrite Hv. destruct (v =? 0); reflexivity.
Qed.

(** what is used of the translation of a condition *)
Lemma evaluated masm rep L b k e : ok_cond b e -> 0 < L <= k ->
  exists c k', EvaluateHllExpression masm rep L b k (print e) = Ok (c, k') /\ k <= k' /\ ccode b e L c /\
    NoDup (labels c) /\ (forall x, In x (labels c) -> k < x <= k') /\ (noconst e = true -> starts_jmp c = false).
Proof.
  intros [Hw Hf] HL. destruct (evaluate_ok masm rep L b k e Hw Hf HL) as (c & k' & E & [Co Cl Cn Ce Cj Cs]).
  exists c, k'. split; [exact E|]. split; [exact Ce|]. split; [exact Cs|]. split; [exact Cn|]. split; [exact Cl|].
  intros H. specialize (Cj H). destruct c as [|[| c1 c2 x | |] c]; try reflexivity. exact (Cj _ (or_introl eq_refl)).
Qed.
Lemma print_cons e : exists t l, print e = t :: l.
Proof. pose proof (len_pos e) as H. unfold len in H. destruct (print e); [cbn in H; lia|eauto]. Qed.

(** the innermost loop *)
Definition tail (lp : option (item * list item)) (bk t : Z) : list item :=
  match lp with None => [] | Some (it, b) => set_test (set_exit it bk) t :: b end.
Definition contl (lp : option (item * list item)) (t : Z) : Z :=
  match lp with None => 0 | Some (it, _) => match i_cmd it with HLL_REPEAT => t | _ => if t =? 0 then i_start it else t end end.
Definition lp_ok (lp : option (item * list item)) (k : Z) : Prop :=
  match lp with None => True | Some (it, _) => i_cmd it <> HLL_IF /\ 0 < i_start it <= k end.
Definition is_repeat (lp : option (item * list item)) : Prop := match lp with Some (it, _) => i_cmd it = HLL_REPEAT | None => False end.
Definition isif (it : item) : Prop := i_cmd it = HLL_IF.
Lemma find_loop_tail a lp bk t k : Forall isif a -> lp_ok lp k ->
  find_loop (a ++ tail lp bk t) = match lp with None => None | Some (it, b) => Some (a, set_test (set_exit it bk) t, b) end.
Proof.
  intros Ha Hl. induction Ha as [|x a Hx Ha IH]; cbn [app find_loop].
  - destruct lp as [[it b]|]; [|reflexivity]. cbn [tail find_loop]. cbn. destruct Hl as [Hl _]. destruct (i_cmd it); congruence.
  - rewrite Hx, IH. destruct lp as [[it b]|]; reflexivity.
Qed.

Definition ext (k k' x x' : Z) : Prop := x' = x \/ x = 0 /\ k < x' <= k'.
Definition textn (lp : option (item * list item)) (k k' t t' : Z) : Prop := t' = t \/ t = 0 /\ k < t' <= k' /\ is_repeat lp.
Lemma ext_trans k k1 k2 x y z : k <= k1 -> k1 <= k2 -> 0 <= k -> ext k k1 x y -> ext k1 k2 y z -> ext k k2 x z.
Proof. unfold ext. lia. Qed.
Lemma textn_trans lp k k1 k2 x y z : k <= k1 -> k1 <= k2 -> 0 <= k -> textn lp k k1 x y -> textn lp k1 k2 y z -> textn lp k k2 x z.
Proof.
  unfold textn. intros ? ? ? [->|(-> & ? & ?)] [->|(? & ? & ?)]; auto; try lia.
  - right. repeat split; auto; lia.
  - right. repeat split; auto; lia.
Qed.
Lemma contl_ext lp k k' t t' : 0 <= k -> textn lp k k' t t' -> contl lp t = 0 \/ contl lp t = contl lp t'.
Proof.
  intros Hk [->|(-> & H & HR)]; [now right|left]. destruct lp as [[it b]|]; [|reflexivity]. cbn in *. now rewrite HR.
Qed.
Lemma weaken lp k k' bk bk' t t' p c : 0 <= k -> ext k k' bk bk' -> textn lp k k' t t' -> CP bk (contl lp t) p c -> CP bk' (contl lp t') p c.
Proof.
  intros Hk H1 H2 H. apply (proj1 CP_weaken _ _ _ _ H).
  - destruct H1 as [->|[-> _]]; auto.
  - eapply contl_ext; eauto.
Qed.
Lemma weaken_rest lp k k' bk bk' t t' tl x r c : 0 <= k -> ext k k' bk bk' -> textn lp k k' t t' -> CR bk (contl lp t) tl x r c -> CR bk' (contl lp t') tl x r c.
Proof.
  intros Hk H1 H2 H. apply (proj2 CP_weaken _ _ _ _ _ _ H).
  - destruct H1 as [->|[-> _]]; auto.
  - eapply contl_ext; eauto.
Qed.
Lemma lp_ok_le lp k k' : k <= k' -> lp_ok lp k -> lp_ok lp k'.
Proof. destruct lp as [[it b]|]; cbn; [intros ? [? ?]; split; [assumption|lia]|auto]. Qed.
Lemma ext_range k k' x x' : ext k k' x x' -> 0 <= x <= k -> k <= k' -> 0 <= x' <= k'.
Proof. unfold ext. lia. Qed.
Lemma textn_range lp k k' x x' : textn lp k k' x x' -> 0 <= x <= k -> k <= k' -> 0 <= x' <= k'.
Proof. unfold textn. lia. Qed.

Definition mk (s : list item) (o : list line) (k : Z) : hst := {| stack := s; out := o; ctr := k |}.
Definition mkif (t x : Z) (el : bool) : item := {| i_cmd := HLL_IF; i_test := t; i_exit := x; i_start := 0; i_cond := []; i_else := el |}.

Section D.
Variable masm : bool.
Definition D (p : prog) : Prop := forall inloop lp a bk t o k,
  ok_prog inloop p -> Forall isif a -> (inloop = true -> lp <> None) -> lp_ok lp k -> 0 <= bk <= k -> 0 <= t <= k ->
  exists bk' t' code k', k <= k' /\ ext k k' bk bk' /\ textn lp k k' t t' /\ CP bk' (contl lp t') p code /\
    forall R, directives masm (text p ++ R) (mk (a ++ tail lp bk t) o k) = directives masm R (mk (a ++ tail lp bk' t') (o ++ code) k').
Definition DR (r : rest) : Prop := forall inloop lp a bk t t0 x o k,
  ok_rest inloop r -> Forall isif a -> (inloop = true -> lp <> None) -> lp_ok lp k -> 0 <= bk <= k -> 0 <= t <= k -> 0 <= t0 <= k -> 0 <= x <= k ->
  exists bk' t' t0' x' el code k', k <= k' /\ ext k k' bk bk' /\ textn lp k k' t t' /\ ext k k' x x' /\ CR bk' (contl lp t') (lab t0) x' r (code ++ lab t0') /\
    forall R, directives masm (text_rest r ++ R) (mk (mkif t0 x false :: a ++ tail lp bk t) o k)
            = directives masm R (mk (mkif t0' x' el :: a ++ tail lp bk' t') (o ++ code) k').

(** a directive, then the rest of the program *)
Lemma then_rest lp inloop a bk t o k p bk1 t1 c1 k1 (d1 : list dir) :
  D p -> ok_prog inloop p -> Forall isif a -> (inloop = true -> lp <> None) -> lp_ok lp k -> 0 <= bk <= k -> 0 <= t <= k ->
  k <= k1 -> ext k k1 bk bk1 -> textn lp k k1 t t1 ->
  (forall R, directives masm (d1 ++ R) (mk (a ++ tail lp bk t) o k) = directives masm R (mk (a ++ tail lp bk1 t1) (o ++ c1) k1)) ->
  exists bk' t' code k', k <= k' /\ ext k k' bk bk' /\ textn lp k k' t t' /\ ext k1 k' bk1 bk' /\ textn lp k1 k' t1 t' /\ CP bk' (contl lp t') p code /\
    forall R, directives masm ((d1 ++ text p) ++ R) (mk (a ++ tail lp bk t) o k) = directives masm R (mk (a ++ tail lp bk' t') (o ++ c1 ++ code) k').
Proof.
  intros HD Hp Ha Hin Hl Hb Ht Hk He Hte E.
  destruct (HD inloop lp a bk1 t1 (o ++ c1) k1) as (bk' & t' & code & k' & A1 & A2 & A3 & A4 & A5); auto.
  - eapply lp_ok_le; eauto.
  - eapply ext_range; eauto.
  - eapply textn_range; eauto.
  - exists bk', t', code, k'. split; [lia|]. split; [eapply ext_trans; eauto; lia|]. split; [eapply textn_trans; eauto; lia|].
    split; [exact A2|]. split; [exact A3|]. split; [exact A4|]. intros R. rewrite <- app_assoc, E, A5, <- app_assoc. reflexivity.
Qed.

Lemma lab_nz x : x <> 0 -> lab x = [LLab x].
Proof. unfold lab. intros H. apply Z.eqb_neq in H. now rewrite H. Qed.
Lemma directives_cons d l h : directives masm (d :: l) h = bindr (directive masm d h) (directives masm l).
Proof. reflexivity. Qed.

(** .break and .continue *)
Lemma jump_ok x c k s o : ok_opt c -> 0 < x <= k ->
  exists cc k', k <= k' /\ jump_if masm x (option_map print c) (mk s o k) = Ok (mk s (o ++ cc) k') /\
    match c with None => cc = [JMP x] | Some c => ccode true c x cc end.
Proof.
  intros Hc Hx. destruct c as [c|]; cbn [option_map jump_if].
  - destruct (evaluated masm false x true k c Hc Hx) as (cc & k' & E & Hk & HC & _). cbn [mk ctr]. rewrite E. cbn [bindr].
    exists cc, k'. split; [exact Hk|]. split; [reflexivity|exact HC].
  - exists [JMP x], k. split; [lia|]. split; reflexivity.
Qed.

Ltac cook := unfold emit, with_stack, with_ctr, mk; cbn [bindr stack out ctr].
Lemma D_all : (forall p, D p) /\ (forall r, DR r).
Proof.
  apply prog_rest_ind.
  - (* end *) intros inloop lp a bk t o k _ _ _ _ _ _. exists bk, t, [], k. split; [lia|]. split; [now left|]. split; [now left|]. split; [constructor|].
    intros R. cbn [text app]. now rewrite app_nil_r.
  - (* user *) intros u p IH inloop lp a bk t o k Hp Ha Hin Hl Hb Ht. cbn [ok_prog] in Hp.
    destruct (then_rest lp inloop a bk t o k p bk t [LUser u] k [DUser u]) as (bk' & t' & code & k' & A1 & A2 & A3 & A4 & A5 & A6 & A7); auto; try lia; try (now left).
    exists bk', t', (LUser u :: code), k'. split; [exact A1|]. split; [exact A2|]. split; [exact A3|]. split; [now constructor|]. exact A7.
  - (* if *) intros c t IHt r IHr p IHp inloop lp a bk tt o k Hp Ha Hin Hl Hb Ht. cbn [ok_prog] in Hp. destruct Hp as (Hc & Hpt & Hpr & Hpp).
    destruct (evaluated masm false (k + 1) false (k + 1) c Hc ltac:(lia)) as (cc & k1 & E1 & Hk1 & HC & _).
    set (tl := match cc with [] => 0 | _ => k + 1 end).
    destruct (IHt inloop lp (mkif tl 0 false :: a) bk tt (o ++ cc) k1) as (bk2 & t2 & cb & k2 & B1 & B2 & B3 & B4 & B5); auto; try lia.
    { constructor; [reflexivity|exact Ha]. } { eapply lp_ok_le; [|exact Hl]. lia. }
    assert (Htl : 0 <= tl <= k2) by (unfold tl; destruct cc; lia).
    destruct (IHr inloop lp a bk2 t2 tl 0 ((o ++ cc) ++ cb) k2) as (bk3 & t3 & t0' & x & el & cr & k3 & C1 & C2 & C3 & C4 & C5 & C6); auto; try lia.
    { eapply lp_ok_le; [|exact Hl]. lia. } { eapply ext_range; eauto; lia. } { eapply textn_range; eauto; lia. }
    assert (X1 : ext k k3 bk bk3) by (destruct B2 as [->|B2], C2 as [->|C2]; unfold ext; lia).
    assert (X2 : textn lp k k3 tt t3).
    { destruct B3 as [->|(-> & B3 & B3')], C3 as [->|(C3 & C3' & C3'')]; unfold textn; auto; try (right; repeat split; auto; lia). }
    destruct (then_rest lp inloop a bk tt o k p bk3 t3 (cc ++ cb ++ cr ++ lab t0' ++ lab x) k3 (DIf (print c) :: text t ++ text_rest r ++ [DEndif]))
      as (bk' & t' & code & k' & A1 & A2 & A3 & A4 & A5 & A6 & A7); auto; try lia.
    { intros R. cbn [app]. rewrite <- !app_assoc. rewrite directives_cons. cbn [directive HllStartDir new_label mk ctr stack out]. rewrite E1. cbn [bindr with_ctr emit with_stack stack out ctr].
      refine (eq_trans (B5 (text_rest r ++ [DEndif] ++ R)) _). refine (eq_trans (C6 (DEndif :: R)) _). rewrite directives_cons.
      cbn [directive HllEndDir mk stack mkif i_cmd i_test i_exit]. cbn [bindr]. cook. rewrite <- !app_assoc. reflexivity. }
    exists bk', t', (cc ++ cb ++ (cr ++ lab t0') ++ lab x ++ code), k'. split; [exact A1|]. split; [exact A2|]. split; [exact A3|]. split.
    + eapply (CP_if bk' (contl lp t') c t r p (k + 1) (lab tl)); [exact HC| | | |exact A6].
      * unfold tl. destruct cc; [right; split; reflexivity|left; apply lab_nz; lia].
      * apply (weaken lp k3 k' bk3 bk' t3 t'); auto; [lia|]. apply (weaken lp k2 k3 bk2 bk3 t2 t3); auto. lia.
      * apply (weaken_rest lp k3 k' bk3 bk' t3 t'); auto. lia.
    + intros R. cbn [text].
      replace ((DIf (print c) :: text t ++ text_rest r ++ DEndif :: text p) ++ R)
        with (((DIf (print c) :: text t ++ text_rest r ++ [DEndif]) ++ text p) ++ R) by (cbn [app]; rewrite <- !app_assoc; reflexivity).
      rewrite A7. rewrite <- !app_assoc. reflexivity.
  - (* while *) intros c t IHt p IHp inloop lp a bk tt o k Hp Ha Hin Hl Hb Ht. cbn [ok_prog] in Hp. destruct Hp as (Hc & Hw & Hpt & Hpp).
    destruct (evaluated masm false (k + 1) true (k + 1) c Hc ltac:(lia)) as (cc & k1 & E1 & Hk1 & HC & _ & _ & HJ).
    assert (HS : starts_jmp cc = true -> cc = [JMP (k + 1)] /\ forall m f, eval m c f = (true, f)).
    { intros Hs. destruct Hw as [Hw|(q & v & -> & Ek)]; [rewrite HJ in Hs by exact Hw; discriminate|].
      rewrite (evaluate_const masm false (k + 1) (k + 1) q v Ek (proj1 Hc)) in E1.
      destruct (v =? 0) eqn:Ev; [assert (cc = []) as -> by congruence; discriminate|]. split; [congruence|].
      intros m f. cbn [eval]. now rewrite Ek, Ev. }
    destruct (print_cons c) as (tk & tks & Ep).
    destruct (starts_jmp cc) eqn:Es.
    + destruct (HS eq_refl) as [-> Hev]. clear HS.
      set (it := {| i_cmd := HLL_WHILE; i_test := 0; i_exit := 0; i_start := k + 1; i_cond := [JMP (k + 1)]; i_else := false |}).
      destruct (IHt true (Some (it, a ++ tail lp bk tt)) [] 0 0 (o ++ [LLab (k + 1)]) k1) as (lx & t2 & cb & k2 & B1 & B2 & B3 & B4 & B5); auto; try lia.
      { discriminate. } { cbn. split; [discriminate|lia]. }
      assert (t2 = 0) as -> by (destruct B3 as [->|(_ & _ & B3)]; [reflexivity|discriminate B3]).
      destruct (then_rest lp inloop a bk tt o k p bk tt ([LLab (k + 1)] ++ cb ++ [JMP (k + 1)] ++ lab lx) k2 (DWhile (print c) :: text t ++ [DEndw]))
        as (bk' & t' & code & k' & A1 & A2 & A3 & A4 & A5 & A6 & A7); auto; try lia; try (now left).
      { intros R. cbn [app]. rewrite <- !app_assoc. rewrite directives_cons. cbn [directive HllStartDir]. rewrite Ep. cbn [new_label mk ctr stack out]. rewrite <- Ep, E1.
        cbn [bindr with_ctr emit with_stack stack out ctr]. rewrite Es. cbn [emit with_stack stack out ctr].
        refine (eq_trans (B5 ([DEndw] ++ R)) _). cbn [app tail]. unfold set_test, set_exit, it. cbn [i_cmd i_start i_cond i_else i_test i_exit]. rewrite directives_cons. cbn [directive HllEndDir mk stack i_cmd i_test i_exit i_cond]. cbn [bindr]. cook. cbn [lab Z.eqb app].
        rewrite <- !app_assoc. reflexivity. }
      exists bk', t', (LLab (k + 1) :: cb ++ JMP (k + 1) :: lab lx ++ code), k'. split; [exact A1|]. split; [exact A2|]. split; [exact A3|]. split.
      * apply CP_loop; [exact Hev| |exact A6]. cbn [contl it i_cmd i_start Z.eqb] in B4. exact B4.
      * intros R. cbn [text].
        replace ((DWhile (print c) :: text t ++ DEndw :: text p) ++ R) with (((DWhile (print c) :: text t ++ [DEndw]) ++ text p) ++ R) by (cbn [app]; rewrite <- !app_assoc; reflexivity).
        rewrite A7. cbn [app]. rewrite <- !app_assoc. reflexivity.
    + clear HS.
      set (it := {| i_cmd := HLL_WHILE; i_test := k1 + 1; i_exit := 0; i_start := k + 1; i_cond := cc; i_else := false |}).
      destruct (IHt true (Some (it, a ++ tail lp bk tt)) [] 0 (k1 + 1) (o ++ [JMP (k1 + 1); LLab (k + 1)]) (k1 + 1)) as (lx & t2 & cb & k2 & B1 & B2 & B3 & B4 & B5); auto; try lia.
      { discriminate. } { cbn. split; [discriminate|lia]. }
      assert (t2 = k1 + 1) as -> by (destruct B3 as [->|(_ & _ & B3)]; [reflexivity|discriminate B3]).
      destruct (then_rest lp inloop a bk tt o k p bk tt ([JMP (k1 + 1); LLab (k + 1)] ++ cb ++ [LLab (k1 + 1)] ++ cc ++ lab lx) k2 (DWhile (print c) :: text t ++ [DEndw]))
        as (bk' & t' & code & k' & A1 & A2 & A3 & A4 & A5 & A6 & A7); auto; try lia; try (now left).
      { intros R. cbn [app]. rewrite <- !app_assoc. rewrite directives_cons. cbn [directive HllStartDir]. rewrite Ep. cbn [new_label mk ctr stack out]. rewrite <- Ep, E1.
        cbn [bindr with_ctr emit with_stack stack out ctr]. rewrite Es. cbn [new_label emit with_stack stack out ctr].
        cook. rewrite <- (app_assoc o). cbn [app].
        refine (eq_trans (B5 ([DEndw] ++ R)) _). cbn [app tail]. unfold set_test, set_exit, it. cbn [i_cmd i_start i_cond i_else i_test i_exit]. rewrite directives_cons. cbn [directive HllEndDir mk stack i_cmd i_test i_exit i_cond]. cbn [bindr]. cook.
        rewrite (lab_nz (k1 + 1)) by lia. rewrite <- !app_assoc. reflexivity. }
      exists bk', t', (JMP (k1 + 1) :: LLab (k + 1) :: cb ++ LLab (k1 + 1) :: cc ++ lab lx ++ code), k'. split; [exact A1|]. split; [exact A2|]. split; [exact A3|]. split.
      * apply CP_while; [exact HC| |exact A6]. cbn [contl it i_cmd i_start] in B4. replace (k1 + 1 =? 0) with false in B4 by (symmetry; apply Z.eqb_neq; lia). exact B4.
      * intros R. cbn [text].
        replace ((DWhile (print c) :: text t ++ DEndw :: text p) ++ R) with (((DWhile (print c) :: text t ++ [DEndw]) ++ text p) ++ R) by (cbn [app]; rewrite <- !app_assoc; reflexivity).
        rewrite A7. cbn [app]. rewrite <- !app_assoc. cbn [app]. rewrite <- !app_assoc. reflexivity.
  - (* repeat *) intros t IHt c p IHp inloop lp a bk tt o k Hp Ha Hin Hl Hb Ht. cbn [ok_prog] in Hp. destruct Hp as (Hc & Hpt & Hpp).
    set (it := {| i_cmd := HLL_REPEAT; i_test := 0; i_exit := 0; i_start := k + 1; i_cond := []; i_else := false |}).
    destruct (IHt true (Some (it, a ++ tail lp bk tt)) [] 0 0 (o ++ [LLab (k + 1)]) (k + 1)) as (lx & lt & cb & k2 & B1 & B2 & B3 & B4 & B5); auto; try lia.
    { discriminate. } { cbn. split; [discriminate|lia]. }
    destruct (evaluated masm true (k + 1) false k2 c Hc ltac:(lia)) as (cc & k3 & E1 & Hk1 & HC & _).
    destruct (print_cons c) as (tk & tks & Ep).
    destruct (then_rest lp inloop a bk tt o k p bk tt ([LLab (k + 1)] ++ cb ++ lab lt ++ cc ++ lab lx) k3 (DRepeat :: text t ++ [DUntil (print c)]))
      as (bk' & t' & code & k' & A1 & A2 & A3 & A4 & A5 & A6 & A7); auto; try lia; try (now left).
    { intros R. cbn [app]. rewrite <- !app_assoc. rewrite directives_cons. cbn [directive HllStartDir new_label mk ctr stack out emit with_stack bindr].
      refine (eq_trans (B5 ([DUntil (print c)] ++ R)) _). cbn [app tail]. unfold set_test, set_exit, it. cbn [i_cmd i_start i_cond i_else i_test i_exit]. rewrite directives_cons. cbn [directive HllEndDir mk stack i_cmd i_test i_exit i_cond i_start ctr with_stack]. rewrite Ep. rewrite <- Ep, E1.
      cbn [bindr]. cook. rewrite <- !app_assoc. reflexivity. }
    exists bk', t', (LLab (k + 1) :: cb ++ lab lt ++ cc ++ lab lx ++ code), k'. split; [exact A1|]. split; [exact A2|]. split; [exact A3|]. split.
    + apply CP_repeat; [exact HC| |exact A6]. exact B4.
    + intros R. cbn [text].
      replace ((DRepeat :: text t ++ DUntil (print c) :: text p) ++ R) with (((DRepeat :: text t ++ [DUntil (print c)]) ++ text p) ++ R) by (cbn [app]; rewrite <- !app_assoc; reflexivity).
      rewrite A7. cbn [app]. rewrite <- !app_assoc. reflexivity.
  - (* break *) intros c p IHp inloop lp a bk tt o k Hp Ha Hin Hl Hb Ht. cbn [ok_prog] in Hp. destruct Hp as (Hi & Hc & Hpp).
    destruct lp as [[it b]|] eqn:Elp; [|now destruct (Hin Hi)]. rewrite <- Elp in *.
    set (x := if bk =? 0 then k + 1 else bk). set (k1 := if bk =? 0 then k + 1 else k).
    assert (Hx : 0 < x <= k1) by (unfold x, k1; destruct (Z.eqb_spec bk 0); lia).
    destruct (jump_ok x c k1 (a ++ tail lp x tt) o Hc Hx) as (cc & k2 & J1 & J2 & J3).
    assert (Hk : k <= k2) by (unfold k1 in J1; destruct (bk =? 0); lia).
    assert (HE : ext k k2 bk x) by (unfold ext, x, k1 in *; destruct (Z.eqb_spec bk 0); lia).
    destruct (then_rest lp inloop a bk tt o k p x tt cc k2 [DBreak (option_map print c)])
      as (bk' & t' & code & k' & A1 & A2 & A3 & A4 & A5 & A6 & A7); auto; try lia; try (now left).
    { intros R. cbn [app]. rewrite directives_cons. cbn [directive HllExitDir mk stack]. rewrite (find_loop_tail a lp bk tt k Ha Hl). rewrite Elp at 1.
      cbn [set_exit set_test i_exit i_cmd i_start i_cond i_else i_test].
      assert (EX : forall h, h = mk (a ++ tail lp bk tt) o k ->
        (let '(x0, h0) := if bk =? 0 then new_label h else (bk, h) in
         jump_if masm x0 (option_map print c) (with_stack h0 (a ++ set_exit (set_test (set_exit it bk) tt) x0 :: b)))
        = Ok (mk (a ++ tail lp x tt) (o ++ cc) k2)).
      { intros h ->. rewrite <- J2. unfold x, k1. rewrite Elp. destruct (bk =? 0); reflexivity. }
      cbn [set_exit set_test i_exit i_cmd i_start i_cond i_else i_test] in EX. rewrite EX by reflexivity. reflexivity. }
    assert (Eb : bk' = x) by (destruct A4 as [A4|[A4 _]]; [exact A4|lia]). subst bk'.
    exists x, t', (cc ++ code), k'. split; [exact A1|]. split; [exact A2|]. split; [exact A3|]. split.
    + destruct c as [c|]; cbn [option_map] in *.
      * apply CP_break_if; auto. lia.
      * rewrite J3. apply CP_break; auto. lia.
    + exact A7.
  - (* continue *) intros c p IHp inloop lp a bk tt o k Hp Ha Hin Hl Hb Ht. cbn [ok_prog] in Hp. destruct Hp as (Hi & Hc & Hpp).
    destruct lp as [[it b]|] eqn:Elp; [|now destruct (Hin Hi)]. rewrite <- Elp in *.
    set (new := match i_cmd it with HLL_REPEAT => tt =? 0 | _ => false end).
    set (x := if new then k + 1 else tt). set (k1 := if new then k + 1 else k).
    assert (Hit : i_cmd it <> HLL_IF /\ 0 < i_start it <= k) by (rewrite Elp in Hl; exact Hl).
    assert (Hnew : new = true -> tt = 0 /\ is_repeat lp).
    { unfold new. rewrite Elp. cbn. destruct (i_cmd it); try discriminate. intros H. apply Z.eqb_eq in H. auto. }
    assert (HE : textn lp k k1 tt x).
    { unfold textn, x, k1. destruct new; [|now left]. right. destruct (Hnew eq_refl). split; [assumption|]. split; [lia|assumption]. }
    assert (Hj : (if x =? 0 then i_start it else x) = contl lp x).
    { rewrite Elp. cbn [contl]. unfold x, new. destruct (i_cmd it); auto.
      destruct (Z.eqb_spec tt 0); [|destruct (Z.eqb_spec tt 0); congruence]. destruct (Z.eqb_spec (k + 1) 0); [lia|reflexivity]. }
    assert (Hx : 0 < contl lp x <= k1).
    { rewrite <- Hj. unfold x, k1, new. destruct (Z.eqb_spec (if match i_cmd it with HLL_REPEAT => tt =? 0 | _ => false end then k + 1 else tt) 0).
      - destruct (match i_cmd it with HLL_REPEAT => tt =? 0 | _ => false end); lia.
      - destruct (match i_cmd it with HLL_REPEAT => tt =? 0 | _ => false end); lia. }
    destruct (jump_ok (contl lp x) c k1 (a ++ tail lp bk x) o Hc Hx) as (cc & k2 & J1 & J2 & J3).
    assert (Hk : k <= k1) by (unfold k1; destruct new; lia).
    destruct (then_rest lp inloop a bk tt o k p bk x cc k2 [DContinue (option_map print c)])
      as (bk' & t' & code & k' & A1 & A2 & A3 & A4 & A5 & A6 & A7); auto; try lia; try (now left).
    { destruct HE as [HE|(H1 & H2 & H3)]; [now left|right]. split; [exact H1|]. split; [lia|exact H3]. }
    { intros R. cbn [app]. rewrite directives_cons. cbn [directive HllExitDir mk stack]. rewrite (find_loop_tail a lp bk tt k Ha Hl). rewrite Elp at 1.
      assert (EX : forall h, h = mk (a ++ tail lp bk tt) o k ->
        (let '(t, h) := match i_cmd it with HLL_REPEAT => if tt =? 0 then new_label h else (tt, h) | _ => (tt, h) end in
         jump_if masm (if t =? 0 then i_start it else t) (option_map print c) (with_stack h (a ++ set_test (set_test (set_exit it bk) tt) t :: b)))
        = Ok (mk (a ++ tail lp bk x) (o ++ cc) k2)).
      { intros h ->. rewrite <- J2, <- Hj. unfold x, k1, new. rewrite Elp. destruct (i_cmd it); [|reflexivity|destruct (tt =? 0)]; reflexivity. }
      cbn [set_exit set_test i_exit i_cmd i_start i_cond i_else i_test] in *. rewrite EX by reflexivity. reflexivity. }
    assert (Ec : contl lp t' = contl lp x).
    { destruct (contl_ext lp k2 k' x t' ltac:(lia) A5) as [H|H]; [lia|congruence]. }
    exists bk', t', (cc ++ code), k'. split; [exact A1|]. split; [exact A2|]. split; [exact A3|]. split.
    + rewrite Ec in *. destruct c as [c|]; cbn [option_map] in *.
      * apply CP_continue_if; auto. lia.
      * rewrite J3. apply CP_continue; auto. lia.
    + exact A7.
  - (* no else *) intros inloop lp a bk t t0 x o k _ _ _ _ _ _ _ _. exists bk, t, t0, x, false, [], k.
    split; [lia|]. split; [now left|]. split; [now left|]. split; [now left|]. split; [constructor|]. intros R. now rewrite app_nil_r.
  - (* else *) intros p IHp inloop lp a bk t t0 x o k Hp Ha Hin Hl Hb Ht Ht0 Hx. cbn [ok_rest] in Hp.
    set (x' := if x =? 0 then k + 1 else x). set (k1 := if x =? 0 then k + 1 else k).
    assert (Hx' : 0 < x' <= k1) by (unfold x', k1; destruct (Z.eqb_spec x 0); lia).
    assert (Hk : k <= k1) by (unfold k1; destruct (x =? 0); lia).
    destruct (IHp inloop lp (mkif 0 x' true :: a) bk t (o ++ JMP x' :: lab t0) k1) as (bk' & t' & code & k' & A1 & A2 & A3 & A4 & A5); auto; try lia.
    { constructor; [reflexivity|exact Ha]. } { eapply lp_ok_le; eauto. }
    exists bk', t', 0, x', true, (JMP x' :: lab t0 ++ code), k'. split; [lia|].
    split; [destruct A2 as [->|A2]; unfold ext; lia|]. split; [destruct A3 as [->|(H1 & H2 & H3)]; [now left|right; repeat split; auto; lia]|].
    split; [unfold ext, x', k1 in *; destruct (Z.eqb_spec x 0); lia|]. split.
    + cbn [lab Z.eqb]. rewrite app_nil_r. constructor; auto. lia.
    + intros R. cbn [text_rest app]. rewrite directives_cons.
      replace (directive masm DElse (mk (mkif t0 x false :: a ++ tail lp bk t) o k))
        with (Ok (mk ((mkif 0 x' true :: a) ++ tail lp bk t) (o ++ JMP x' :: lab t0) k1)) by (unfold x', k1; cbn; destruct (x =? 0); reflexivity).
      cbn [bindr]. rewrite A5. rewrite <- app_assoc. reflexivity.
  - (* elseif *) intros c p IHp r IHr inloop lp a bk t t0 x o k Hp Ha Hin Hl Hb Ht Ht0 Hx. cbn [ok_rest] in Hp. destruct Hp as (Hc & Hpp & Hpr).
    set (x' := if x =? 0 then k + 1 else x). set (k1 := if x =? 0 then k + 1 else k).
    assert (Hx' : 0 < x' <= k1) by (unfold x', k1; destruct (Z.eqb_spec x 0); lia).
    assert (Hk : k <= k1) by (unfold k1; destruct (x =? 0); lia).
    destruct (evaluated masm false (k1 + 1) false (k1 + 1) c Hc ltac:(lia)) as (cc & k2 & E1 & Hk2 & HC & _).
    destruct (IHp inloop lp (mkif (k1 + 1) x' false :: a) bk t ((o ++ JMP x' :: lab t0) ++ cc) k2) as (bk3 & t3 & cb & k3 & A1 & A2 & A3 & A4 & A5); auto; try lia.
    { constructor; [reflexivity|exact Ha]. } { eapply lp_ok_le; [|exact Hl]. lia. }
    destruct (IHr inloop lp a bk3 t3 (k1 + 1) x' (((o ++ JMP x' :: lab t0) ++ cc) ++ cb) k3) as (bk4 & t4 & t0' & x4 & el & cr & k4 & C1 & C2 & C3 & C4 & C5 & C6); auto; try lia.
    { eapply lp_ok_le; [|exact Hl]. lia. } { eapply ext_range; eauto; lia. } { eapply textn_range; eauto; lia. }
    assert (x4 = x') as -> by (destruct C4 as [C4|[C4 _]]; [exact C4|lia]).
    exists bk4, t4, t0', x', el, (JMP x' :: lab t0 ++ cc ++ cb ++ cr), k4. split; [lia|].
    split; [destruct A2 as [->|A2], C2 as [->|C2]; unfold ext; lia|].
    split. { destruct A3 as [->|(H1 & H2 & H3)], C3 as [->|(D1 & D2 & D3)]; [now left|right|right|right]; repeat split; auto; lia. }
    split; [unfold ext, x', k1 in *; destruct (Z.eqb_spec x 0); lia|]. split.
    + cbn [app]. rewrite <- !app_assoc. apply (CR_elseif _ _ _ _ _ _ _ (k1 + 1)); [lia|exact HC| |].
      * eapply (weaken lp k3 k4 bk3 bk4 t3 t4); eauto. lia.
      * rewrite (lab_nz (k1 + 1)) in C5 by lia. exact C5.
    + intros R. cbn [text_rest app]. rewrite directives_cons.
      replace (directive masm (DElseIf (print c)) (mk (mkif t0 x false :: a ++ tail lp bk t) o k))
        with (Ok (mk ((mkif (k1 + 1) x' false :: a) ++ tail lp bk t) ((o ++ JMP x' :: lab t0) ++ cc) k2)).
      2:{ unfold x', k1 in *. cbn [directive HllExitDir else_part mk stack mkif i_cmd i_else i_exit i_test]. destruct (x =? 0);
          cbn [new_label mk stack out ctr emit bindr]; rewrite E1; reflexivity. }
      cbn [bindr]. rewrite <- app_assoc, A5. cbn [app]. rewrite C6. rewrite <- ?app_assoc. cbn [app]. rewrite <- ?app_assoc. reflexivity.
Qed.
End D.

(** * No label is defined twice *)
Definition cnt (l : list Z) (x : Z) : nat := count_occ Z.eq_dec l x.
Lemma cnt_app a b x : cnt (a ++ b) x = (cnt a x + cnt b x)%nat.
Proof. apply count_occ_app. Qed.
Definition pend (it : item) : list Z := labels (lab (i_test it)) ++ labels (lab (i_exit it)) ++ labels (i_cond it).
Definition all (h : hst) : list Z := flat_map pend (stack h) ++ labels (out h).
Record Inv (h : hst) : Prop := {
  inv_nodup : NoDup (all h);
  inv_range : forall x, In x (all h) -> x <= ctr h;
  inv_ctr : 0 <= ctr h;
  inv_items : forall it, In it (stack h) -> 0 <= i_test it <= ctr h /\ 0 <= i_exit it <= ctr h /\ (i_cmd it <> HLL_IF -> 0 < i_start it <= ctr h) }.
Definition adds (h h' : hst) : Prop :=
  exists fresh, NoDup fresh /\ (forall x, In x fresh -> ctr h < x <= ctr h') /\ ctr h <= ctr h' /\
    (forall x, cnt (all h') x = (cnt fresh x + cnt (all h) x)%nat).
Lemma cnt_in l x : (0 < cnt l x)%nat <-> In x l.
Proof. symmetry. apply count_occ_In. Qed.
Lemma adds_inv h h' : Inv h -> adds h h' ->
  (forall it, In it (stack h') -> 0 <= i_test it <= ctr h' /\ 0 <= i_exit it <= ctr h' /\ (i_cmd it <> HLL_IF -> 0 < i_start it <= ctr h')) -> Inv h'.
Proof.
  intros [H1 H2 H3 H4] (fr & F1 & F2 & F3 & F4) Hi. constructor.
  - apply (NoDup_count_occ Z.eq_dec). intros x. fold (cnt (all h') x). rewrite F4.
    pose proof (proj1 (NoDup_count_occ Z.eq_dec _) H1 x) as K1. pose proof (proj1 (NoDup_count_occ Z.eq_dec _) F1 x) as K2. fold (cnt (all h) x) in K1. fold (cnt fr x) in K2.
    destruct (Nat.eq_dec (cnt fr x) 0); [lia|]. assert (In x fr) by (apply cnt_in; lia).
    enough (cnt (all h) x = 0)%nat by lia. apply (count_occ_not_In Z.eq_dec). intros Hx. specialize (H2 _ Hx). specialize (F2 _ H). lia.
  - intros x Hx. apply cnt_in in Hx. rewrite F4 in Hx.
    destruct (Nat.eq_dec (cnt fr x) 0).
    + assert (In x (all h)) by (apply cnt_in; lia). specialize (H2 _ H). lia.
    + assert (In x fr) by (apply cnt_in; lia). specialize (F2 _ H). lia.
  - lia.
  - exact Hi.
Qed.

Lemma adds_inv_le h h' : Inv h -> ctr h <= ctr h' /\ (forall x, (cnt (all h') x <= cnt (all h) x)%nat) ->
  (forall it, In it (stack h') -> 0 <= i_test it <= ctr h' /\ 0 <= i_exit it <= ctr h' /\ (i_cmd it <> HLL_IF -> 0 < i_start it <= ctr h')) -> Inv h'.
Proof.
  intros [H1 H2 H3 H4] [F3 F4] Hi. constructor.
  - apply (NoDup_count_occ Z.eq_dec). intros x. fold (cnt (all h') x). specialize (F4 x).
    pose proof (proj1 (NoDup_count_occ Z.eq_dec _) H1 x) as K1. fold (cnt (all h) x) in K1. lia.
  - intros x Hx. apply cnt_in in Hx. specialize (F4 x). assert (In x (all h)) by (apply cnt_in; lia). specialize (H2 _ H). lia.
  - lia.
  - exact Hi.
Qed.

Definition okd (d : dir) : Prop :=
  match d with
  | DIf l | DElseIf l | DUntil l => exists c, l = print c /\ ok_cond false c
  | DWhile l => exists c, l = print c /\ ok_cond true c
  | DBreak (Some l) | DContinue (Some l) => exists c, l = print c /\ ok_cond true c
  | _ => True
  end.
Lemma find_loop_spec s : forall a it b, find_loop s = Some (a, it, b) -> s = a ++ it :: b /\ i_cmd it <> HLL_IF.
Proof.
  induction s as [|i s IH]; intros a it b H; [discriminate|]. cbn [find_loop] in H.
  destruct (i_cmd i) eqn:E.
  - destruct (find_loop s) as [[[a' x] b']|]; [|discriminate]. destruct (IH a' x b' eq_refl) as [-> Hx].
    assert (a = i :: a' /\ it = x /\ b = b') as (-> & -> & ->) by (repeat split; congruence). auto.
  - assert (a = [] /\ it = i /\ b = s) as (-> & -> & ->) by (repeat split; congruence). split; [reflexivity|congruence].
  - assert (a = [] /\ it = i /\ b = s) as (-> & -> & ->) by (repeat split; congruence). split; [reflexivity|congruence].
Qed.
Lemma labels_jmp x c : labels (JMP x :: c) = labels c.
Proof. reflexivity. Qed.
Lemma labels_lab x c : labels (LLab x :: c) = x :: labels c.
Proof. reflexivity. Qed.
Lemma fresh_seq k k' l : NoDup l -> (forall x, In x l -> k + 1 < x <= k') -> NoDup (k + 1 :: l).
Proof. intros H1 H2. constructor; [intros H; specialize (H2 _ H); lia|exact H1]. Qed.
Lemma cnt_cons a l x : cnt (a :: l) x = (cnt [a] x + cnt l x)%nat.
Proof. change (a :: l) with ([a] ++ l). apply cnt_app. Qed.

Ltac cnts := intros; unfold all, emit, with_stack, with_ctr, set_test, set_exit, set_else; cbn [stack out ctr flat_map]; unfold pend at 1; cbn [i_test i_exit i_cond];
  rewrite ?flat_map_app; cbn [flat_map]; unfold pend; cbn [i_test i_exit i_cond];
  rewrite ?labels_app, ?labels_jmp, ?labels_lab, ?cnt_app, ?(cnt_cons _ (_ :: _)); cbn [labels lab Z.eqb flat_map].

Lemma jump_inv masm x l k s o h' : match l with Some l => exists c, l = print c /\ ok_cond true c | None => True end -> 0 < x <= k ->
  Inv (mk s o k) -> jump_if masm x l (mk s o k) = Ok h' -> Inv h'.
Proof.
  intros Hl Hx HI E. destruct l as [l|]; cbn [jump_if] in E.
  - destruct Hl as (c & -> & Hc). destruct (evaluated masm false x true k c Hc Hx) as (cc & k' & E1 & Hk & _ & Hn & Hr & _). cbn [mk ctr] in E. rewrite E1 in E. cbn [bindr] in E.
    match type of E with Ok ?v = _ => assert (h' = v) as -> by congruence end. clear E. apply (adds_inv (mk s o k)); [exact HI| |].
    + exists (labels cc). split; [exact Hn|]. split; [exact Hr|]. split; [exact Hk|]. intros y. unfold mk. cnts. lia.
    + cbn. intros it H. pose proof (inv_items _ HI it H) as K. cbn in K. intuition lia.
  - assert (h' = emit (mk s o k) [JMP x]) as -> by congruence. apply (adds_inv_le (mk s o k)); [exact HI| |].
    + split; [cbn; lia|]. intros y. unfold mk. cnts. change (cnt [] y) with 0%nat. lia.
    + exact (inv_items _ HI).
Qed.
Lemma directive_inv masm d h h' : okd d -> Inv h -> directive masm d h = Ok h' -> Inv h'.
Proof.
  intros Hd HI E. pose proof HI as [I1 I2 I3 I4]. destruct d as [k|l|l| | |l| | |l|l|l]; cbn [directive] in E.
  - (* user *) assert (h' = emit h [LUser k]) as -> by congruence. apply (adds_inv h); [exact HI| |exact I4].
    exists []. split; [constructor|]. split; [intros x []|]. split; [cbn; lia|].
    intros x. unfold all. cbn [emit stack out]. rewrite labels_app. cbn. now rewrite app_nil_r.
  - (* if *) destruct Hd as (c & -> & Hc). cbn [HllStartDir new_label ctr stack out] in E.
    destruct (evaluated masm false (ctr h + 1) false (ctr h + 1) c Hc ltac:(lia)) as (cc & k1 & E1 & Hk1 & _ & Hn & Hr & _). rewrite E1 in E. cbn [bindr] in E.
    match type of E with Ok ?v = _ => assert (h' = v) as -> by congruence end. clear E.
    set (tl := match cc with [] => 0 | _ => ctr h + 1 end).
    apply (adds_inv h); [exact HI| |].
    + exists (labels (lab tl) ++ labels cc). split.
      { unfold tl. destruct cc; [constructor|]. rewrite lab_nz by lia. apply (fresh_seq (ctr h) k1); assumption. }
      cbn [with_stack emit with_ctr ctr]. split.
      { intros x. rewrite in_app_iff. intros [H|H]; [|specialize (Hr _ H); lia]. unfold tl in H. destruct cc; [destruct H|]. rewrite lab_nz in H by lia. destruct H as [<-|[]]. lia. }
      split; [lia|]. intros x. unfold all. cbn [with_stack emit with_ctr stack out flat_map]. unfold pend at 1. cbn [i_test i_exit i_cond]. fold tl.
      rewrite !labels_app, !cnt_app. cbn. lia.
    + cbn [with_stack emit with_ctr stack ctr]. intros it [<-|H].
      * cbn. fold tl. unfold tl. destruct cc; split; try lia; (split; [lia|congruence]).
      * specialize (I4 _ H). intuition lia.
  - (* elseif *) destruct Hd as (c & -> & Hc). cbn [HllExitDir] in E. unfold else_part in E.
    destruct (stack h) as [|it rest] eqn:Es; [discriminate|]. destruct (i_cmd it) eqn:Ec; try discriminate. destruct (i_else it); [discriminate|].
    set (x' := if i_exit it =? 0 then ctr h + 1 else i_exit it) in *. set (k1 := if i_exit it =? 0 then ctr h + 1 else ctr h).
    assert (Ex : (if i_exit it =? 0 then new_label h else (i_exit it, h)) = (x', {| stack := it :: rest; out := out h; ctr := k1 |})).
    { unfold x', k1. destruct (i_exit it =? 0); [unfold new_label; now rewrite Es|]. destruct h; cbn in *; now rewrite Es. }
    rewrite Ex in E. cbn [bindr new_label emit ctr stack out] in E.
    destruct (I4 it (or_introl eq_refl)) as (J1 & J2 & _).
    assert (Hk : ctr h <= k1 /\ 0 < x' <= k1) by (unfold k1, x'; destruct (Z.eqb_spec (i_exit it) 0); lia).
    destruct (evaluated masm false (k1 + 1) false (k1 + 1) c Hc ltac:(lia)) as (cc & k2 & E1 & Hk1 & _ & Hn & Hr & _). rewrite E1 in E. cbn [bindr] in E.
    match type of E with Ok ?v = _ => assert (h' = v) as -> by congruence end. clear E.
    apply (adds_inv h); [exact HI| |].
    + exists ((if i_exit it =? 0 then [x'] else []) ++ (k1 + 1) :: labels cc). split.
      { apply NoDup_both.
        - destruct (i_exit it =? 0); [|constructor]. constructor; [intros []|constructor].
        - apply (fresh_seq k1 k2); assumption.
        - intros x H. assert (x = x') by (destruct (i_exit it =? 0); [destruct H as [<-|[]]; reflexivity|destruct H]). subst x.
          intros [H1|H1]; [lia|]. specialize (Hr _ H1). lia. }
      cbn [with_stack emit with_ctr ctr]. split.
      { intros x. rewrite in_app_iff. intros [H|[<-|H]].
        - unfold x', k1 in *. destruct (i_exit it =? 0); [destruct H as [<-|[]]; lia|destruct H].
        - lia.
        - specialize (Hr _ H). lia. }
      split; [lia|]. intros x. cnts. rewrite Es. cbn [flat_map]. unfold pend. rewrite (lab_nz (k1 + 1)) by lia. rewrite (lab_nz x') by lia. rewrite !cnt_app. cbn [labels flat_map app].
      rewrite (cnt_cons (k1 + 1) (labels cc)).
      unfold x'. destruct (Z.eqb_spec (i_exit it) 0) as [Ez|Ez].
      * rewrite Ez. cbn [lab Z.eqb labels flat_map]. fold (labels cc). fold (labels (lab (i_test it))). fold (labels (i_cond it)). fold (labels (out h)). change (cnt [] x) with 0%nat. lia.
      * rewrite (lab_nz (i_exit it)) by exact Ez. cbn [labels flat_map app]. change (cnt [] x) with 0%nat. lia.
    + cbn [with_stack emit with_ctr stack ctr]. intros i [<-|H].
      * cbn. rewrite Ec. split; [lia|]. split; [lia|congruence].
      * specialize (I4 i (or_intror H)). intuition lia.
  - (* else *) cbn [HllExitDir] in E. unfold else_part in E.
    destruct (stack h) as [|it rest] eqn:Es; [discriminate|]. destruct (i_cmd it) eqn:Ec; try discriminate. destruct (i_else it); [discriminate|].
    set (x' := if i_exit it =? 0 then ctr h + 1 else i_exit it) in *. set (k1 := if i_exit it =? 0 then ctr h + 1 else ctr h).
    assert (Ex : (if i_exit it =? 0 then new_label h else (i_exit it, h)) = (x', {| stack := it :: rest; out := out h; ctr := k1 |})).
    { unfold x', k1. destruct (i_exit it =? 0); [unfold new_label; now rewrite Es|]. destruct h; cbn in *; now rewrite Es. }
    rewrite Ex in E. cbn [bindr new_label emit ctr stack out] in E.
    destruct (I4 it (or_introl eq_refl)) as (J1 & J2 & _).
    assert (Hk : ctr h <= k1 /\ 0 < x' <= k1) by (unfold k1, x'; destruct (Z.eqb_spec (i_exit it) 0); lia).
    match type of E with Ok ?v = _ => assert (h' = v) as -> by congruence end. clear E.
    apply (adds_inv h); [exact HI| |].
    + exists (if i_exit it =? 0 then [x'] else []). split.
      { destruct (i_exit it =? 0); [|constructor]. constructor; [intros []|constructor]. }
      cbn [with_stack emit with_ctr ctr]. split.
      { intros x H. unfold x', k1 in *. destruct (i_exit it =? 0); [destruct H as [<-|[]]; lia|destruct H]. }
      split; [lia|]. intros x. cnts. rewrite Es. cbn [flat_map]. unfold pend. rewrite (lab_nz x') by lia. rewrite !cnt_app. cbn [labels flat_map app].
      unfold x'. destruct (Z.eqb_spec (i_exit it) 0) as [Ez|Ez].
      * rewrite Ez. cbn [lab Z.eqb labels flat_map]. change (cnt [] x) with 0%nat. lia.
      * rewrite (lab_nz (i_exit it)) by exact Ez. cbn [labels flat_map app]. change (cnt [] x) with 0%nat. lia.
    + cbn [with_stack emit with_ctr stack ctr]. intros i [<-|H].
      * cbn. rewrite Ec. split; [lia|]. split; [lia|congruence].
      * specialize (I4 i (or_intror H)). intuition lia.
  - (* endif *) unfold HllEndDir in E. destruct (stack h) as [|it rest] eqn:Es; [discriminate|]. destruct (i_cmd it) eqn:Ec; try discriminate. cbn [bindr] in E.
    match type of E with Ok ?v = _ => assert (h' = v) as -> by congruence end. clear E.
    apply (adds_inv_le h); [exact HI| |].
    + cbn [with_stack emit with_ctr ctr]. split; [lia|]. intros x. cnts. rewrite Es. cbn [flat_map]. unfold pend. rewrite !cnt_app. lia.
    + cbn [with_stack emit stack ctr]. intros i H. apply I4. now right.
  - (* while *) destruct Hd as (c & -> & Hc). destruct (print_cons c) as (tk & tks & Ep). cbn [HllStartDir] in E. rewrite Ep in E. cbn [new_label ctr stack out] in E. rewrite <- Ep in E.
    destruct (evaluated masm false (ctr h + 1) true (ctr h + 1) c Hc ltac:(lia)) as (cc & k1 & E1 & Hk1 & _ & Hn & Hr & _). rewrite E1 in E. cbn [bindr] in E.
    destruct (starts_jmp cc); cbn [new_label with_ctr emit ctr stack out] in E;
    match type of E with Ok ?v = _ => assert (h' = v) as -> by congruence end; clear E; (apply (adds_inv h); [exact HI| |]).
    + exists ((ctr h + 1) :: labels cc). split; [apply (fresh_seq (ctr h) k1); assumption|]. cbn [with_stack emit with_ctr ctr]. split.
      { intros x [<-|H]; [lia|]. specialize (Hr _ H). lia. }
      split; [lia|]. intros x. cnts. rewrite (cnt_cons (ctr h + 1) (labels cc)). change (cnt [] x) with 0%nat. lia.
    + cbn [with_stack emit with_ctr stack ctr]. intros i [<-|H].
      * cbn. lia.
      * specialize (I4 _ H). intuition lia.
    + exists ((ctr h + 1) :: labels cc ++ [k1 + 1]). split.
      { apply (fresh_seq (ctr h) (k1 + 1)).
        - apply NoDup_both; [exact Hn|constructor; [intros []|constructor]|]. intros x H [<-|[]]. specialize (Hr _ H). lia.
        - intros x. rewrite in_app_iff. intros [H|[<-|[]]]; [specialize (Hr _ H); lia|lia]. }
      cbn [with_stack emit with_ctr ctr]. split.
      { intros x [<-|H]; [lia|]. rewrite in_app_iff in H. destruct H as [H|[<-|[]]]; [specialize (Hr _ H)|]; lia. }
      split; [lia|]. intros x. cnts. rewrite (cnt_cons (ctr h + 1) (labels cc ++ _)), cnt_app. rewrite (lab_nz (k1 + 1)) by lia. change (labels [LLab (k1 + 1)]) with [k1 + 1].
      change (cnt [] x) with 0%nat. lia.
    + cbn [with_stack emit with_ctr stack ctr]. intros i [<-|H].
      * cbn. lia.
      * specialize (I4 _ H). intuition lia.
  - (* endw *) unfold HllEndDir in E. destruct (stack h) as [|it rest] eqn:Es; [discriminate|]. destruct (i_cmd it) eqn:Ec; try discriminate. cbn [bindr] in E.
    match type of E with Ok ?v = _ => assert (h' = v) as -> by congruence end. clear E.
    apply (adds_inv_le h); [exact HI| |].
    + cbn [with_stack emit with_ctr ctr]. split; [lia|]. intros x. cnts. rewrite Es. cbn [flat_map]. unfold pend. rewrite !cnt_app. lia.
    + cbn [with_stack emit stack ctr]. intros i H. apply I4. now right.
  - (* repeat *) cbn [HllStartDir new_label ctr stack out emit with_stack] in E.
    match type of E with Ok ?v = _ => assert (h' = v) as -> by congruence end. clear E. apply (adds_inv h); [exact HI| |].
    + exists [ctr h + 1]. split; [constructor; [intros []|constructor]|]. cbn [with_stack emit with_ctr ctr]. split; [intros x [<-|[]]; lia|]. split; [lia|].
      intros x. cnts. change (cnt [] x) with 0%nat. lia.
    + cbn [with_stack emit with_ctr stack ctr]. intros i [<-|H].
      * cbn. lia.
      * specialize (I4 _ H). intuition lia.
  - (* until *) destruct Hd as (c & -> & Hc). destruct (print_cons c) as (tk & tks & Ep). unfold HllEndDir in E. destruct (stack h) as [|it rest] eqn:Es; [discriminate|].
    destruct (I4 it (or_introl eq_refl)) as (J1 & J2 & J3).
    rewrite Ep in E. destruct (i_cmd it) eqn:Ec; try discriminate. rewrite <- Ep in E. cbn [with_stack ctr] in E.
    destruct (evaluated masm true (i_start it) false (ctr h) c Hc ltac:(apply J3; congruence)) as (cc & k1 & E1 & Hk1 & _ & Hn & Hr & _). rewrite E1 in E. cbn [bindr] in E.
    match type of E with Ok ?v = _ => assert (h' = v) as -> by congruence end. clear E.
    set (hm := with_ctr h k1).
    assert (Hm : Inv {| stack := rest; out := out h ++ lab (i_test it) ++ lab (i_exit it); ctr := k1 |}).
    { apply (adds_inv_le h); [exact HI| |].
      - cbn [ctr]. split; [lia|]. intros x. cnts. rewrite Es. cbn [flat_map]. unfold pend. rewrite !cnt_app. lia.
      - cbn [stack ctr]. intros i H. specialize (I4 i (or_intror H)). intuition lia. }
    clear hm. constructor.
    + apply (NoDup_count_occ Z.eq_dec). intros x. match goal with |- (count_occ _ ?l x <= 1)%nat => fold (cnt l x) end.
      assert (EQ : (cnt (all (emit (emit (with_ctr (with_stack h rest) k1) (lab (i_test it) ++ cc)) (lab (i_exit it)))) x =
                    cnt (labels cc) x + cnt (all {| stack := rest; out := out h ++ lab (i_test it) ++ lab (i_exit it); ctr := k1 |}) x)%nat).
      { cnts. lia. }
      rewrite EQ. pose proof (proj1 (NoDup_count_occ Z.eq_dec _) (inv_nodup _ Hm) x) as K1. pose proof (proj1 (NoDup_count_occ Z.eq_dec _) Hn x) as K2.
      match type of K1 with (count_occ _ ?l x <= 1)%nat => fold (cnt l x) in K1 end. fold (cnt (labels cc) x) in K2.
      destruct (Nat.eq_dec (cnt (labels cc) x) 0); [lia|]. assert (In x (labels cc)) by (apply cnt_in; lia).
      enough (cnt (all {| stack := rest; out := out h ++ lab (i_test it) ++ lab (i_exit it); ctr := k1 |}) x = 0)%nat by lia. apply (count_occ_not_In Z.eq_dec). intros Hx.
      assert (Hx2 : In x (all h)).
      { apply cnt_in. apply cnt_in in Hx. eapply Nat.lt_le_trans; [exact Hx|]. cnts. rewrite Es. cbn [flat_map]. unfold pend. rewrite !cnt_app. lia. }
      specialize (I2 _ Hx2). specialize (Hr _ H). lia.
    + intros x Hx. cbn [emit with_ctr with_stack ctr].
      assert (Hx2 : In x (labels cc) \/ In x (all h)).
      { rewrite <- !cnt_in in *. enough (cnt (all (emit (emit (with_ctr (with_stack h rest) k1) (lab (i_test it) ++ cc)) (lab (i_exit it)))) x <= cnt (labels cc) x + cnt (all h) x)%nat by lia.
        cnts. rewrite Es. cbn [flat_map]. unfold pend. rewrite !cnt_app. lia. }
      destruct Hx2 as [H|H]; [specialize (Hr _ H)|specialize (I2 _ H)]; lia.
    + cbn. lia.
    + cbn [with_stack emit with_ctr stack ctr]. intros i H. specialize (I4 i (or_intror H)). intuition lia.
  - (* break *) cbn [HllExitDir] in E. destruct (find_loop (stack h)) as [[[a it] b]|] eqn:EF; [|discriminate]. apply find_loop_spec in EF as [Es Hc].
    destruct (I4 it) as (J1 & J2 & J3); [rewrite Es; apply in_or_app; right; now left|].
    set (x' := if i_exit it =? 0 then ctr h + 1 else i_exit it) in *. set (k1 := if i_exit it =? 0 then ctr h + 1 else ctr h).
    assert (Ex : (if i_exit it =? 0 then new_label h else (i_exit it, h)) = (x', {| stack := stack h; out := out h; ctr := k1 |})).
    { unfold x', k1. destruct (i_exit it =? 0); [reflexivity|]. now destruct h. }
    rewrite Ex in E. assert (Hk : ctr h <= k1 /\ 0 < x' <= k1) by (unfold k1, x'; destruct (Z.eqb_spec (i_exit it) 0); lia).
    apply (jump_inv masm x' l k1 (a ++ set_exit it x' :: b) (out h) h'); [destruct l; auto|lia| |exact E]. apply (adds_inv h); [exact HI| |].
    + exists (if i_exit it =? 0 then [x'] else []). split.
      { destruct (i_exit it =? 0); [|constructor]. constructor; [intros []|constructor]. }
      cbn [ctr mk]. split.
      { intros x H. unfold x', k1 in *. destruct (i_exit it =? 0); [destruct H as [<-|[]]; lia|destruct H]. }
      split; [lia|]. intros x. unfold mk. cnts. rewrite Es, flat_map_app. cbn [flat_map]. unfold pend. rewrite (lab_nz x') by lia. rewrite !cnt_app. 
      unfold x'. destruct (Z.eqb_spec (i_exit it) 0) as [Ez|Ez].
      * rewrite Ez. cbn [lab Z.eqb labels flat_map]. cbn [labels flat_map app]. change (cnt [] x) with 0%nat. lia.
      * rewrite (lab_nz (i_exit it)) by exact Ez. cbn [labels flat_map app]. change (cnt [] x) with 0%nat. lia.
    + cbn [mk stack ctr]. intros i H. apply in_app_iff in H as [H|[<-|H]].
      * specialize (I4 i ltac:(rewrite Es; apply in_or_app; now left)). intuition lia.
      * cbn. specialize (J3 Hc). intuition lia.
      * specialize (I4 i ltac:(rewrite Es; apply in_or_app; right; now right)). intuition lia.
  - (* continue *) cbn [HllExitDir] in E. destruct (find_loop (stack h)) as [[[a it] b]|] eqn:EF; [|discriminate]. apply find_loop_spec in EF as [Es Hc].
    destruct (I4 it) as (J1 & J2 & J3); [rewrite Es; apply in_or_app; right; now left|]. specialize (J3 Hc).
    set (new := match i_cmd it with HLL_REPEAT => i_test it =? 0 | _ => false end).
    set (x' := if new then ctr h + 1 else i_test it) in *. set (k1 := if new then ctr h + 1 else ctr h).
    assert (Hnew : new = true -> i_test it = 0) by (unfold new; destruct (i_cmd it); try discriminate; apply Z.eqb_eq).
    assert (Ex : match i_cmd it with HLL_REPEAT => if i_test it =? 0 then new_label h else (i_test it, h) | _ => (i_test it, h) end
                 = (x', {| stack := stack h; out := out h; ctr := k1 |})).
    { unfold x', k1, new. destruct (i_cmd it); [now destruct h|now destruct h|]. destruct (i_test it =? 0); [reflexivity|]. now destruct h. }
    rewrite Ex in E. assert (Hk : ctr h <= k1 /\ 0 <= x' <= k1) by (unfold k1, x'; destruct new; lia).
    apply (jump_inv masm (if x' =? 0 then i_start it else x') l k1 (a ++ set_test it x' :: b) (out h) h'); [destruct l; auto|destruct (Z.eqb_spec x' 0); lia| |exact E]. apply (adds_inv h); [exact HI| |].
    + exists (if new then [x'] else []). split.
      { destruct new; [|constructor]. constructor; [intros []|constructor]. }
      cbn [ctr mk]. split.
      { intros x H. unfold x', k1 in *. destruct new; [destruct H as [<-|[]]; lia|destruct H]. }
      split; [lia|]. intros x. unfold mk. cnts. rewrite Es, flat_map_app. cbn [flat_map]. unfold pend. rewrite !cnt_app.
      unfold x'. destruct new.
      * rewrite (Hnew eq_refl), (lab_nz (ctr h + 1)) by lia. cbn [lab Z.eqb labels flat_map]. cbn [labels flat_map app]. change (cnt [] x) with 0%nat. lia.
      * change (cnt [] x) with 0%nat. lia.
    + cbn [mk stack ctr]. intros i H. apply in_app_iff in H as [H|[<-|H]].
      * specialize (I4 i ltac:(rewrite Es; apply in_or_app; now left)). intuition lia.
      * cbn. intuition lia.
      * specialize (I4 i ltac:(rewrite Es; apply in_or_app; right; now right)). intuition lia.
Qed.

Lemma directives_inv masm l : forall h h', Forall okd l -> Inv h -> directives masm l h = Ok h' -> Inv h'.
Proof.
  induction l as [|d l IH]; intros h h' Hl Hh E.
  - cbn in E. assert (h' = h) by congruence. now subst.
  - rewrite directives_cons in E. inversion Hl as [|? ? H1 H2]; subst. destruct (directive masm d h) as [h1| |] eqn:E1; cbn [bindr] in E; try discriminate.
    eapply IH; [exact H2| |exact E]. eapply directive_inv; eauto.
Qed.
Lemma text_ok : (forall p inloop, ok_prog inloop p -> Forall okd (text p)) /\ (forall r inloop, ok_rest inloop r -> Forall okd (text_rest r)).
Proof.
  apply prog_rest_ind; cbn [ok_prog ok_rest text text_rest]; intros.
  - constructor.
  - constructor; [exact Logic.I|eauto].
  - destruct H2 as (Hc & Ht & Hr & Hp). constructor; [exists c; auto|]. apply Forall_app; split; [eauto|]. apply Forall_app; split; [eauto|]. constructor; [exact Logic.I|eauto].
  - destruct H1 as (Hc & _ & Ht & Hp). constructor; [exists c; auto|]. apply Forall_app; split; [eauto|]. constructor; [exact Logic.I|eauto].
  - destruct H1 as (Hc & Ht & Hp). constructor; [exact Logic.I|]. apply Forall_app; split; [eauto|]. constructor; [exists c; auto|eauto].
  - destruct H0 as (_ & Hc & Hp). constructor; [destruct c; cbn in *; eauto|eauto].
  - destruct H0 as (_ & Hc & Hp). constructor; [destruct c; cbn in *; eauto|eauto].
  - constructor.
  - constructor; [exact Logic.I|eauto].
  - destruct H1 as (Hc & Ht & Hp). constructor; [exists c; auto|]. apply Forall_app; split; eauto.
Qed.

Lemma CP_closed :
  (forall bk ct p c, CP bk ct p c -> ok_prog false p -> forall bk' ct', CP bk' ct' p c) /\
  (forall bk ct tl x r c, CR bk ct tl x r c -> ok_rest false r -> forall bk' ct', CR bk' ct' tl x r c).
Proof.
  apply CP_CR_ind; cbn [ok_prog ok_rest]; intros; try (destruct H1 as (H1 & _); discriminate); try (destruct H2 as (H2 & _); discriminate);
    try (destruct H3 as (H3 & _); discriminate).
  - constructor.
  - constructor. auto.
  - match goal with H : ok_cond _ _ /\ _ |- _ => destruct H as (_ & ? & ? & ?) end. econstructor; eauto.
  - match goal with H : ok_cond _ _ /\ _ |- _ => destruct H as (_ & _ & _ & ?) end. econstructor; eauto.
  - match goal with H : ok_cond _ _ /\ _ |- _ => destruct H as (_ & _ & _ & ?) end. econstructor; eauto.
  - match goal with H : ok_cond _ _ /\ _ |- _ => destruct H as (_ & _ & ?) end. econstructor; eauto.
  - constructor.
  - constructor; auto.
  - match goal with H : ok_cond _ _ /\ _ |- _ => destruct H as (_ & ? & ?) end. econstructor; eauto.
Qed.
Lemma program_ok masm counter p : ok_prog false p -> 0 <= counter ->
  exists code, translate masm counter (text p) = Ok code /\ NoDup (labels code) /\
    forall user, (forall k m f, sized m -> sized (fst (user k (m, f)))) ->
    forall s s', sized (fst s) -> runs user p s Normal s' -> steps user code (0%nat, s) (length code, s').
Proof.
  intros Hp Hk. destruct (proj1 (D_all masm) p false None [] 0 0 [] counter) as (bk & t & code & k' & A1 & A2 & A3 & A4 & A5); auto; try lia; try discriminate; try exact Logic.I.
  cbn [app tail] in A5. specialize (A5 []). rewrite app_nil_r in A5.
  assert (NoDup (labels code)) as HN.
  { assert (HI : Inv (mk [] code k')).
    { eapply (directives_inv masm (text p) (mk [] [] counter)); [exact (proj1 text_ok p false Hp)| |exact A5].
      constructor; cbn; [constructor|intros x []|lia|intros it []]. }
    exact (inv_nodup _ HI). }
  exists code. split; [|split; [exact HN|]].
  - unfold translate. unfold mk in A5. cbn [directives] in A5. rewrite A5. reflexivity.
  - intros user Hu s s' Hs HR. destruct (proj1 (simulation user Hu) p s Normal s' HR 0 0 code code [] []) as (_ & q & K1 & K2); auto.
    + exact (proj1 CP_closed _ _ _ _ A4 Hp 0 0).
    + now rewrite app_nil_r.
    + intros H; congruence.
    + intros H; congruence.
    + cbn in K1, K2. now subst q.
Qed.
