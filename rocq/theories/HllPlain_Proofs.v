(** Simple syntactic conditions under which a condition is translated correctly. *)
From Coq Require Import String Ascii List ZArith Bool Lia.
From Verif Require Import Base Hll_Model Hll_Spec Hll_Proofs HllTok_Proofs HllRun_Proofs.
Import ListNotations.
Open Scope Z_scope.

(** negations of a simple test *)
Fixpoint atomic (e : cond) : bool :=
  match e with
  | COne a => match k_kind (opnd a) with KConst _ => false | _ => true end
  | CNot e => atomic e
  | CPar _ | CAnd _ _ | COr _ _ => false
  | _ => true
  end.
Lemma atomic_ok e : atomic e = true -> forall b, ending b e = EndJump /\ fine b e = true.
Proof.
  induction e as [g s|a|a c|r a c|e IH|e IH|e1 IH1 e2 IH2|e1 IH1 e2 IH2]; cbn [atomic]; intros H b; try discriminate; try (split; reflexivity).
  - cbn [ending fine]. destruct (k_kind (opnd a)); try discriminate; auto.
  - cbn [ending fine]. now apply IH.
Qed.
Lemma plain_not e : wf 0 e -> plain (CNot e) = true -> atomic e = true.
Proof.
  induction e as [g s|a|a c|r a c|e IH|e IH|e1 IH1 e2 IH2|e1 IH1 e2 IH2]; cbn [atomic wf]; intros W H; try reflexivity; try discriminate.
  - cbn [plain] in H. exact H.
  - apply IH; [exact W|]. exact H.
  - lia.
  - lia.
Qed.
Lemma plain_fine e : forall lv, wf lv e -> plain e = true -> ending false e = EndJump /\ fine false e = true.
Proof.
  induction e as [g s|a|a c|r a c|e IH|e IH|e1 IH1 e2 IH2|e1 IH1 e2 IH2]; intros lv W H; try (split; reflexivity).
  - cbn [plain] in H. cbn [ending fine]. destruct (k_kind (opnd a)); try discriminate; auto.
  - cbn [wf] in W. pose proof (atomic_ok e (plain_not e W H) true) as [A1 A2]. cbn [ending fine negb]. auto.
  - cbn [wf plain] in *. cbn [ending fine]. eapply IH; [apply W|exact H].
  - cbn [wf plain] in *. apply andb_prop in H as [P1 P2]. destruct W as (_ & W1 & W2).
    destruct (IH1 _ W1 P1) as [_ F1]. destruct (IH2 _ W2 P2) as [E2 F2]. cbn [ending fine]. rewrite F1, F2. auto.
  - cbn [wf plain] in *. apply andb_prop in H as [P1 P2]. destruct W as (_ & W1 & W2).
    destruct (IH1 _ W1 P1) as [E1 F1]. destruct (IH2 _ W2 P2) as [E2 F2]. cbn [ending fine]. rewrite F1, F2, E2. cbn.
    assert (ending false (last_or e1) = EndJump) as ->; [|auto].
    destruct e1; try exact E1. cbn [last_or wf plain] in *. apply andb_prop in P1 as [_ P1].
    cbn [ending] in E1. destruct (ending false e1_2); congruence.
Qed.

Lemma flat_not lv e : wf lv e -> (lv = 0)%nat -> flat e = true -> atomic e = true.
Proof.
  revert lv. induction e as [g s|a|a c|r a c|e IH|e IH|e1 IH1 e2 IH2|e1 IH1 e2 IH2]; cbn [atomic wf flat]; intros lv W -> H; try reflexivity; try discriminate; auto.
  - now apply (IH 0%nat).
  - lia.
  - lia.
Qed.
Lemma flat_fine e : forall lv, wf lv e -> flat e = true -> forall b, fine b e = true.
Proof.
  induction e as [g s|a|a c|r a c|e IH|e IH|e1 IH1 e2 IH2|e1 IH1 e2 IH2]; intros lv W H b; try reflexivity; cbn [wf flat] in *.
  - pose proof (atomic_ok e (flat_not _ e W eq_refl H) (negb b)) as [A1 A2]. exact A2.
  - discriminate.
  - apply andb_prop in H as [P1 P2]. destruct W as (_ & W1 & W2). cbn [fine]. rewrite (IH1 _ W1 P1), (IH2 _ W2 P2). cbn.
    assert (ending b (last_and e1) = EndJump) as ->; [|now rewrite orb_true_r].
    destruct e1; cbn [last_and wf flat] in *; try reflexivity; try lia; try discriminate.
    + exact (proj1 (atomic_ok (COne a) P1 b)).
    + cbn [ending]. exact (proj1 (atomic_ok _ (flat_not _ _ W1 eq_refl P1) (negb b))).
    + apply andb_prop in P1 as [_ P1]. destruct W1 as (_ & _ & W1). exact (proj1 (atomic_ok _ (flat_not _ _ W1 eq_refl P1) b)).
  - apply andb_prop in H as [P1 P2]. destruct W as (_ & W1 & W2). cbn [fine]. rewrite (IH1 _ W1 P1), (IH2 _ W2 P2). cbn.
    destruct b; [reflexivity|]. cbn [orb].
    assert (forall lv e, wf lv e -> (lv <= 1)%nat -> flat e = true -> ending false e = EndJump) as Q.
    { clear. intros lv e W Hl H. destruct e; cbn [wf flat] in *; try reflexivity; try discriminate; try lia.
      - exact (proj1 (atomic_ok (COne a) H false)).
      - exact (proj1 (atomic_ok _ (flat_not _ _ W eq_refl H) true)).
      - apply andb_prop in H as [_ H]. destruct W as (_ & _ & W). exact (proj1 (atomic_ok _ (flat_not _ _ W eq_refl H) false)). }
    rewrite (Q 1%nat e2 W2 ltac:(lia) P2). rewrite andb_true_r.
    assert (ending false (last_or e1) = EndJump) as ->; [|reflexivity].
    destruct e1; cbn [last_or]; try (apply (Q 1%nat); [|lia|exact P1]; cbn [wf] in *; try exact W1).
    + destruct W1 as (_ & W1 & W1'). split; [lia|]. auto.
    + cbn [wf flat] in *. apply andb_prop in P1 as [_ P1]. apply (Q 1%nat); [apply W1|lia|exact P1].
Qed.

(** the code inside of a program *)
Lemma condition_ok masm rep L b counter e : wf 2 e -> fine b e = true -> 0 < L <= counter ->
  exists code counter', EvaluateHllExpression masm rep L b counter (print e) = Ok (code, counter') /\
    counter <= counter' /\ NoDup (labels code) /\ (forall x, In x (labels code) -> counter < x <= counter') /\
    forall user before after q m f, let P := before ++ code ++ after in
      NoDup (labels P) -> place L P = Some q -> sized m ->
      let '(v, f') := eval m e f in
      steps user P (length before, (m, f)) ((if Bool.eqb v b then q else length before + length code)%nat, (m, f')).
Proof.
  intros W F HL. destruct (evaluate_ok masm rep L b counter e W F HL) as (code & k & E & C). exists code, k. split; [exact E|].
  split; [exact (cd_le _ _ _ _ _ _ C)|]. split; [exact (cd_nodup _ _ _ _ _ _ C)|]. split; [exact (cd_lab _ _ _ _ _ _ C)|].
  intros user A B q m f P HN HP Hm. destruct (eval m e f) as [v f'] eqn:Ee.
  eapply (cond_steps user P A code B); [reflexivity|exact HN|exact (cd_sem _ _ _ _ _ _ C)|exact Hm|exact Ee|intros _; exact HP].
Qed.
