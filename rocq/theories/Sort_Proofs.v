From Coq Require Import Permutation Sorted.
From Verif Require Import Base Sort_Model Sort_Spec.

Section S.
Context {A : Type} (gt : A -> A -> bool).
Hypothesis W : weak_order gt.
Lemma gt_irrefl : forall a, gt a a = false.
Proof. intros a. destruct (gt a a) eqn:E; [|reflexivity]. rewrite (proj1 W a a E) in E. discriminate E. Qed.
Lemma round_eq : forall a b r, round gt (a :: b :: r) = if gt a b then let '(t, _) := round gt r in (b :: a :: t, true) else let '(t, c) := round gt (b :: r) in (a :: t, c).
Proof. reflexivity. Qed.
(** induction over rounds: two at a time after a swap *)
Lemma round_ind : forall P : list A -> list A -> bool -> Prop,
  P [] [] false -> (forall a, P [a] [a] false) ->
  (forall a b r t c, gt a b = true -> P r t c -> P (a :: b :: r) (b :: a :: t) true) ->
  (forall a b r t c, gt a b = false -> P (b :: r) t c -> P (a :: b :: r) (a :: t) c) ->
  forall l, P l (fst (round gt l)) (snd (round gt l)).
Proof.
  intros P P0 P1 P2 P3 l. assert (forall n l, (length l <= n)%nat -> P l (fst (round gt l)) (snd (round gt l))) as G; [|apply (G (length l) l); lia]. clear l.
  induction n as [|n IH]; intros l L.
  - destruct l; [exact P0|cbn in L; lia].
  - destruct l as [|a [|b r]]; [exact P0|apply P1|]. cbn [length] in L. rewrite round_eq.
    destruct (gt a b) eqn:E.
    + specialize (IH r ltac:(lia)). destruct (round gt r) as [t c]. cbn [fst snd] in *. eapply P2; eauto.
    + specialize (IH (b :: r) ltac:(cbn [length]; lia)).
      destruct (round gt (b :: r)) as [t c]. cbn [fst snd] in *. apply P3; assumption.
Qed.
Lemma round_perm : forall l, Permutation l (fst (round gt l)).
Proof.
  apply (round_ind (fun l t _ => Permutation l t)); intros; auto.
  - eapply perm_trans; [apply perm_swap|]. auto.
Qed.
Lemma round_stable : forall x l, filter (same_key gt x) (fst (round gt l)) = filter (same_key gt x) l.
Proof.
  intros x. apply (round_ind (fun l t _ => filter (same_key gt x) t = filter (same_key gt x) l)); auto.
  - intros a b r t c E IH. cbn [filter]. destruct (same_key gt x b) eqn:B, (same_key gt x a) eqn:Aa; rewrite ?IH; auto.
    exfalso. unfold same_key in *. apply andb_prop in B, Aa. destruct B as [B1 B2], Aa as [A1 A2]. rewrite negb_true_iff in *.
    rewrite (proj2 W a x b) in E; [discriminate|assumption|assumption].
  - intros a b r t c E IH. cbn [filter] in *. rewrite IH. reflexivity.
Qed.
Lemma round_unchanged : forall l, snd (round gt l) = false -> fst (round gt l) = l /\ Sorted (fun a b => gt a b = false) l.
Proof.
  apply (round_ind (fun l t c => c = false -> t = l /\ Sorted (fun a b => gt a b = false) l)).
  - intros _. split; [reflexivity|constructor].
  - intros a _. split; [reflexivity|repeat constructor].
  - discriminate.
  - intros a b r t c E IH C. destruct (IH C) as [-> S1]. split; [reflexivity|]. constructor; [exact S1|]. constructor. exact E.
Qed.
(** inversions *)
Definition above (a : A) (l : list A) : nat := length (filter (gt a) l).
Fixpoint inversions (l : list A) : nat := match l with [] => 0 | a :: r => above a r + inversions r end.
Lemma above_perm : forall a l l', Permutation l l' -> above a l = above a l'.
Proof.
  intros a l l' P. unfold above. induction P; cbn; auto; repeat match goal with |- context [if gt a ?x then _ else _] => destruct (gt a x) end; cbn; congruence.
Qed.
Lemma round_inversions : forall l, (inversions (fst (round gt l)) <= inversions l)%nat /\ (snd (round gt l) = true -> (inversions (fst (round gt l)) < inversions l)%nat).
Proof.
  intros l. pose proof round_perm as RP. revert l.
  assert (forall l, Permutation l (fst (round gt l)) /\ (inversions (fst (round gt l)) <= inversions l)%nat /\ (snd (round gt l) = true -> (inversions (fst (round gt l)) < inversions l)%nat)) as G; [|intros l; apply G].
  apply (round_ind (fun l t c => Permutation l t /\ (inversions t <= inversions l)%nat /\ (c = true -> (inversions t < inversions l)%nat))).
  - repeat split; auto. discriminate.
  - repeat split; auto. discriminate.
  - intros a b r t c E (P & I1 & _). split; [eapply perm_trans; [apply perm_swap|]; auto|].
    assert (above a (b :: r) = S (above a r)) as X1 by (unfold above; cbn [filter]; rewrite E; reflexivity).
    assert (above b (a :: t) = above b t) as X2 by (unfold above; cbn [filter]; rewrite (proj1 W a b E); reflexivity).
    cbn [inversions]. rewrite X1, X2, (above_perm a r t P), (above_perm b r t P). lia.
  - intros a b r t c E (P & I1 & I2). split; [auto|]. cbn [inversions] in *. rewrite (above_perm a (b :: r) t P). split; [lia|]. intros C. specialize (I2 C). lia.
Qed.
Lemma inversions_bound : forall l, (inversions l <= length l * length l)%nat.
Proof.
  induction l as [|a r IH]; cbn [inversions length]; [lia|]. assert (above a r <= length r)%nat by (unfold above; clear; induction r; cbn; [lia|destruct (gt a a0); cbn; lia]).
  nia.
Qed.
Lemma rounds_ok : forall n l, (inversions l < n)%nat -> exists l', rounds gt n l = Some l' /\ stably_sorted gt l l'.
Proof.
  induction n as [|n IH]; intros l H; [lia|]. cbn [rounds]. pose proof (round_perm l) as P. pose proof (round_inversions l) as [I1 I2].
  pose proof (fun x => round_stable x l) as ST. pose proof (round_unchanged l) as U.
  destruct (round gt l) as [t c]. cbn [fst snd] in *. destruct c.
  - destruct (IH t) as (l' & E & P' & S' & F'); [specialize (I2 eq_refl); lia|]. exists l'. split; [exact E|]. split; [eapply perm_trans; eauto|]. split; [exact S'|].
    intros x. rewrite F'. apply ST.
  - destruct (U eq_refl) as [-> SO]. exists l. split; [reflexivity|]. split; [apply Permutation_refl|]. split; [|reflexivity].
    apply Sorted_StronglySorted; [|exact SO]. intros a b d. apply (proj2 W).
Qed.
Lemma sort_ok : forall l, exists l', SortSegments gt l = Some l' /\ stably_sorted gt l l'.
Proof. intros l. apply rounds_ok. pose proof (inversions_bound l). lia. Qed.
End S.

(** a stable sort is unique *)
Lemma stable_unique : forall A (gt : A -> A -> bool), weak_order gt -> forall l l1 l2, stably_sorted gt l l1 -> stably_sorted gt l l2 -> l1 = l2.
Proof.
  intros A gt W l l1 l2 (P1 & S1 & F1) (P2 & S2 & F2).
  assert (Permutation l1 l2) as P by (eapply perm_trans; [apply Permutation_sym; exact P1|exact P2]).
  assert (forall x, filter (same_key gt x) l1 = filter (same_key gt x) l2) as F by (intros x; rewrite F1, F2; reflexivity).
  clear P1 P2 F1 F2 l. revert l2 S2 P F. induction S1 as [|a r1 S1 IH H1]; intros l2 S2 P F.
  - apply Permutation_nil in P. subst l2. reflexivity.
  - destruct l2 as [|b r2]; [apply Permutation_sym, Permutation_nil in P; discriminate|].
    inversion S2 as [|? ? S2' H2]; subst.
    assert (gt a a = false) as IA by (apply gt_irrefl; exact W). assert (gt b b = false) as IB by (apply gt_irrefl; exact W).
    assert (gt a b = false) as AB.
    { assert (In b (a :: r1)) as J by (apply (Permutation_in b (Permutation_sym P)); left; reflexivity). destruct J as [->|J]; [exact IB|].
      exact (proj1 (Forall_forall _ _) H1 b J). }
    assert (gt b a = false) as BA.
    { assert (In a (b :: r2)) as J by (apply (Permutation_in a P); left; reflexivity). destruct J as [->|J]; [exact IA|].
      exact (proj1 (Forall_forall _ _) H2 a J). }
    pose proof (F a) as FA. cbn [filter] in FA. assert (same_key gt a a = true) as K1 by (unfold same_key; rewrite IA; reflexivity). assert (same_key gt a b = true) as K2 by (unfold same_key; rewrite AB, BA; reflexivity).
    rewrite K1, K2 in FA. injection FA as -> _.
    f_equal. apply IH; [exact S2'|apply Permutation_cons_inv in P; exact P|].
    intros x. specialize (F x). cbn [filter] in F. destruct (same_key gt x b); [injection F as F; exact F|exact F].
Qed.

(** the three orders *)
Lemma strcmp_weak : weak_order strcmp_gt.
Proof.
  split.
  - induction a as [|x a IH]; intros [|y b] H; cbn in *; try discriminate; [reflexivity|].
    apply orb_prop in H. destruct H as [H|H].
    + replace (y >? x) with false by lia. replace (y =? x) with false by lia. reflexivity.
    + apply andb_prop in H. destruct H as [H1 H2]. apply Z.eqb_eq in H1. subst y. rewrite (IH _ H2). rewrite Z.eqb_refl. replace (x >? x) with false by lia. reflexivity.
  - induction a as [|x a IH]; intros [|y b] [|z c] H1 H2; cbn in *; try discriminate; try reflexivity.
    apply orb_false_elim in H1, H2. destruct H1 as [H1 H3], H2 as [H2 H4].
    destruct (Z.eqb_spec x z) as [->|N].
    + assert (y = z) as -> by lia. rewrite Z.eqb_refl in *. cbn [andb] in *. rewrite (IH b c H3 H4). replace (z >? z) with false by lia. reflexivity.
    + replace (x >? z) with false by lia. reflexivity.
Qed.
Lemma weak_map : forall A B (f : B -> A) gt, weak_order gt -> weak_order (fun x y => gt (f x) (f y)).
Proof. intros A B f gt [W1 W2]. split; [intros a b; apply W1|intros a b c; apply W2]. Qed.
Lemma gtb_weak : weak_order Z.gtb.
Proof. split; intros; lia. Qed.
Lemma lname_weak : weak_order lname_gt.
Proof.
  destruct strcmp_weak as [W1 W2]. split; unfold lname_gt.
  - intros [i a] [j b] H. cbn [fst snd] in *. apply orb_prop in H. destruct H as [H|H].
    + replace (j >? i) with false by lia. replace (j =? i) with false by lia. reflexivity.
    + apply andb_prop in H. destruct H as [H1 H2]. apply Z.eqb_eq in H1. subst j. rewrite (W1 _ _ H2), Z.eqb_refl. replace (i >? i) with false by lia. reflexivity.
  - intros [i a] [j b] [k c] H1 H2. cbn [fst snd] in *. apply orb_false_elim in H1, H2. destruct H1 as [H1 H3], H2 as [H2 H4].
    destruct (Z.eqb_spec i k) as [->|N].
    + assert (j = k) as -> by lia. rewrite Z.eqb_refl in *. cbn [andb] in *. rewrite (W2 a b c H3 H4). replace (k >? k) with false by lia. reflexivity.
    + replace (i >? k) with false by lia. reflexivity.
Qed.
