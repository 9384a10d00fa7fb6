(** Proofs about the sorting of the cases. *)
From Coq Require Import ZArith List Bool Lia Permutation.
From Verif Require Import Base Switch_Model Switch_Spec.
Import ListNotations.
Open Scope Z_scope.

(** Strictly increasing values. *)
Inductive asc : list (Z * Z) -> Prop :=
| asc_nil : asc []
| asc_cons : forall c l, Forall (fun d => fst c < fst d) l -> asc l -> asc (c :: l).

Lemma sink_perm : forall l x m r, sink x l = (m, r) -> Permutation (x :: l) (m :: r).
Proof.
  induction l as [|y l IH]; intros x m r H; cbn in H.
  - injection H as <- <-. auto.
  - destruct (fst y <? fst x).
    + destruct (sink y l) as [m1 r1] eqn:E. injection H as <- <-.
      apply IH in E. eapply perm_trans; [apply perm_skip; exact E|apply perm_swap].
    + destruct (sink x l) as [m1 r1] eqn:E. injection H as <- <-.
      apply IH in E. eapply perm_trans; [apply perm_swap|].
      eapply perm_trans; [apply perm_skip; exact E|apply perm_swap].
Qed.

Lemma sink_min : forall l x m r, sink x l = (m, r) ->
  fst m <= fst x /\ Forall (fun d => fst m <= fst d) r.
Proof.
  induction l as [|y l IH]; intros x m r H; cbn in H.
  - injection H as <- <-. split; [lia|constructor].
  - destruct (Z.ltb_spec (fst y) (fst x)) as [L|L].
    + destruct (sink y l) as [m1 r1] eqn:E. injection H as <- <-.
      apply IH in E as [E1 E2]. split; [lia|]. constructor; [lia|exact E2].
    + destruct (sink x l) as [m1 r1] eqn:E. injection H as <- <-.
      apply IH in E as [E1 E2]. split; [lia|]. constructor; [lia|exact E2].
Qed.

Lemma xsort_perm : forall n l, Permutation l (xsort n l).
Proof.
  induction n as [|n IH]; intros l; cbn; [destruct l; auto|].
  destruct l as [|x l]; [auto|].
  destruct (sink x l) as [m r] eqn:E. apply sink_perm in E.
  eapply perm_trans; [exact E|]. apply perm_skip. apply IH.
Qed.

Lemma xsort_asc : forall n l, (length l <= n)%nat -> NoDup (map fst l) -> asc (xsort n l).
Proof.
  induction n as [|n IH]; intros l L N.
  - destruct l; [constructor|cbn in L; lia].
  - destruct l as [|x l]; [constructor|]. cbn [xsort].
    destruct (sink x l) as [m r] eqn:E.
    pose proof (sink_perm _ _ _ _ E) as P. apply sink_min in E as [_ M].
    assert (N2 : NoDup (map fst (m :: r))).
    { apply (Permutation_NoDup (l := map fst (x :: l))); [|exact N].
      apply Permutation_map. exact P. }
    cbn [map] in N2. apply NoDup_cons_iff in N2 as [N3 N4].
    constructor.
    + apply (Permutation_Forall (xsort_perm n r)).
      apply Forall_forall. intros d D. rewrite Forall_forall in M. specialize (M d D).
      assert (fst d <> fst m); [|lia]. intro K. apply N3. rewrite <- K. apply in_map. exact D.
    + apply IH; [|exact N4]. apply Permutation_length in P. cbn in P, L. lia.
Qed.

Lemma pick_in : forall o l v x, NoDup (map fst l) -> In (v, x) l -> pick o l v = x.
Proof.
  induction l as [|[y k] l IH]; intros v x N H; [destruct H|].
  cbn [map fst] in N. apply NoDup_cons_iff in N as [N1 N2]. cbn [pick].
  destruct (Z.eqb_spec y v) as [->|D].
  - destruct H as [H|H]; [congruence|]. exfalso. apply N1.
    change v with (fst (v, x)). apply in_map. exact H.
  - destruct H as [H|H]; [congruence|]. apply IH; assumption.
Qed.

Lemma pick_out : forall o l v, ~ In v (map fst l) -> pick o l v = o.
Proof.
  induction l as [|[y k] l IH]; intros v H; [reflexivity|].
  cbn [pick]. cbn [map fst In] in H.
  destruct (Z.eqb_spec y v) as [->|D]; [exfalso; apply H; left; reflexivity|].
  apply IH. intro K. apply H. right. exact K.
Qed.

Lemma pick_perm : forall o l l' v, Permutation l l' -> NoDup (map fst l) -> pick o l v = pick o l' v.
Proof.
  intros o l l' v P N.
  assert (N' : NoDup (map fst l')) by (apply (Permutation_NoDup (l := map fst l)); [apply Permutation_map; exact P|exact N]).
  destruct (in_dec Z.eq_dec v (map fst l)) as [I|I].
  - apply in_map_iff in I as ([y k] & Y & I). cbn in Y. subst y.
    rewrite (pick_in o l v k N I). symmetry. apply pick_in; [exact N'|].
    apply (Permutation_in _ P I).
  - rewrite (pick_out o l v I). symmetry. apply pick_out. intro K. apply I.
    apply (Permutation_in _ (Permutation_sym (Permutation_map fst P)) K).
Qed.

(** ** The least and the greatest value *)

Lemma least_spec : forall l, l <> [] ->
  In (least l) (map fst l) /\ Forall (fun c => least l <= fst c) l.
Proof.
  intros [|[x k] r] H; [congruence|]. clear H. cbn [least].
  assert (G : forall r : list (Z * Z), In (fold_right (fun c m => Z.min (fst c) m) x r) (x :: map fst r) /\
    fold_right (fun c m => Z.min (fst c) m) x r <= x /\
    Forall (fun c => fold_right (fun c m => Z.min (fst c) m) x r <= fst c) r).
  { induction r0 as [|[y j] r0 (I1 & I2 & I3)]; cbn [fold_right map fst].
    - repeat split; [left; reflexivity|lia|constructor].
    - set (m := fold_right _ _ r0) in *. clearbody m. repeat split.
      + destruct (Z.min_spec y m) as [[_ ->]|[_ ->]]; [right; left; reflexivity|].
        destruct I1 as [I1|I1]; [left; exact I1|right; right; exact I1].
      + lia.
      + constructor; [cbn; lia|]. apply (Forall_impl _ (fun c (P : m <= fst c) => Z.le_trans _ _ _ (Z.le_min_r y m) P) I3). }
  destruct (G r) as (G1 & G2 & G3). split; [exact G1|]. constructor; [exact G2|exact G3].
Qed.

Lemma greatest_spec : forall l, l <> [] ->
  In (greatest l) (map fst l) /\ Forall (fun c => fst c <= greatest l) l.
Proof.
  intros [|[x k] r] H; [congruence|]. clear H. cbn [greatest].
  assert (G : forall r : list (Z * Z), In (fold_right (fun c m => Z.max (fst c) m) x r) (x :: map fst r) /\
    x <= fold_right (fun c m => Z.max (fst c) m) x r /\
    Forall (fun c => fst c <= fold_right (fun c m => Z.max (fst c) m) x r) r).
  { induction r0 as [|[y j] r0 (I1 & I2 & I3)]; cbn [fold_right map fst].
    - repeat split; [left; reflexivity|lia|constructor].
    - set (m := fold_right _ _ r0) in *. clearbody m. repeat split.
      + destruct (Z.max_spec y m) as [[_ ->]|[_ ->]]; [|right; left; reflexivity].
        destruct I1 as [I1|I1]; [left; exact I1|right; right; exact I1].
      + lia.
      + constructor; [cbn; lia|]. apply (Forall_impl _ (fun c (P : fst c <= m) => Z.le_trans _ _ _ P (Z.le_max_r y m)) I3). }
  destruct (G r) as (G1 & G2 & G3). split; [exact G1|]. constructor; [exact G2|exact G3].
Qed.

Lemma least_unique : forall l m, In m (map fst l) -> Forall (fun c => m <= fst c) l -> least l = m.
Proof.
  intros l m I F. destruct l as [|c l]; [destruct I|].
  destruct (least_spec (c :: l)) as [L1 L2]; [discriminate|].
  rewrite Forall_forall in F, L2.
  apply in_map_iff in I as (d & <- & I). apply in_map_iff in L1 as (e & E & L1).
  specialize (F e L1). specialize (L2 d I). lia.
Qed.

Lemma greatest_unique : forall l m, In m (map fst l) -> Forall (fun c => fst c <= m) l -> greatest l = m.
Proof.
  intros l m I F. destruct l as [|c l]; [destruct I|].
  destruct (greatest_spec (c :: l)) as [L1 L2]; [discriminate|].
  rewrite Forall_forall in F, L2.
  apply in_map_iff in I as (d & <- & I). apply in_map_iff in L1 as (e & E & L1).
  specialize (F e L1). specialize (L2 d I). lia.
Qed.

Lemma asc_last : forall l c, asc (l ++ [c]) -> Forall (fun d => fst d <= fst c) (l ++ [c]).
Proof.
  induction l as [|d l IH]; intros c H; cbn in *.
  - constructor; [lia|constructor].
  - inversion H as [|? ? F A]; subst. constructor; [|apply IH; exact A].
    apply Forall_app in F as [_ F]. apply Forall_cons_iff in F as [F _]. lia.
Qed.

Lemma asc_bounds : forall l, asc l -> l <> [] -> mincase l = least l /\ maxcase l = greatest l.
Proof.
  intros l A N. split.
  - symmetry. destruct l as [|c l]; [congruence|]. cbn [mincase]. inversion A as [|? ? F _]; subst.
    apply least_unique; [left; reflexivity|]. constructor; [lia|].
    apply (Forall_impl _ (fun d (P : fst c < fst d) => Z.lt_le_incl _ _ P) F).
  - symmetry. destruct (exists_last N) as (p & c & ->).
    unfold maxcase. rewrite last_last. apply greatest_unique.
    + rewrite map_app. apply in_app_iff. right. left. reflexivity.
    + apply asc_last. exact A.
Qed.

Lemma least_perm : forall l l', Permutation l l' -> least l' = least l.
Proof.
  intros l l' P. destruct l as [|c l].
  - apply Permutation_nil in P. subst. reflexivity.
  - destruct (least_spec (c :: l)) as [L1 L2]; [discriminate|].
    apply least_unique.
    + apply (Permutation_in _ (Permutation_map fst P) L1).
    + apply (Permutation_Forall P L2).
Qed.

Lemma greatest_perm : forall l l', Permutation l l' -> greatest l' = greatest l.
Proof.
  intros l l' P. destruct l as [|c l].
  - apply Permutation_nil in P. subst. reflexivity.
  - destruct (greatest_spec (c :: l)) as [L1 L2]; [discriminate|].
    apply greatest_unique.
    + apply (Permutation_in _ (Permutation_map fst P) L1).
    + apply (Permutation_Forall P L2).
Qed.

Lemma zlen_perm : forall (l l' : list (Z * Z)), Permutation l l' -> zlen l' = zlen l.
Proof. intros l l' P. unfold zlen. rewrite (Permutation_length P). reflexivity. Qed.

Lemma proper_perm : forall l l', Permutation l l' -> proper l -> proper l'.
Proof.
  intros l l' P [N F]. split.
  - apply (Permutation_NoDup (l := map fst l)); [apply Permutation_map; exact P|exact N].
  - apply (Permutation_Forall P F).
Qed.
