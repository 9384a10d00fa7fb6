(** The labels of the body of a .SWITCH are different from each other and from
    the labels of the lines in between. *)
From Coq Require Import ZArith List Bool Lia.
From Verif Require Import Base Switch_Model Switch_Spec.
Import ListNotations.
Open Scope Z_scope.

Definition grow (s s' : bst) : Prop :=
  b_cnt s <= b_cnt s' /\ exists q, b_out s' = b_out s ++ q /\ NoDup (labels_set q) /\ Forall (fun n => b_cnt s < n <= b_cnt s') (labels_set q).

Lemma labels_app : forall a b, labels_set (a ++ b) = labels_set a ++ labels_set b.
Proof. intros. apply flat_map_app. Qed.

Lemma grow_refl : forall s, grow s s.
Proof. intro s. split; [lia|]. exists []. rewrite app_nil_r. repeat constructor. Qed.

Lemma nodup_two : forall (a b : list Z) x y z, NoDup a -> NoDup b -> Forall (fun n => x < n <= y) a -> Forall (fun n => y < n <= z) b -> NoDup (a ++ b).
Proof.
  induction a as [|n a IH]; intros b x y z A B F G; [exact B|]. cbn. apply NoDup_cons_iff in A as [N A]. apply Forall_cons_iff in F as [F0 F].
  constructor; [|exact (IH b x y z A B F G)]. rewrite in_app_iff. intros [I|I]; [exact (N I)|].
  rewrite Forall_forall in G. specialize (G n I). lia.
Qed.

Lemma grow_trans : forall a b c, grow a b -> grow b c -> grow a c.
Proof.
  intros a b c (L1 & p & P & N1 & F1) (L2 & q & Q & N2 & F2). split; [lia|]. exists (p ++ q).
  rewrite Q, P, app_assoc, labels_app. split; [reflexivity|]. split; [exact (nodup_two _ _ _ _ _ N1 N2 F1 F2)|].
  apply Forall_app. split; [eapply Forall_impl; [|exact F1]|eapply Forall_impl; [|exact F2]]; intros n H; cbn beta in *; lia.
Qed.

Lemma grow_new : forall s, grow s (new_label s).
Proof.
  intro s. unfold new_label. destruct (b_brk s); [|apply grow_refl].
  split; cbn [b_cnt b_out]; [lia|]. exists [BLabel (b_cnt s + 1)]. cbn. repeat constructor; auto; lia.
Qed.

Lemma grow_values : forall c8 vs s s', case_values c8 s vs = Ok s' -> grow s s'.
Proof.
  induction vs as [|v vs IH]; intros s s' H; cbn [case_values] in H; [injection H as <-; apply grow_refl|].
  unfold one_case in H. destruct (existsb _ _); [discriminate|].
  eapply grow_trans; [apply grow_new|]. apply IH in H. destruct H as (L & q & Q). cbn [b_cnt b_out] in *. split; [exact L|]. exists q. exact Q.
Qed.

Lemma grow_asm : forall next s, grow s (asm_case next s).
Proof.
  intros next s. unfold asm_case. destruct next; [destruct (b_multi s =? 0)|destruct (1 <=? b_multi s)];
    (split; cbn [b_cnt b_out]; [lia|]); [exists [BExit]|exists []|exists []|exists [BExit]]; rewrite ?app_nil_r; repeat constructor.
Qed.

Lemma grow_item : forall asm c8 s i next s', counts [i] -> one_item asm c8 s i next = Ok s' -> grow s s'.
Proof.
  intros asm c8 s i next s' CT H. destruct i as [vs| | |id|id k]; cbn [one_item] in H.
  - destruct vs as [|v vs]; [discriminate|]. apply grow_values in H. eapply grow_trans; [|exact H].
    destruct asm; [apply grow_asm|apply grow_refl].
  - unfold default in H. destruct (b_def s); [discriminate|]. injection H as <-. split; cbn [b_cnt b_out]; [lia|].
    eexists. split; [reflexivity|]. destruct (asm && _); cbn; repeat constructor; auto; lia.
  - injection H as <-. split; cbn [b_cnt b_out]; [lia|]. exists [BExit]. repeat constructor.
  - injection H as <-. split; cbn [b_cnt b_out]; [lia|]. exists [BExitIf id]. repeat constructor.
  - injection H as <-. apply Forall_inv in CT. cbn in CT. split; cbn [b_cnt b_out]; [lia|]. exists [BCode id]. repeat constructor.
Qed.

Lemma grow_items : forall asm c8 l s s', counts l -> items asm c8 s l = Ok s' -> grow s s'.
Proof.
  induction l as [|i l IH]; intros s s' CT H; cbn [items] in H; [injection H as <-; apply grow_refl|].
  apply Forall_cons_iff in CT as [C1 C2].
  destruct (one_item asm c8 s i _) as [s1| |] eqn:E; try discriminate.
  eapply grow_trans; [|exact (IH _ _ C2 H)]. eapply grow_item; [|exact E]. constructor; [exact C1|constructor].
Qed.

Lemma items_before : forall asm c8 id k l2 l1 s, items asm c8 s (l1 ++ ICode id k :: l2) =
  match items asm c8 s l1 with Ok s1 => items asm c8 s1 (ICode id k :: l2) | e => e end.
Proof.
  induction l1 as [|i l1 IH]; intro s; [reflexivity|]. cbn [app items].
  replace (match l1 ++ ICode id k :: l2 with j :: _ => is_case j | [] => false end) with (match l1 with j :: _ => is_case j | [] => false end)
    by (destruct l1; reflexivity).
  destruct (one_item _ _ _ _ _); [apply IH|reflexivity|reflexivity].
Qed.

Lemma labels_ok : forall asm c8 cnt l1 id k l2 s, counts (l1 ++ ICode id k :: l2) ->
  items asm c8 (start cnt) (l1 ++ ICode id k :: l2) = Ok s ->
  exists s1, items asm c8 (start cnt) l1 = Ok s1 /\ NoDup (labels_set (b_out s)) /\
  (cnt + 8 <= b_cnt s1 /\ b_cnt s1 + k <= b_cnt s) /\
  Forall (fun n => cnt + 8 < n <= b_cnt s /\ ~ (b_cnt s1 < n <= b_cnt s1 + k)) (labels_set (b_out s)).
Proof.
  intros asm c8 cnt l1 id k l2 s CT H. rewrite items_before in H.
  destruct (items asm c8 (start cnt) l1) as [s1| |] eqn:E; try discriminate. exists s1. split; [reflexivity|].
  apply Forall_app in CT as [C1 C2]. apply Forall_cons_iff in C2 as [C2 C3]. cbn in C2.
  cbn [items one_item] in H. apply (grow_items asm c8 l2 _ _ C3) in H. apply (grow_items asm c8 l1 _ _ C1) in E.
  destruct E as (L1 & p & P & N1 & F1). destruct H as (L2 & q & Q & N2 & F2). cbn [b_cnt b_out start app] in *.
  rewrite Q, P, !labels_app. cbn [labels_set flat_map app]. rewrite app_nil_r.
  assert (F1' : Forall (fun n => cnt + 8 < n <= b_cnt s1 + k) (labels_set p)) by (eapply Forall_impl; [|exact F1]; intros; cbn beta in *; lia).
  split; [exact (nodup_two _ _ _ _ _ N1 N2 F1' F2)|]. split; [lia|]. apply Forall_app. split; [eapply Forall_impl; [|exact F1]|eapply Forall_impl; [|exact F2]]; intros n X; cbn beta in *; lia.
Qed.
